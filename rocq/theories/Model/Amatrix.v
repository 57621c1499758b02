(** Model of src/amatrix.cc (AMatrix<double> over Armadillo 14.2.3, WORKSPACE:162-175).

    Armadillo's bounds and size checks are active (no ARMA_NO_DEBUG in BUILD/.bazelrc), so a failed
    check is [Throw]; [matrix_.at(i)] is documented as unchecked, so out of range it is [Ub].
    Index arguments of type size_t are modelled by [Z]; a caller passing a negative [int] passes
    [size_of] of it.  Reduction order inside Armadillo's mean/stddev is taken to be first to last
    (over binary64 Armadillo may use two accumulators; statements about means are made over R). *)
From Coq Require Import ZArith List Bool.
From Verif Require Import Base.Res Base.Num Base.Lists Base.Mat.
Import ListNotations.
Open Scope Z_scope.

Definition two64 : Z := 2 ^ 64.
(** conversion of an integer to size_t (arma::uword with ARMA_64BIT_WORD, amatrix.h:26) *)
Definition size_of (z : Z) : Z := z mod two64.
(** conversion of a 64-bit value to int (implementation-defined modulo before C++20, two's complement) *)
Definition int_of (z : Z) : Z := let m := z mod 2 ^ 32 in if m <? 2 ^ 31 then m else m - 2 ^ 32.

Section Amatrix.
  Context {T : Type} {N : Num T}.
  Local Open Scope res_scope.

  Definition at_ (M : mat T) (r c : nat) : T := mget n0 M r c.

  (** amatrix.cc:92-97 Filled *)
  Definition m_filled (r c : nat) (v : T) : mat T := tab r c (fun _ _ => v).

  (** amatrix.cc:75-77 AMatrix(rows, cols): Armadillo >= 10.5 zero-initialises *)
  Definition m_new (r c : nat) : mat T := m_filled r c n0.

  (** amatrix.cc:37-39 AMatrix(std::vector), 42-44 AMatrix(Span): one column *)
  Definition m_of_col (l : list T) : mat T := MkMat (length l) 1%nat l.

  (** amatrix.cc:55-61 AMatrix(vector of columns): number of rows from the first column, every
      other column must match (Armadillo's subview assignment throws otherwise); reading
      vecOfCols[0] of an empty vector is undefined *)
  Definition m_of_cols (cs : list (list T)) : res (mat T) :=
    match cs with
    | [] => Ub
    | c0 :: _ =>
        if forallb (fun c => Nat.eqb (length c) (length c0)) cs
        then Ret (MkMat (length c0) (length cs) (concat cs))
        else Throw
    end.

  (** amatrix.cc:64-72 AMatrix(rows, cols, data): reads rows*cols elements starting at &data[0] *)
  Definition m_of_data (r c : nat) (l : list T) : res (mat T) :=
    if Nat.leb (r * c) (length l) then Ret (MkMat r c (firstn (r * c) l)) else Ub.

  (** amatrix.cc:99-107 operator()(row, column): checked *)
  Definition m_rc (M : mat T) (r c : Z) : res T :=
    if (0 <=? r) && (r <? Z.of_nat (nrows M)) && (0 <=? c) && (c <? Z.of_nat (ncols M))
    then Ret (at_ M (Z.to_nat r) (Z.to_nat c)) else Throw.

  (** amatrix.cc:114-117 const operator()(elementIndex): checked *)
  Definition m_lin (M : mat T) (i : nat) : res T :=
    match nth_error (elems M) i with Some v => Ret v | None => Throw end.

  (** amatrix.cc:109-112 non-const operator()(elementIndex): uses .at, unchecked *)
  Definition m_lin_mut (M : mat T) (i : nat) : res T :=
    match nth_error (elems M) i with Some v => Ret v | None => Ub end.
  Definition m_lin_set (M : mat T) (i : nat) (v : T) : res (mat T) :=
    if Nat.ltb i (length (elems M)) then Ret (MkMat (nrows M) (ncols M) (upd (elems M) i v)) else Ub.

  (** amatrix.cc:99-102 assignment through the non-const operator()(row, column): checked *)
  Definition m_rc_set (M : mat T) (r c : Z) (v : T) : res (mat T) :=
    if (0 <=? r) && (r <? Z.of_nat (nrows M)) && (0 <=? c) && (c <? Z.of_nat (ncols M))
    then Ret (MkMat (nrows M) (ncols M) (upd (elems M) (Z.to_nat c * nrows M + Z.to_nat r) v)) else Throw.

  (** std::equal on two ranges of equal length *)
  Fixpoint list_eqb (a b : list T) : bool :=
    match a, b with
    | [], _ => true
    | x :: a', y :: b' => if neqb x y then list_eqb a' b' else false
    | _ :: _, [] => false
    end.

  (** amatrix.cc:125-132 operator== *)
  Definition m_eqb (A B : mat T) : bool :=
    if negb (Nat.eqb (nrows A) (nrows B)) then false
    else if negb (Nat.eqb (ncols A) (ncols B)) then true
    else list_eqb (elems A) (elems B).

  Definition same_size (A B : mat T) : bool :=
    Nat.eqb (nrows A) (nrows B) && Nat.eqb (ncols A) (ncols B).

  (** element-wise binary operations: Armadillo throws when the sizes differ *)
  Definition m_zip (f : T -> T -> T) (A B : mat T) : res (mat T) :=
    if same_size A B
    then Ret (tab (nrows A) (ncols A) (fun r c => f (at_ A r c) (at_ B r c)))
    else Throw.
  (** amatrix.cc:134-137 operator+, 159-162 operator-, 164-167 PointWiseProduct, 169-172 PointWiseDivide *)
  Definition m_add := m_zip nadd.
  Definition m_sub := m_zip nsub.
  Definition m_pmul := m_zip nmul.
  Definition m_pdiv := m_zip ndiv.
  (** amatrix.cc:139-157: operations with a scalar *)
  Definition m_adds (M : mat T) (v : T) := mmap (fun x => nadd x v) M.
  Definition m_muls (M : mat T) (v : T) := mmap (fun x => nmul x v) M.
  Definition m_subs (M : mat T) (v : T) := mmap (fun x => nsub x v) M.
  Definition m_divs (M : mat T) (v : T) := mmap (fun x => ndiv x v) M.

  (** amatrix.cc:174-177 Transpose *)
  Definition m_transpose (M : mat T) : mat T := tab (ncols M) (nrows M) (fun r c => at_ M c r).

  (** amatrix.cc:218-221 GetRows: arma rows(a,b), inclusive, throws if a > b or b >= n_rows *)
  Definition m_rows (M : mat T) (a b : Z) : res (mat T) :=
    if (a <=? b) && (b <? Z.of_nat (nrows M)) && (0 <=? a)
    then Ret (tab (Z.to_nat (b - a + 1)) (ncols M) (fun r c => at_ M (Z.to_nat a + r) c))
    else Throw.

  (** amatrix.cc:228-231 GetColumns: arma cols(a,b) *)
  Definition m_cols (M : mat T) (a b : Z) : res (mat T) :=
    if (a <=? b) && (b <? Z.of_nat (ncols M)) && (0 <=? a)
    then Ret (tab (nrows M) (Z.to_nat (b - a + 1)) (fun r c => at_ M r (Z.to_nat a + c)))
    else Throw.

  (** amatrix.cc:223-226 GetColumn *)
  Definition m_get_col (M : mat T) (c : Z) : res (mat T) := m_cols M c c.

  (** amatrix.cc:84-89 GetSpan: arma submat *)
  Definition m_span (M : mat T) (r0 r1 c0 c1 : Z) : res (mat T) :=
    if (0 <=? r0) && (r0 <=? r1) && (r1 <? Z.of_nat (nrows M)) &&
       (0 <=? c0) && (c0 <=? c1) && (c1 <? Z.of_nat (ncols M))
    then Ret (tab (Z.to_nat (r1 - r0 + 1)) (Z.to_nat (c1 - c0 + 1))
                  (fun r c => at_ M (Z.to_nat r0 + r) (Z.to_nat c0 + c)))
    else Throw.

  Definition row_list (M : mat T) (r : nat) : list T := map (fun c => at_ M r c) (seq 0 (ncols M)).
  Definition col_list (M : mat T) (c : nat) : list T := map (fun r => at_ M r c) (seq 0 (nrows M)).

  (** amatrix.cc:212-216 GetRow *)
  Definition m_row (M : mat T) (r : Z) : res (list T) :=
    if (0 <=? r) && (r <? Z.of_nat (nrows M)) then Ret (row_list M (Z.to_nat r)) else Throw.

  (** amatrix.cc:179-186 RowSubset: row(r).subvec(c0, c1), both checked *)
  Definition m_row_subset (M : mat T) (r c0 c1 : Z) : res (list T) :=
    if (0 <=? r) && (r <? Z.of_nat (nrows M)) && (0 <=? c0) && (c0 <=? c1) && (c1 <? Z.of_nat (ncols M))
    then Ret (map (fun k => at_ M (Z.to_nat r) (Z.to_nat c0 + k)) (seq 0 (Z.to_nat (c1 - c0 + 1))))
    else Throw.

  (** amatrix.cc:233-236, 256-262 SetRow: row index checked, lengths must agree *)
  Definition m_set_row (M : mat T) (r : Z) (v : list T) : res (mat T) :=
    if (0 <=? r) && (r <? Z.of_nat (nrows M)) && Nat.eqb (length v) (ncols M)
    then Ret (tab (nrows M) (ncols M)
                  (fun i c => if Nat.eqb i (Z.to_nat r) then nth c v n0 else at_ M i c))
    else Throw.

  (** amatrix.cc:238-254 SetColumn *)
  Definition m_set_col (M : mat T) (c : Z) (v : list T) : res (mat T) :=
    if (0 <=? c) && (c <? Z.of_nat (ncols M)) && Nat.eqb (length v) (nrows M)
    then Ret (tab (nrows M) (ncols M)
                  (fun r j => if Nat.eqb j (Z.to_nat c) then nth r v n0 else at_ M r j))
    else Throw.

  (** amatrix.cc:348-357 ToVector / ToValArray: column 0, checked *)
  Definition m_to_vector (M : mat T) : res (list T) :=
    if Nat.ltb 0 (ncols M) then Ret (col_list M 0) else Throw.

  (** amatrix.cc:319-324 JoinVertically: [M] above [P]; arma::join_vert throws when the column
      counts differ unless one operand is 0x0 *)
  Definition m_join_vert (M P : mat T) : res (mat T) :=
    if Nat.eqb (ncols M) (ncols P)
    then Ret (tab (nrows M + nrows P) (ncols M)
                  (fun r c => if Nat.ltb r (nrows M) then at_ M r c else at_ P (r - nrows M) c))
    else if Nat.eqb (nrows M) 0 && Nat.eqb (ncols M) 0 then Ret P
    else if Nat.eqb (nrows P) 0 && Nat.eqb (ncols P) 0 then Ret M
    else Throw.

  (** amatrix.cc:326-329 FlipUpDown *)
  Definition m_flipud (M : mat T) : mat T :=
    tab (nrows M) (ncols M) (fun r c => at_ M (nrows M - 1 - r) c).

  (** amatrix.cc:314-317 Resize: arma resize keeps the overlapping part, new elements are zero *)
  Definition m_resize (M : mat T) (r c : nat) : mat T :=
    tab r c (fun i j => if Nat.ltb i (nrows M) && Nat.ltb j (ncols M) then at_ M i j else n0).

  (** arma::mean of one vector *)
  Definition vmean (l : list T) : T := ndiv (nsum l) (nofnat (length l)).
  (** arma::var of one vector with norm_type 0 (armadillo op_var::direct_var): 0 for one element,
      otherwise the corrected two-pass formula *)
  Definition vvar (l : list T) : T :=
    match l with
    | [] | [_] => n0
    | _ =>
        let mu := vmean l in
        let ds := map (fun x => nsub mu x) l in
        let acc2 := nsum (map nsq ds) in
        let acc3 := nsum ds in
        let n := nofnat (length l) in
        ndiv (nsub acc2 (ndiv (nmul acc3 acc3) n)) (nofnat (length l - 1))
    end.

  (** amatrix.cc:331-334 Mean(ROW): one mean per row; a matrix without columns gives no column *)
  Definition m_mean_rows (M : mat T) : mat T :=
    tab (nrows M) (if Nat.eqb (ncols M) 0 then 0 else 1)%nat (fun r _ => vmean (row_list M r)).
  (** Mean(COLUMN) *)
  Definition m_mean_cols (M : mat T) : mat T :=
    tab (if Nat.eqb (nrows M) 0 then 0 else 1)%nat (ncols M) (fun _ c => vmean (col_list M c)).
  (** amatrix.cc:336-341 StdDev(ROW), StdDev(COLUMN), unbiased *)
  Definition m_stddev_rows (M : mat T) : mat T :=
    tab (nrows M) (if Nat.eqb (ncols M) 0 then 0 else 1)%nat (fun r _ => nsqrt (vvar (row_list M r))).
  Definition m_stddev_cols (M : mat T) : mat T :=
    tab (if Nat.eqb (nrows M) 0 then 0 else 1)%nat (ncols M) (fun _ c => nsqrt (vvar (col_list M c))).

  (** amatrix.cc:193-200 Abs of a real matrix *)
  Definition m_abs (M : mat T) : mat T := mmap nabs M.
  (** amatrix.cc:188-191 LongestDimensionLength *)
  Definition m_longest (M : mat T) : nat := if Nat.ltb (ncols M) (nrows M) then nrows M else ncols M.

  (** amatrix.cc:290-305 PrintSummary: three loops over size_t with the checked operator()(i) of Armadillo; the lower
      ends are computed modulo 2^64.  The result is what is printed, index and value *)
  Fixpoint summary_loop (M : mat T) (i : Z) (k : nat) : res (list (Z * T)) :=
    match k with
    | O => Ret []
    | S k' => do v <- m_lin M (Z.to_nat i); do rest <- summary_loop M (i + 1) k'; Ret ((i, v) :: rest)
    end.
  Definition summary_part (M : mat T) (from upto : Z) : res (list (Z * T)) := summary_loop M from (Z.to_nat (upto - from)).
  Definition print_summary (M : mat T) : res (list (Z * T) * list (Z * T) * list (Z * T)) :=
    let n := Z.of_nat (nrows M) in
    do a <- summary_part M 0 5;
    do b <- summary_part M (size_of (n / 2 - 4)) (size_of (n / 2 + 6));
    do c <- summary_part M (size_of (n - 6)) n;
    Ret (a, b, c).

  (** GetRows on a single-column matrix given by its column (audio signals) *)
  Definition v_rows (l : list T) (a b : Z) : res (list T) :=
    if (a <=? b) && (b <? Z.of_nat (length l)) && (0 <=? a)
    then Ret (firstn (Z.to_nat (b - a + 1)) (skipn (Z.to_nat a) l))
    else Throw.
End Amatrix.
