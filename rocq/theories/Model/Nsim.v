(** Model of src/convolution_2d.cc and src/neurogram_similiarity_index_measure.cc. *)
From Coq Require Import ZArith List Bool.
From Verif Require Import Base.Res Base.Num Base.Lists Base.Mat Model.Amatrix.
Import ListNotations.
Open Scope nat_scope.

(** evaluate a list of computations from left to right, stopping at the first failure *)
Fixpoint sequence {A} (l : list (res A)) : res (list A) :=
  match l with
  | [] => Ret []
  | x :: t => do a <- x; do r <- sequence t; Ret (a :: r)
  end.

Section Conv.
  Context {T : Type} {N : Num T}.

  (** amatrix.cc:223-226 GetColumn(c): checked *)
  Definition m_col (M : mat T) (c : Z) : res (list T) :=
    if (0 <=? c)%Z && (c <? Z.of_nat (ncols M))%Z then Ret (col_list M (Z.to_nat c)) else Throw.

  (** convolution_2d.cc:71-86 CopyMatrixWithinPadding (with all four amounts 1): the new matrix is
      zero-initialised and the input is copied to offset (1,1) *)
  Definition copy_within_padding (M : mat T) : mat T :=
    tab (nrows M + 2) (ncols M + 2)
        (fun r c => if Nat.leb 1 r && Nat.leb r (nrows M) && Nat.leb 1 c && Nat.leb c (ncols M)
                    then at_ M (r - 1) (c - 1) else n0).

  (** convolution_2d.cc:58-69 AddMatrixBoundary *)
  Definition add_boundary (M : mat T) : res (mat T) :=
    let P := copy_within_padding M in
    do r1 <- m_row P 1;
    do P <- m_set_row P 0 r1;
    do r2 <- m_row P (Z.of_nat (nrows P) - 2);
    do P <- m_set_row P (Z.of_nat (nrows P) - 1) r2;
    do c1 <- m_col P 1;
    do P <- m_set_col P 0 c1;
    do c2 <- m_col P (Z.of_nat (ncols P) - 2);
    m_set_col P (Z.of_nat (ncols P) - 1) c2.

  (** the (f_col, f_row) pairs in loop order, convolution_2d.cc:45-46 *)
  Definition filter_positions (fr fc : nat) : list (nat * nat) :=
    flat_map (fun c => map (fun r => (c, r)) (seq 0 fr)) (seq 0 fc).

  (** convolution_2d.cc:43-51: one output element.  [input_matrix(idx)] is the unchecked accessor,
      [fir_filter(filter_index--)] the checked one; filter_index starts at filter_size - 1. *)
  Definition conv_at (F P : mat T) (o_row o_col : nat) : res T :=
    let fr := nrows F in
    fold_left
      (fun acc pos =>
         let '(f_col, f_row) := pos in
         do s <- acc;
         do a <- m_lin_mut P ((f_col + o_col) * nrows P + f_row + o_row);
         do b <- m_lin F (fr * ncols F - 1 - (f_col * fr + f_row));
         Ret (nadd s (nmul a b)))
      (filter_positions fr (ncols F)) (Ret n0).

  (** convolution_2d.cc:23-56 Valid2DConvWithBoundary (int arithmetic on sizes does not overflow for
      matrices that fit in memory); elements are computed independently, here column by column *)
  Definition conv2d (F M : mat T) : res (mat T) :=
    do P <- add_boundary M;
    let o_r := nrows P + 1 - nrows F in
    let o_c := ncols P + 1 - ncols F in
    do es <- sequence (flat_map (fun c => map (fun r => conv_at F P r c) (seq 0 o_r)) (seq 0 o_c));
    Ret (MkMat o_r o_c es).
End Conv.

Section Nsim.
  Context {T : Type} {N : Num T}.

  (** patch_similarity_comparator.h:30-77 PatchSimilarityResult.  The four times are not set by the
      comparator; they are 0 here until the selector sets them (which it always does before anybody
      reads them). *)
  Record psr := MkPsr {
    ps_means : mat T;
    ps_stddevs : mat T;
    ps_energy : mat T;
    ps_sim : T;
    ps_ref_start : T; ps_ref_end : T;
    ps_deg_start : T; ps_deg_end : T }.

  (** neurogram_similiarity_index_measure.cc:26-30 *)
  Definition nsim_window : mat T :=
    let corner := ndec 113033910173052 16 in
    let edge := ndec 838251475442633 16 in
    MkMat 3 3 [corner; edge; corner; edge; ndec 619485845753726 15; edge; corner; edge; corner].

  (** neurogram_similiarity_index_measure.cc:32-34, intensity_range_ = 1.0 *)
  Definition nsim_c1 : T := nsq (nmul (ndec 1 2) n1).
  Definition nsim_c3 : T := ndiv (nsq (nmul (ndec 3 2) n1)) (nofZ 2).

  (** neurogram_similiarity_index_measure.cc:60-67 *)
  Definition structure_denominator (d : T) : T :=
    if nltb d n0 then nsim_c3 else nadd (nsqrt d) nsim_c3.

  (** neurogram_similiarity_index_measure.cc:36-69: the similarity map *)
  Definition nsim_map (ref deg : mat T) : res (mat T) :=
    do mu_r <- conv2d nsim_window ref;
    do mu_d <- conv2d nsim_window deg;
    do ref_mu_sq <- m_pmul mu_r mu_r;
    do deg_mu_sq <- m_pmul mu_d mu_d;
    do mu_r_mu_d <- m_pmul mu_r mu_d;
    do ref_sq <- m_pmul ref ref;
    do deg_sq <- m_pmul deg deg;
    do conv_ref_sq <- conv2d nsim_window ref_sq;
    do sigma_r_sq <- m_sub conv_ref_sq ref_mu_sq;
    do conv_deg_sq <- conv2d nsim_window deg_sq;
    do sigma_d_sq <- m_sub conv_deg_sq deg_mu_sq;
    do ref_deg <- m_pmul ref deg;
    do conv_ref_deg <- conv2d nsim_window ref_deg;
    do sigma_r_d <- m_sub conv_ref_deg mu_r_mu_d;
    let intensity_numer := m_adds (m_muls mu_r_mu_d (nofZ 2)) nsim_c1 in
    do den <- m_add ref_mu_sq deg_mu_sq;
    let intensity_denom := m_adds den nsim_c1 in
    do intensity <- m_pdiv intensity_numer intensity_denom;
    let structure_numer := m_adds sigma_r_d nsim_c3 in
    do sd <- m_pmul sigma_r_sq sigma_d_sq;
    let structure_denom := mmap structure_denominator sd in
    do structure <- m_pdiv structure_numer structure_denom;
    m_pmul intensity structure.

  (** neurogram_similiarity_index_measure.cc:24-92 MeasurePatchSimilarity *)
  Definition measure_patch_similarity (ref deg : mat T) : res psr :=
    do sim_map <- nsim_map ref deg;
    let energy := m_mean_rows deg in
    let means := m_mean_rows sim_map in
    let stddevs := m_stddev_rows sim_map in
    let sim := ndiv (nsum (elems means)) (nofnat (nrows means)) in
    Ret (MkPsr means stddevs energy sim n0 n0 n0 n0).
End Nsim.
Arguments psr : clear implicits.
