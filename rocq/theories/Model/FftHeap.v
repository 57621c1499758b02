(** Model of the memory used by src/fft_manager.cc, src/include/audio_channel.h and
    src/fast_fourier_transform.cc: the same functions as in Model/Fft.v, on a heap of aligned buffers.

    PFFFT is external: [pf_fwd], [zre] and [inv] are its forward transform, reordering and backward
    transform; its own rules for the buffers it is given are in [transform].  The vectors and matrices
    of the callers are values.  [enough] says whether an allocation succeeds. *)
From Coq Require Import ZArith List Bool.
From Verif Require Import Base.Res Base.Num Base.Lists Base.Cplx Model.MiscMath Model.Fft.
Import ListNotations.
Open Scope nat_scope.

Section Heap.
  Context {T : Type} {N : Num T}.

  (** a cell is [None] until it has been written; a block is [None] after it has been freed *)
  Definition cells : Type := list (option T).
  Definition heap : Type := list (option cells).
  (** index of the block; [None] is nullptr *)
  Definition ptr : Type := option nat.

  Definition prog (A : Type) : Type := heap -> res (A * heap).
  Definition done {A} (a : A) : prog A := fun h => Ret (a, h).
  Definition stuck {A} : prog A := fun _ => Ub.
  Definition next {A B} (x : prog A) (f : A -> prog B) : prog B :=
    fun h => do '(a, h') <- x h; f a h'.

  Variable enough : heap -> nat -> bool.

  (** pffft_aligned_malloc: fresh memory, or nullptr *)
  Definition alloc (n : nat) : prog ptr :=
    fun h => if enough h n then Ret (Some (length h), h ++ [Some (repeat None n)]) else Ret (None, h).
  (** pffft_aligned_free: freeing nullptr does nothing, freeing twice is undefined *)
  Definition free (p : ptr) : prog unit :=
    fun h => match p with
             | None => Ret (tt, h)
             | Some i => match nth i h None with Some _ => Ret (tt, upd h i None) | None => Ub end
             end.
  (** any access goes to a block that has not been freed *)
  Definition with_block {A} (p : ptr) (f : cells -> res (A * cells)) : prog A :=
    fun h => match p with
             | None => Ub
             | Some i => match nth i h None with
                         | None => Ub
                         | Some c => do '(a, c') <- f c; Ret (a, upd h i (Some c'))
                         end
             end.
  Definition load (p : ptr) (i : nat) : prog T :=
    with_block p (fun c => match nth_error c i with Some (Some v) => Ret (v, c) | _ => Ub end).
  Definition store (p : ptr) (i : nat) (v : T) : prog unit :=
    with_block p (fun c => if Nat.ltb i (length c) then Ret (tt, upd c i (Some v)) else Ub).
  (** the first n cells, all of which must have been written *)
  Definition written (c : cells) (n : nat) : option (list T) :=
    if Nat.leb n (length c)
    then fold_right (fun x acc => match x, acc with Some v, Some l => Some (v :: l) | _, _ => None end) (Some []) (firstn n c)
    else None.
  Definition read (p : ptr) (n : nat) : prog (list T) :=
    with_block p (fun c => match written c n with Some l => Ret (l, c) | None => Ub end).
  Definition write (p : ptr) (l : list T) : prog unit :=
    with_block p (fun c => if Nat.leb (length l) (length c) then Ret (tt, map Some l ++ skipn (length l) c) else Ub).
  (** memory given to the library to work in: n cells, unknown afterwards *)
  Definition clobber (p : ptr) (n : nat) : prog unit :=
    with_block p (fun c => if Nat.leb n (length c) then Ret (tt, repeat None n ++ skipn n c) else Ub).

  (** for (i = from; ...; n times) body(i) *)
  Fixpoint loop (n i : nat) (body : nat -> prog unit) : prog unit :=
    match n with
    | O => done tt
    | S k => next (body i) (fun _ => loop k (S i) body)
    end.
  (** the values of a loop that only reads *)
  Fixpoint gather {A} (n i : nat) (body : nat -> prog A) : prog (list A) :=
    match n with
    | O => done []
    | S k => next (body i) (fun a => next (gather k (S i) body) (fun l => done (a :: l)))
    end.

  (** *** audio_channel.h *)
  (** 114-129 alligned_buffer_ (= begin_itr_) and size_ *)
  Record channel := MkCh { ch_buf : ptr; ch_size : nat }.
  (** 41-46 Init *)
  Definition ch_init (size : nat) : prog channel := next (alloc size) (fun p => done (MkCh p size)).
  (** 52-56 destructor *)
  Definition ch_destroy (c : channel) : prog unit := match ch_buf c with None => done tt | p => free p end.
  (** 111 Clear (memset) *)
  Definition ch_clear (c : channel) : prog unit := write (ch_buf c) (repeat n0 (ch_size c)).

  (** *** PFFFT *)
  (** pffft_new_setup(static_cast<int>(N), PFFFT_REAL): taken to succeed for powers of two from 32 to
      2^30 if memory suffices, and to return nullptr otherwise *)
  Definition new_setup (n : nat) : prog ptr :=
    if (2 ^ Z.log2 (Z.of_nat n) =? Z.of_nat n)%Z && (32 <=? Z.of_nat n)%Z && (Z.of_nat n <? 2 ^ 31)%Z then alloc 1 else done None.
  (** pffft_destroy_setup(nullptr) is undefined *)
  Definition destroy_setup (p : ptr) : prog unit := match p with None => stuck | _ => free p end.
  (** pffft_transform, pffft_transform_ordered, pffft_zreorder: read n floats and write n floats of
      another buffer; the work area, if given, has 2n floats *)
  Definition transform (setup : ptr) (n : nat) (f : list T -> list T) (input output : ptr) (work : option ptr) : prog unit :=
    next (with_block setup (fun c => Ret (tt, c))) (fun _ =>
    next (match work with Some (Some w) => clobber (Some w) (2 * n) | _ => done tt end) (fun _ =>
    next (read input n) (fun l => write output (f l)))).

  (** *** fft_manager.h/.cc *)
  Record fft_object := MkFo { fo_fm : fft_manager; fo_setup : ptr; fo_time : channel; fo_freq : channel; fo_work : ptr }.

  (** fft_manager.cc:28 kPffftMaxStackSize; 30-48 constructor *)
  Definition fm_construct (samples : nat) : prog fft_object :=
    let fm := make_fft_manager samples in
    next (if (16384 <? Z.of_nat (fm_size fm))%Z then alloc (2 * fm_size fm) else done None) (fun work =>
    next (ch_init samples) (fun time =>
    next (ch_init (fm_size fm)) (fun freq =>
    next (new_setup (fm_size fm)) (fun setup =>
    done (MkFo fm setup time freq work))))).
  (** fft_manager.cc:50-56 destructor; then the members, last declared first (fft_manager.h:157-175) *)
  Definition fm_destroy (o : fft_object) : prog unit :=
    next (destroy_setup (fo_setup o)) (fun _ =>
    next (match fo_work o with None => done tt | p => free p end) (fun _ =>
    next (ch_destroy (fo_freq o)) (fun _ => ch_destroy (fo_time o)))).

  Variables (zre inv : list T -> list T).
  Variable pf : pffft T.

  (** fft_manager.cc:58-77 FreqFromTimeDomain; 68-76: a zeroed temporary when the sizes differ *)
  Definition freq_from_time (o : fft_object) (time freq : channel) : prog unit :=
    let n := fm_size (fo_fm o) in
    if Nat.eqb (ch_size time) n
    then transform (fo_setup o) n (pf_fwd pf) (ch_buf time) (ch_buf freq) (Some (fo_work o))
    else next (ch_init n) (fun tmp =>
         next (ch_clear tmp) (fun _ =>
         next (read (ch_buf time) (fm_samples (fo_fm o))) (fun l =>
         next (write (ch_buf tmp) l) (fun _ =>
         next (transform (fo_setup o) n (pf_fwd pf) (ch_buf tmp) (ch_buf freq) (Some (fo_work o))) (fun _ =>
         ch_destroy tmp))))).

  (** fft_manager.cc:79-98 TimeFromFreqDomain *)
  Definition time_from_freq (o : fft_object) (freq time : channel) : prog unit :=
    let n := fm_size (fo_fm o) in
    if Nat.eqb (ch_size time) n
    then transform (fo_setup o) n inv (ch_buf freq) (ch_buf time) (Some (fo_work o))
    else next (ch_init n) (fun tmp =>
         next (ch_clear tmp) (fun _ =>
         next (transform (fo_setup o) n inv (ch_buf freq) (ch_buf tmp) (Some (fo_work o))) (fun _ =>
         next (read (ch_buf tmp) (fm_samples (fo_fm o))) (fun l =>
         next (write (ch_buf time) l) (fun _ =>
         ch_destroy tmp))))).

  (** fft_manager.cc:116-131 SimdScalarMultiply with input = output: whole vectors of 4, then the rest *)
  Definition mul_vector (gain : T) (p : ptr) (i : nat) : prog unit :=
    next (load p (4 * i)) (fun a => next (load p (4 * i + 1)) (fun b =>
    next (load p (4 * i + 2)) (fun c => next (load p (4 * i + 3)) (fun d =>
    next (store p (4 * i) (nmul a gain)) (fun _ => next (store p (4 * i + 1) (nmul b gain)) (fun _ =>
    next (store p (4 * i + 2) (nmul c gain)) (fun _ => store p (4 * i + 3) (nmul d gain)))))))).
  Definition scalar_multiply (len : nat) (gain : T) (p : ptr) : prog unit :=
    next (loop (len / 4) 0 (mul_vector gain p)) (fun _ =>
    loop (len mod 4) (len - len mod 4) (fun i => next (load p i) (fun x => store p i (nmul x gain)))).

  (** an iterator of the caller's matrix; past the end is undefined *)
  Definition item {A} (l : list A) (i : nat) : prog A := match nth_error l i with Some a => done a | None => stuck end.

  (** fast_fourier_transform.cc:26-69 Forward1d *)
  Definition forward_mem (o : fft_object) (sig : list T) : prog (list (cplx T)) :=
    let time := fo_time o in let freq := fo_freq o in
    next (ch_clear time) (fun _ =>
    next (loop (fm_samples (fo_fm o)) 0 (fun i => next (item sig i) (fun x => store (ch_buf time) i (pf_f32 pf x)))) (fun _ =>
    next (ch_clear freq) (fun _ =>
    next (freq_from_time o time freq) (fun _ =>
    next (gather ((fm_size (fo_fm o) + 1) / 2) 0 (fun i =>
            next (load (ch_buf freq) (2 * i)) (fun re => next (load (ch_buf freq) (2 * i + 1)) (fun im => done (re, im))))) (fun v =>
    fun h => do s <- unpack_spectrum (unpairs v); Ret (s, h)))))).

  (** fast_fourier_transform.cc:84-125 Inverse1d; fft_manager.cc:100-114 *)
  Definition inverse_mem (o : fft_object) (spec : list (cplx T)) : prog (list (cplx T)) :=
    let time := fo_time o in let freq := fo_freq o in let n := fm_size (fo_fm o) in
    next (ch_clear freq) (fun _ =>
    next (loop ((n + 1) / 2) 0 (fun i => next (item spec i) (fun z =>
            next (store (ch_buf freq) (2 * i) (pf_f32 pf (cre z))) (fun _ => store (ch_buf freq) (2 * i + 1) (pf_f32 pf (cim z)))))) (fun _ =>
    next (item spec ((n + 1) / 2)) (fun nyq =>
    next (store (ch_buf freq) 1 (pf_f32 pf (cre nyq))) (fun _ =>
    next (ch_init n) (fun tmp =>
    next (ch_clear tmp) (fun _ =>
    next (transform (fo_setup o) n zre (ch_buf freq) (ch_buf tmp) None) (fun _ =>
    next (ch_clear time) (fun _ =>
    next (time_from_freq o tmp time) (fun _ =>
    next (scalar_multiply (ch_size time) (ndiv n1 (nofnat n)) (ch_buf time)) (fun _ =>
    next (gather (fm_samples (fo_fm o)) 0 (fun i => next (load (ch_buf time) i) (fun x => done (x, n0)))) (fun v =>
    next (ch_destroy tmp) (fun _ => done v)))))))))))).

  (** a manager used for a list of calls and then destroyed (xcorr.cc:74-97, envelope.cc:41-72) *)
  Inductive fft_call := Forward (sig : list T) | Inverse (spec : list (cplx T)).
  Definition call_mem (o : fft_object) (c : fft_call) : prog (list (cplx T)) :=
    match c with Forward sig => forward_mem o sig | Inverse spec => inverse_mem o spec end.
  Fixpoint calls_mem (o : fft_object) (cs : list fft_call) : prog (list (list (cplx T))) :=
    match cs with
    | [] => done []
    | c :: t => next (call_mem o c) (fun r => next (calls_mem o t) (fun rs => done (r :: rs)))
    end.
  Definition session (samples : nat) (cs : list fft_call) : prog (list (list (cplx T))) :=
    next (fm_construct samples) (fun o =>
    next (calls_mem o cs) (fun rs => next (fm_destroy o) (fun _ => done rs))).

  (** xcorr.cc:54-97: one manager for the three transforms, destroyed on return; fast_fourier_transform.cc:71-82 *)
  Definition xcorr_mem (s1 s2 : list T) : prog (list T) :=
    let n := Nat.max (length s1) (length s2) in
    let points := fft_points n in
    let padded s := firstn points (pad_to n s) ++ repeat n0 (points - length (pad_to n s)) in
    next (fm_construct points) (fun o =>
    next (forward_mem o (padded s2)) (fun f2 =>
    next (forward_mem o (padded s1)) (fun f1 =>
    if Nat.eqb (length f1) (length (map cconj f2))
    then next (inverse_mem o (map (fun p => cmul (fst p) (snd p)) (combine f1 (map cconj f2)))) (fun z =>
         next (fm_destroy o) (fun _ => done (map cre z)))
    else next (fm_destroy o) (fun _ => fun _ => Throw)))).

  (** envelope.cc:41-72 *)
  Definition hilbert_mem (sig : list T) : prog (list (cplx T)) :=
    next (fm_construct (length sig)) (fun o =>
    next (forward_mem o sig) (fun f =>
    next (inverse_mem o (map (fun p => cscale (fst p) (snd p)) (combine f (hilbert_scaling (length sig) (length f))))) (fun z =>
    next (fm_destroy o) (fun _ => done z)))).
End Heap.
Arguments fft_call : clear implicits.
Arguments heap : clear implicits.
