(** Spec: matching reference patches to degraded offsets. *)
From Coq Require Import ZArith List Bool Sorted.
From Verif Require Import Base.Res Base.Num Base.Mat Model.Nsim.
Import ListNotations.
Open Scope nat_scope.

(** p frames of a spectrogram from frame o on, silence where there is no frame *)
Definition frames_at {T} (silence : T) (S : mat T) (o : Z) (p : nat) : mat T :=
  tab (nrows S) p (fun r c =>
    let f := (o + Z.of_nat c)%Z in
    if ((0 <=? f) && (f <? Z.of_nat (ncols S)))%Z then mget silence S r (Z.to_nat f) else silence).

(** [off i] is the degraded offset reached after patch i; a later patch that stays at the offset of its
    predecessor is skipped *)
Definition skipped (off : nat -> nat) (i : nat) : bool :=
  match i with O => false | S j => Nat.eqb (off i) (off j) end.

(** an assignment of patches 0..n: offsets never decrease and stay in the patches' windows *)
Definition assignment (lo hi : nat -> nat) (n : nat) (off : nat -> nat) : Prop :=
  (forall i, i <= n -> lo i <= off i <= hi i) /\ (forall i, i < n -> off i <= off (S i)).

(** total similarity of the matched patches *)
Fixpoint score {T} {N : Num T} (sim : nat -> nat -> T) (off : nat -> nat) (n : nat) : T :=
  match n with
  | O => sim 0 (off 0)
  | S m => if skipped off n then score sim off m else nadd (sim n (off n)) (score sim off m)
  end.

(** start frames of reference patches of p frames in a spectrogram of L frames: increasing, inside, the first
    half a patch (less one frame) after the start.  C17 and C19 state that the patch creators choose such
    frames. *)
Definition patch_starts (p : nat) (L : Z) (idx : list Z) : Prop :=
  StronglySorted Z.lt idx /\ hd_error idx = Some (Z.of_nat p / 2 - 1)%Z /\
  forall s, In s idx -> (0 <= s /\ s + Z.of_nat p <= L)%Z.

(** the result carried by a comparison, for stating things about comparisons that succeed *)
Definition empty_result {T} {N : Num T} : psr T := MkPsr (MkMat 0 0 []) (MkMat 0 0 []) (MkMat 0 0 []) n0 n0 n0 n0 n0.
Definition result_of {T} {N : Num T} (x : res (psr T)) : psr T := match x with Ret r => r | _ => empty_result end.

(** what a reported patch result consists of: [r] is the comparison at degraded frame [offset] *)
Definition reports {T} {N : Num T} (x r : psr T) (lost : bool) (offset idx : Z) (fd pd : T) : Prop :=
  ps_ref_start x = nmul (nofZ idx) fd /\ ps_ref_end x = nadd (ps_ref_start x) pd /\
  if lost then
    ps_sim x = n0 /\ ps_deg_start x = n0 /\ ps_deg_end x = n0 /\
    nrows (ps_means x) = nrows (ps_means r) /\ forall v, In v (elems (ps_means x)) -> v = n0
  else
    ps_sim x = ps_sim r /\ ps_means x = ps_means r /\
    ps_deg_start x = nmul (nofZ offset) fd /\ ps_deg_end x = nadd (ps_deg_start x) pd.

(** offsets of the first n patches: within [sw] frames of the patch's own position and inside the nc degraded
    frames, never decreasing *)
Definition matching (sw nc : Z) (idx : list Z) (n : nat) (off : nat -> nat) : Prop :=
  (forall i, i < n -> (Z.abs (Z.of_nat (off i) - nth i idx 0) <= sw)%Z /\ (Z.of_nat (off i) < nc)%Z) /\
  (forall i, S i < n -> off i <= off (S i)).
