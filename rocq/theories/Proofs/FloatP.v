(** Facts about binary64 arithmetic (Coq primitive floats). *)
From Coq Require Import ZArith Bool Floats.
From Verif Require Import Base.Num Base.NumF.

(** ** binary64: addition and multiplication commute *)
Lemma SFmul_comm x y : SF64mul x y = SF64mul y x.
Proof.
  unfold SF64mul, SFmul. destruct x as [s|s| |s m e], y as [s'|s'| |s' m' e']; try reflexivity;
    rewrite (xorb_comm s s'); try reflexivity.
  rewrite Pos.mul_comm, Z.add_comm. reflexivity.
Qed.
Lemma SFadd_comm x y : SF64add x y = SF64add y x.
Proof.
  unfold SF64add, SFadd. destruct x as [s|s| |s m e], y as [s'|s'| |s' m' e']; try reflexivity.
  - destruct s, s'; reflexivity.
  - destruct s, s'; reflexivity.
  - rewrite Z.min_comm. f_equal. apply Z.add_comm.
Qed.
Lemma Fmul_comm (a b : float) : nmul a b = nmul b a.
Proof. cbn. apply Prim2SF_inj. rewrite !mul_spec. apply SFmul_comm. Qed.
Lemma Fadd_comm (a b : float) : nadd a b = nadd b a.
Proof. cbn. apply Prim2SF_inj. rewrite !add_spec. apply SFadd_comm. Qed.

