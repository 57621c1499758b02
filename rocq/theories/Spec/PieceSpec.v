(** Spec: what it means that a result was obtained by comparing two pieces of audio. *)
From Coq Require Import ZArith List.
From Verif Require Import Base.Res Base.Num Base.Mat Model.Window Model.FilterBank Model.Spectrogram Model.Nsim.

(** the similarity, means, deviations and energies of [r] are those of the spectrograms of [ra] and [da] *)
Definition compares {T} {N : Num T} {L : Libm T} (measure : mat T -> mat T -> res (psr T)) (speech : bool) (w : window T) (ra da : audio T) (r : psr T) : Prop :=
  exists k k1 k2 rspec dspec A B x, build speech k ra w = (k1, Ret rspec) /\ build speech k1 da w = (k2, Ret dspec) /\
    prepare_spectrograms (sp_data rspec) (sp_data dspec) = Ret (A, B) /\ measure A B = Ret x /\
    ps_sim r = ps_sim x /\ ps_means r = ps_means x /\ ps_stddevs r = ps_stddevs x /\ ps_energy r = ps_energy x.
