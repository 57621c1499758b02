(** Files the reader gets wrong, and what Run does with files that cannot be loaded. *)
From Coq Require Import ZArith List Bool Ascii String Lia.
From Verif Require Import Base.Res Base.Num Base.Lists Base.Mat Model.Amatrix Model.MiscMath
  Model.FilterBank Model.MiscAudio Model.Wav Model.Manager Spec.WavSpec Proofs.WavP Proofs.WavLoadP.
Import ListNotations.
Open Scope Z_scope.

(** a mono 8 kHz file that declares 20 bits per sample, two data bytes *)
Definition file20 : bytes :=
  str "RIFF" ++ le 4 38 ++ str "WAVE" ++ str "fmt " ++ le 4 16 ++ le 2 1 ++ le 2 1 ++ le 4 8000 ++
  le 4 24000 ++ le 2 3 ++ le 2 20 ++ str "data" ++ le 4 2 ++ le 2 7.
Lemma file20_accepted : exists w, parse_header file20 = Some w /\ le_val (field file20 34 2) = 20.
Proof. eexists. split; vm_compute; reflexivity. Qed.

(** an odd chunk and its pad byte *)
Definition odd_chunk : bytes := chunk "LIST" (str "x") ++ [zero].
Lemma odd_chunk_rejected : parse_header (wav_bytes 1 8000 odd_chunk [1; 2; 3] []) = None.
Proof. vm_compute. reflexivity. Qed.

(** one declared sample, four more bytes behind the data chunk; three samples are asked for *)
Definition file_tail : bytes := wav_file 1 8000 [] [5] (le 2 6 ++ le 2 7).
Lemma over_read : exists w b r', parse_header file_tail = Some w /\ wv_total w = 1 /\
  read_samples file_tail (reader_init w) 3 = (b, 3, r') /\ samples_of 3 b = [5; 6; 7].
Proof. do 3 eexists. split; [vm_compute; reflexivity|]. split; [reflexivity|]. split; vm_compute; reflexivity. Qed.

Lemma load_rejected {T} {N : Num T} all : parse_header all = None -> load_as_mono (T:=T) all = Ret not_loaded.
Proof. unfold load_as_mono. now intros ->. Qed.

Section Run.
  Context {T : Type} {N : Num T} {L : Libm T}.
  Lemma load_file_ret c : exists l, load_file (T:=T) c = Ret l.
  Proof. destruct c as [b|]; [apply load_safe|eexists; reflexivity]. Qed.

  Lemma run_files_malformed (w : world T) (m : manager T) rp dp b :
    mg_init m = true -> parse_header b = None ->
    (w_file w rp = Some b \/ w_file w dp = Some b) -> snd (run_files w m rp dp) = Ub.
  Proof.
    intros Hi Hb Hf. unfold run_files. rewrite Hi. cbn [negb].
    destruct Hf as [Hf|Hf]; rewrite Hf; cbn [load_file]; rewrite (load_rejected b Hb).
    - cbn [bind]. destruct (load_file_ret (w_file w dp)) as [l ->]. reflexivity.
    - destruct (load_file_ret (w_file w rp)) as [l ->]. cbn [bind].
      unfold audio_of at 1. now destruct (ld_sr l).
  Qed.

  Lemma run_files_missing (w : world T) (m : manager T) rp dp p q l sr :
    mg_init m = true -> (p, q) = (rp, dp) \/ (p, q) = (dp, rp) ->
    w_file w p = None -> load_file (w_file w q) = Ret l -> ld_sr l = Some sr -> sr <> 0 ->
    run_files w m rp dp = (m, Err InvalidArgument).
  Proof.
    intros Hi Hpq Hp Hq Hl Hsr. unfold run_files. rewrite Hi. cbn [negb].
    destruct Hpq as [E|E]; injection E as <- <-; rewrite Hp, Hq; cbn [load_file bind];
      unfold audio_of at 1 2; cbn [ld_sr ld_data bind]; rewrite Hl; cbn [bind];
      unfold run; rewrite Hi; cbn [negb]; unfold validate; cbn [au_sr].
    - destruct (0 =? sr) eqn:E; [apply Z.eqb_eq in E; congruence|reflexivity].
    - destruct (sr =? 0) eqn:E; [apply Z.eqb_eq in E; congruence|reflexivity].
  Qed.
End Run.
