(** Property C104: the tables printed on the console are aligned and show the numbers of the result. *)
From Coq Require Import ZArith List Bool Ascii String Lia.
From Verif Require Import Base.Res Base.Num Base.NumR Model.Manager Model.Cli Spec.CliSpec Spec.TableSpec Proofs.TableP.
Import ListNotations.
Open Scope nat_scope.
Open Scope string_scope.

(** C104 fails: the columns are not wide enough for times of 1000 seconds and more. *)
Theorem C104_wide_refuted : exists (F : formats R) m l, In l (text_lines (format_patches F m)) /\ String.length l = 78 /\ (forall p, In p (ms_patches m) -> fm_fixed F 3 (pm_ref_end p) = "1000.640").
Proof. exact wide_refuted. Qed.
Print Assumptions C104_wide_refuted.
(** C104: where the numbers fit their columns, every line of the table of patches has 76 characters, its bars are those of the header, and there is one row for each patch that shows its numbers. *)
Theorem C104_patches_partial {T} {N : Num T} (F : formats T) m : Forall (patch_fits F) (ms_patches m) -> (Z.of_nat (List.length (ms_patches m)) <= 10 ^ 9)%Z ->
  exists r1 h r2 rows r3, text_lines (format_patches F m) = ([r1; h; r2] ++ rows ++ [r3; ""])%list /\ Forall (ruled 76) [r1; r2; r3] /\
    Forall (barred 76 [0; 12; 25; 50; 75]) (h :: rows) /\ List.length rows = List.length (ms_patches m) /\
    forall i p, nth_error (ms_patches m) i = Some p -> exists x, nth_error rows i = Some x /\ shows_patch F i p x.
Proof. exact (patches_table F m). Qed.
Print Assumptions C104_patches_partial.
(** C104: so it is with the table of frequency bands, of 39 characters. *)
Theorem C104_bands_partial {T} {N : Num T} (F : formats T) m : bands_fit F m -> List.length (ms_fvnsim10 m) = List.length (ms_fvnsim m) -> List.length (ms_cfb m) = List.length (ms_fvnsim m) ->
  exists s r1 h r2 rows r3, format_fvnsim F m = Ret s /\ text_lines s = ([r1; h; r2] ++ rows ++ [r3; ""])%list /\ Forall (ruled 39) [r1; r2; r3] /\
    Forall (barred 39 [0; 11; 24; 38]) (h :: rows) /\ List.length rows = List.length (ms_fvnsim m) /\
    forall i, i < List.length (ms_fvnsim m) -> exists x, nth_error rows i = Some x /\ shows_band F (nth i (ms_fvnsim m) n0) (nth i (ms_fvnsim10 m) n0) (nth i (ms_cfb m) n0) x.
Proof. exact (bands_table F m). Qed.
Print Assumptions C104_bands_partial.
(** C104: the whole verbose output, line by line. *)
Theorem C104_console_partial {T} {N : Num T} (F : formats T) speech lattice (m : sim_msg T) s : unbroken F m -> format_fvnsim F m = Ret s -> Forall (free_of char_nl) [ms_ref_path m; ms_deg_path m; fm_general F 6 (ms_moslqo m)] ->
  exists out, console F true speech lattice m = Ret out /\
    text_lines out = (["ViSQOL conformance version: 333";
      if speech then (if lattice then "Speech mode, lattice model" else "Speech mode, exponential model") else "Audio mode, support vector regression model";
      ""; ("Reference Filepath:" ++ tab_ ++ ms_ref_path m)%string; ("Degraded Filepath:" ++ tab_ ++ ms_deg_path m)%string; ("MOS-LQO:" ++ tab_ ++ tab_ ++ fm_general F 6 (ms_moslqo m))%string; ""]
      ++ text_lines s ++ [""] ++ text_lines (format_patches F m) ++ [""])%list.
Proof. exact (verbose_lines F speech lattice m s). Qed.
Print Assumptions C104_console_partial.
Example C104_example : Forall (patch_fits narrow_formats) (ms_patches one_patch) /\ bands_fit narrow_formats one_patch /\ List.length (ms_patches one_patch) = 2 /\
  nth_error (text_lines (format_patches narrow_formats one_patch)) 4 = Some "|         1 |   0.900000 |     999.640  - 999.640 |     999.640  - 999.640 |".
Proof. exact narrow_fits. Qed.
Example C104_console_example : unbroken narrow_formats one_patch /\ (exists s, format_fvnsim narrow_formats one_patch = Ret s) /\ Forall (free_of char_nl) [ms_ref_path one_patch; ms_deg_path one_patch; fm_general narrow_formats 6 (ms_moslqo one_patch)].
Proof. exact narrow_unbroken. Qed.
