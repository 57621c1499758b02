(** What C104 says about the tables that are printed. *)
From Coq Require Import ZArith List Bool Ascii String.
From Verif Require Import Base.Res Base.Num Model.Mappers Model.Manager Model.Cli Spec.CliSpec.
Import ListNotations.
Open Scope nat_scope.
Open Scope string_scope.

(** a number as it is printed: no line feed, no bar, at most [w] characters *)
Definition fits (w : nat) (s : string) : Prop := free_of char_nl s /\ free_of "|" s /\ String.length s <= w.
(** the positions of the bars in a line *)
Fixpoint bars (k : nat) (s : string) : list nat :=
  match s with EmptyString => [] | String a t => if Ascii.eqb a "|" then k :: bars (S k) t else bars (S k) t end.
(** a line of a table: only dashes, or bars in the given places; of the given width in either case *)
Definition ruled (w : nat) (l : string) : Prop := String.length l = w /\ Forall (fun a => a = "-"%char) (list_ascii_of_string l).
Definition barred (w : nat) (places : list nat) (l : string) : Prop := String.length l = w /\ bars 0 l = places.

(** in the [w] characters from position [p] on, the line shows the text [s] at the right, after spaces *)
Definition shows (l : string) (p w : nat) (s : string) : Prop := String.length s <= w /\ String.substring (p + w - String.length s) (String.length s) l = s /\
  Forall (fun a => a = " "%char) (list_ascii_of_string (String.substring p (w - String.length s) l)).

Section Fit.
  Context {T : Type} {N : Num T}.
  Definition patch_fits (F : formats T) (p : patch_msg T) : Prop :=
    fits 10 (fm_fixed F 6 (pm_sim p)) /\ fits 11 (fm_fixed F 3 (pm_ref_start p)) /\ fits 7 (fm_fixed F 3 (pm_ref_end p)) /\
    fits 11 (fm_fixed F 3 (pm_deg_start p)) /\ fits 7 (fm_fixed F 3 (pm_deg_end p)).
  Definition bands_fit (F : formats T) (m : sim_msg T) : Prop :=
    Forall (fun x => fits 8 (fm_fixed F 6 x)) (ms_fvnsim m) /\ Forall (fun x => fits 10 (fm_fixed F 6 x)) (ms_fvnsim10 m) /\ Forall (fun x => fits 9 (fm_fixed F 1 x)) (ms_cfb m).
  (** the row of patch number i; the row of band number i *)
  Definition shows_patch (F : formats T) (i : nat) (p : patch_msg T) (l : string) : Prop :=
    shows l 2 9 (dec_string i) /\ shows l 14 10 (fm_fixed F 6 (pm_sim p)) /\ shows l 27 11 (fm_fixed F 3 (pm_ref_start p)) /\ shows l 42 7 (fm_fixed F 3 (pm_ref_end p)) /\
    shows l 52 11 (fm_fixed F 3 (pm_deg_start p)) /\ shows l 67 7 (fm_fixed F 3 (pm_deg_end p)).
  Definition shows_band (F : formats T) (a b c : T) (l : string) : Prop :=
    shows l 2 8 (fm_fixed F 6 a) /\ shows l 13 10 (fm_fixed F 6 b) /\ shows l 26 9 (fm_fixed F 1 c).
  (** no number is printed with a line feed *)
  Definition unbroken (F : formats T) (m : sim_msg T) : Prop :=
    Forall (fun x => free_of char_nl (fm_fixed F 6 x)) (ms_fvnsim m) /\ Forall (fun x => free_of char_nl (fm_fixed F 6 x)) (ms_fvnsim10 m) /\ Forall (fun x => free_of char_nl (fm_fixed F 1 x)) (ms_cfb m) /\
    Forall (fun p => Forall (free_of char_nl) [fm_fixed F 6 (pm_sim p); fm_fixed F 3 (pm_ref_start p); fm_fixed F 3 (pm_ref_end p); fm_fixed F 3 (pm_deg_start p); fm_fixed F 3 (pm_deg_end p)]) (ms_patches m).
End Fit.
