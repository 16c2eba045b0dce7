(** * SpecPieces: vocabulary of C126, a run cut into pieces *)
From Verif Require Import Base Spec SpecParser SpecStats ModelParser ModelDiffusion ModelHdf ModelAnalyzer SpecRun SpecTrue SpecPool SpecColl.
From Coq Require Import Reals.
Open Scope nat_scope.

(** The three analyses, and what each of them averages: the square of the displacement between used
    frames [f] and [g] of the followed atoms, of their sum, or of their sum weighted with charges. *)
Inductive analysis := Self | Total | Charge (q : charge R).
Definition analyse {G Seed RS} (X : Ext R G Seed RS) (w : analysis) (d : AnalyzerData R) (u : BootParams R) (g : G) : Res (Analyzer R * G) :=
  match w with
  | Self => diffusion_analyzer X d u g
  | Total => jump_diffusion_analyzer X d u g
  | Charge q => conductivity_analyzer X d q u g
  end.
Definition squared_move (w : analysis) (axes : list axis) (natoms k : nat) (pos : nat -> nat -> V3 R) (idx fw : list Z) (f g : nat) : R :=
  match w with
  | Self => square_between axes natoms k pos idx fw f g
  | Total => total_between axes natoms k pos idx fw f g
  | Charge q => charge_between (charges q (length idx)) natoms k pos idx fw f g
  end.
(** An array of charges has one charge for each followed atom. *)
Definition enough_charges (w : analysis) (idx : list Z) : Prop := forall l, w = Charge (QArray l) -> length l = length idx.

(** The [j]-th value that the analysis of the parsed run [p] reports is [v], for an interval of [m] used frames. *)
Definition gives_at {G Seed RS} (X : Ext R G Seed RS) (w : analysis) (u : BootParams R) (p : Parsed R) (j m : nat) (v : R) : Prop :=
  exists g an g' t, analyse X w (of_parsed p) u g = Ok (an, g')
    /\ nth_error (p_intervals p) (j * Z.to_nat (u_sub_sample_dt u)) = Some (Z.of_nat m)
    /\ nth_error (b_dt (an_diff an)) j = Some t /\ nth_error (b_n (an_diff an)) j = Some v.
Definition gives {G Seed RS} (X : Ext R G Seed RS) (w : analysis) (u : BootParams R) (p : Parsed R) (m : nat) (v : R) : Prop := exists j, gives_at X w u p j m v.

(** Piece [r] has [h r] used frames; so many used frames lie before it. *)
Fixpoint start (h : nat -> nat) (r : nat) : nat := match r with O => 0 | S q => start h q + h q end.
(** Piece [r] of [x], where every [k]-th frame is used. *)
Definition piece (h : nat -> nat) (k : nat) (x : nat -> nat -> V3 R) (r : nat) : nat -> nat -> V3 R := fun f b => x (start h r * k + f) b.
(** The windows of [m] frames that begin before used frame [c] and end at or after it. *)
Definition across (m c : nat) (B : nat -> nat -> R) : R := rsum (tab m (fun f => B (c - m + f) (c + f))).
(** What analysing pieces instead of the whole changes at the cut before used frame [c]: these
    windows are missing, and one window of [m - 1] frames is counted in addition, because the first
    frame of every run is used twice (C81). *)
Definition lost_at (m : nat) (B : nat -> nat -> R) (c : nat) : R := (across m c B - B c (c + m - 1)%nat)%R.
