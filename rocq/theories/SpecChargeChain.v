(** * SpecChargeChain: charge displacements from stored positions in double precision (C123) *)
From Verif Require Import Base Spec SpecStats ModelDiffusion SpecDouble SpecUnwrap SpecRound SpecChain SpecCollRound.
From Coq Require Import Reals.
From Coq.Floats Require Import SpecFloat.

(** Charge times displacement, of the [k]-th atom of [ids], from frame [o] to frame [o + m]. *)
Definition dipole_of (side : V3 R) (x : nat -> nat -> V3 R) (fw : list nat) (o m : nat) (p : R * nat) : V3 R :=
  scale3 (fst p) (moved_rel side x fw o m (snd p)).
(** Mean square, over all pairs of frames [m] apart among the frames 0..n, of the sum of charge times displacement. *)
Definition exact_mscd (q : list R) (side : V3 R) (x : nat -> nat -> V3 R) (fw ids : list nat) (n m : nat) : R :=
  average (tab (n - m + 1) (fun o => sqlen all_axes (sum3 (map (dipole_of side x fw o m) (combine q ids))))).
(** Mean square of charge times displacement of one atom. *)
Definition exact_single (q : list R) (side : V3 R) (x : nat -> nat -> V3 R) (fw ids : list nat) (n m : nat) : R :=
  average (List.concat (map (fun p => tab (n - m + 1) (fun o => sqlen all_axes (dipole_of side x fw o m p))) (combine q ids))).
(** The sizes of the charges, added up. *)
Definition total_charge_size (q : list R) : R := rsum (map Rabs q).
(** [r] is the mean square [e] of a sum over [atoms] atoms of terms, of mean square [single], that are together known up to [d]. *)
Definition charge_accurate (obs atoms : nat) (d single : R) (r : spec_float) (e : R) : Prop :=
  finite_double r /\ (0 <= value r)%R
  /\ (Rabs (sqrt (value r) - sqrt e) <= (INR obs + 8) * / 2 ^ 52 * sqrt e + 2 * INR atoms * (INR atoms + 1) * / 2 ^ 52 * sqrt single
        + 2 * d + powerRZ 2 (-535))%R.
