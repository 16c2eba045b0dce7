(** * SpecChain: the mean squared displacement that exact arithmetic would give (C88) *)
From Verif Require Import Base Spec SpecStats SpecDouble SpecUnwrap SpecRound.
From Coq Require Import Reals.
From Coq.Floats Require Import SpecFloat.
Open Scope Z_scope.

(** How far atom [a] moves along axis [i] from frame [o] to frame [o + m]; [x f a] is its fractional
    position in frame [f], [side] the cell. *)
Definition moved (side : V3 R) (x : nat -> nat -> V3 R) (o m a : nat) (i : axis) : R :=
  ((part (x (o + m)%nat a) i - part (x o a) i) * part side i)%R.
(** The same relative to the average of the framework atoms [fw]. *)
Definition moved_rel (side : V3 R) (x : nat -> nat -> V3 R) (fw : list nat) (o m a : nat) : V3 R :=
  let r i := match fw with [] => moved side x o m a i | _ => (moved side x o m a i - average (map (fun f => moved side x o m f i) fw))%R end in
  mkV (r AX) (r AY) (r AZ).
(** Mean square over the atoms [ids] and all pairs of frames [m] apart among the frames 0..n. *)
Definition exact_msd (axes : list axis) (side : V3 R) (x : nat -> nat -> V3 R) (fw ids : list nat) (n m : nat) : R :=
  average (List.concat (map (fun a => tab (n - m + 1) (fun o => sqlen axes (moved_rel side x fw o m a))) ids)).

(** [r] is the exact mean square up to rounding: the root is right to ([n_obs] + 8) 2^-52 of itself plus [e]. *)
Definition rms_accurate (n_obs : nat) (e : R) (r : spec_float) (exact : R) : Prop :=
  finite_double r /\ (0 <= value r)%R /\ (Rabs (sqrt (value r) - sqrt exact) <= (INR n_obs + 8) * / 2 ^ 52 * sqrt exact + e)%R.
(** Rounding error of a displacement within [n] frames relative to [f] framework atoms, in cell sides. *)
Definition chain_error (n f : nat) : R := (INR n * (16 * INR n + INR f + 6) * / 2 ^ 51)%R.
