(** * SpecNoise: vocabulary of C119, positions with uncorrelated errors *)
From Verif Require Import Base Spec SpecParser SpecStats.
From Coq Require Import Reals.
Open Scope R_scope.

(** The average of a quantity over runs [es] with weights [w]. *)
Definition expected {E : Type} (es : list E) (w : E -> R) (h : E -> R) : R := rsum (map (fun e => w e * h e) es).
(** [noise e f b] is added to the position of atom [b] in frame [f] of run [e]. On average the errors
    vanish, and errors of different used frames are uncorrelated (errors of different atoms in the
    same frame need not be). *)
Record white_noise {E : Type} (es : list E) (w : E -> R) (axes : list axis) (natoms k T : nat) (noise : E -> nat -> nat -> V3 R) : Prop := {
  wn_weights : rsum (map w es) = 1;
  wn_mean : forall f b d, (f < T)%nat -> (b < natoms)%nat -> In d axes -> expected es w (fun e => coord (noise e (f * k)%nat b) d) = 0;
  wn_uncorrelated : forall f g b c d, (f < T)%nat -> (g < T)%nat -> f <> g -> (b < natoms)%nat -> (c < natoms)%nat -> In d axes ->
    expected es w (fun e => coord (noise e (f * k)%nat b) d * coord (noise e (g * k)%nat c) d) = 0 }.
(** The errors of the followed atoms relative to the mean error of the framework. *)
Definition errors (natoms : nat) (q : nat -> V3 R) (idx fw : list Z) : list (V3 R) :=
  map (fun i => match fw with [] => q (site natoms i) | _ => minus3 (q (site natoms i)) (average3 (map (fun i => q (site natoms i)) fw)) end) idx.
(** Their mean square, the square of their sum, and of their sum weighted with charges. *)
Definition error_square (axes : list axis) (l : list (V3 R)) : R := average (map (sqlen axes) l).
Definition error_total (axes : list axis) (l : list (V3 R)) : R := sqlen axes (sum3 l).
Definition error_charge (q : list R) (l : list (V3 R)) : R := sqlen all_axes (sum3 (map (fun p => scale3 (fst p) (snd p)) (combine q l))).
(** What errors of mean square [s] add to the report for an interval of [m] of [T] used frames: both
    ends of a window contribute; for one frame the additional window at the start (C81) is empty. *)
Definition added (T m : nat) (s : R) : R := if Nat.eqb m 1 then 2 * s * (INR (T - 1) / INR T) else 2 * s.
