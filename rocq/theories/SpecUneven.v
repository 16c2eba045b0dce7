(** * SpecUneven: vocabulary of C120, frames stored at uneven times *)
From Verif Require Import Base Spec SpecParser SpecStats.
From Coq Require Import Reals.
Open Scope R_scope.

(** [tau f] is the time at which used frame [f] was really taken. The windows of [m] frames that the
    analysis uses are those from [f] to [f + m], and one from the first frame to frame [m - 1] (C81);
    this is the time they really span, on average. *)
Definition spanned (T m : nat) (tau : nat -> R) : R :=
  (rsum (tab (T - m) (fun f => tau (f + m)%nat - tau f)) + (tau (m - 1)%nat - tau 0%nat)) / INR (T - m + 1).
(** What they would span with one unit of time between frames. *)
Definition evenly (T m : nat) : R := INR m - 1 / INR (T - m + 1).
(** Frames taken every [delta], of which some are stored again: [rep f] of the frames up to [f] repeat
    their predecessor. *)
Definition repeats (T : nat) (rep : nat -> nat) : Prop :=
  rep 0%nat = 0%nat /\ forall f, (S f < T)%nat -> (rep f <= rep (S f) <= S (rep f))%nat.
Definition with_repeats (delta : R) (rep : nat -> nat) (f : nat) : R := delta * (INR f - INR (rep f)).
