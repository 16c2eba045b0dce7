(** * SpecCalib: vocabulary of C89, reported variances and the scatter of repeated measurements *)
From Verif Require Import Base Spec SpecParser SpecStats SpecMarkov ModelParser.
From Coq Require Import Reals.
Open Scope R_scope.

(** The variance of [f] over the repetitions [es] with weights [wt]. *)
Definition spread_over {E} (es : list E) (wt : E -> R) (f : E -> R) : R :=
  mean_over es wt (fun e => (f e - mean_over es wt f) * (f e - mean_over es wt f)).
(** [K] observations with the same average [mu] and variance [s2] over the repetitions. *)
Definition alike {E} (es : list E) (wt : E -> R) (K : nat) (obs : E -> nat -> R) (mu s2 : R) : Prop :=
  forall l, (l < K)%nat -> mean_over es wt (fun e => obs e l) = mu /\ mean_over es wt (fun e => (obs e l - mu) * (obs e l - mu)) = s2.
(** No two of them are correlated. *)
Definition unrelated {E} (es : list E) (wt : E -> R) (K : nat) (obs : E -> nat -> R) (mu : R) : Prop :=
  forall l l', (l < K)%nat -> (l' < K)%nat -> l <> l' -> mean_over es wt (fun e => (obs e l - mu) * (obs e l' - mu)) = 0.
(** The squared displacements in an array, one after the other; those of the sum over atoms; those
    of the charges. *)
Definition square_of (axes : list axis) (d : Arr R) (l : nat) : R := sqlen axes (nth l (entries d) zero3).
Definition total_square_of (axes : list axis) (d : Arr R) (l : nat) : R := sqlen axes (sum3 (at_time d l)).
Definition charge_square_of (q : list R) (d : Arr R) (l : nat) : R :=
  sqlen all_axes (sum3 (map (fun p => scale3 (fst p) (snd p)) (combine q (at_time d l)))).
(** Two atoms walking along a line, each with three steps decided by fair coins: all 64 outcomes. *)
Definition coin (c : bool) : R := if c then 1 else -1.
Definition flips : list (bool * bool * bool) := list_prod (list_prod [true; false] [true; false]) [true; false].
Definition walkers : list ((bool * bool * bool) * (bool * bool * bool)) := list_prod flips flips.
Definition path (s : bool * bool * bool) (t : nat) : R :=
  let '(a, b, c) := s in match t with O => 0 | 1%nat => coin a | 2%nat => coin a + coin b | _ => coin a + coin b + coin c end.
Definition stroll (e : (bool * bool * bool) * (bool * bool * bool)) (a t : nat) : V3 R :=
  mkV (path (match a with O => fst e | _ => snd e end) t) 0 0.
Definition fair (e : (bool * bool * bool) * (bool * bool * bool)) : R := 1 / 64.
(** Every interval from one frame to all [T] frames, with unit time step. *)
Definition whole_span (T : nat) (sampling : string) : Options R := mkOptions (Some 1) (Some (INR T)) (Z.of_nat T) "linear" sampling 8 8%Z.
(** The squared displacement of the [l]-th followed atom in repetition [e] after entry [t] of the
    displacement table, drift removed. *)
Definition atom_square {E} (axes : list axis) (N : nat) (x : E -> nat -> nat -> V3 R) (idx drift : list Z) (t : nat) (e : E) (l : nat) : R :=
  sqlen axes (corrected N (x e) drift (site N (nth l idx 0%Z)) t).
