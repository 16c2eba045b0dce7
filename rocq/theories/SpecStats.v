(** * SpecStats: statistics of displacement arrays, independent of the model *)
From Verif Require Import Base Spec.
From Coq Require Import Reals Ascii.
Open Scope R_scope.

(** ** Axes *)
Inductive axis := AX | AY | AZ.
Definition axis_number (a : axis) : nat := match a with AX => 0 | AY => 1 | AZ => 2 end.
Definition coord (v : V3 R) (a : axis) : R := match a with AX => vx v | AY => vy v | AZ => vz v end.
Definition all_axes : list axis := [AX; AY; AZ].

(** The axis a letter stands for, in either case. *)
Definition axis_of_letter (c : ascii) : option axis :=
  if (Ascii.eqb c "x" || Ascii.eqb c "X")%char then Some AX
  else if (Ascii.eqb c "y" || Ascii.eqb c "Y")%char then Some AY
  else if (Ascii.eqb c "z" || Ascii.eqb c "Z")%char then Some AZ else None.
(** [names s axes]: the string is the letters of one or more axes, each once, in the order x, y, z. *)
Fixpoint increasing_axes (l : list axis) : Prop :=
  match l with
  | a :: (b :: _) as t => (axis_number a < axis_number b)%nat /\ increasing_axes t
  | _ => True
  end.
Definition names (s : string) (axes : list axis) : Prop :=
  map axis_of_letter (list_ascii_of_string s) = map Some axes /\ axes <> [] /\ increasing_axes axes.

(** Squared length along the given axes. *)
Definition sqlen (axes : list axis) (v : V3 R) : R := rsum (map (fun a => coord v a * coord v a) axes).
Definition scale3 (c : R) (v : V3 R) : V3 R := mkV (c * vx v) (c * vy v) (c * vz v).
Definition sum3 (l : list (V3 R)) : V3 R := mkV (rsum (map vx l)) (rsum (map vy l)) (rsum (map vz l)).

(** ** Arrays [atom, observation] of displacements *)

(** All displacements, and those of observation [t] (one per atom). *)
Definition entries {A} (d : Arr A) : list (V3 A) := List.concat (a_rows d).
Definition at_time {A} (d : Arr A) (t : nat) : list (V3 A) :=
  flat_map (fun row => match nth_error row t with Some v => [v] | None => [] end) (a_rows d).

(** Mean squared displacement: over all atoms and observations. *)
Definition msd_of (axes : list axis) (d : Arr R) : R := average (map (sqlen axes) (entries d)).
(** Mean squared total displacement: over observations, of the sum over atoms. *)
Definition mstd_of (axes : list axis) (d : Arr R) : R :=
  average (tab (a_obs d) (fun t => sqlen axes (sum3 (at_time d t)))).
(** Mean squared charge displacement: each atom weighted with its charge. *)
Definition mscd_of (axes : list axis) (q : list R) (d : Arr R) : R :=
  average (tab (a_obs d) (fun t => sqlen axes (sum3 (map (fun p => scale3 (fst p) (snd p)) (combine q (at_time d t)))))).

(** Sample variance (divisor n-1). *)
Definition sample_variance (l : list R) : R :=
  rsum (map (fun x => (x - average l) * (x - average l)) l) / (INR (length l) - 1).

(** The non-Gaussian parameter of a list of squared displacements: 3<r^4>/(5<r^2>^2) - 1. *)
Definition non_gaussian (l : list R) : R :=
  3 * average (map (fun x => x * x) l) / (5 * (average l * average l)) - 1.

(** All displacements multiplied by [c]. *)
Definition scale_arr (c : R) (d : Arr R) : Arr R := mkArr (a_obs d) (map (map (scale3 c)) (a_rows d)).

(** The first intervals, as long as [P] holds for them, and no later one satisfies [P]:
    [leading P l l']: l' is the longest prefix of l of elements satisfying P, and is all of them. *)
Definition leading {T} (P : T -> Prop) (l l' : list T) : Prop :=
  exists rest, l = (l' ++ rest)%list /\ Forall P l' /\ Forall (fun x => ~ P x) rest.

(** A string naming at least one axis. *)
Definition nameable (s : string) : Prop := exists axes, names s axes.

(** Position of the first maximum of a list. *)
Definition first_maximum (l : list R) (i : nat) : Prop :=
  exists m, nth_error l i = Some m /\ forall j x, nth_error l j = Some x -> (x <= m)%R /\ ((j < i)%nat -> (x < m)%R).
