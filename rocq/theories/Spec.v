(** * Spec: vocabulary of the property statements

    Nothing here mentions the model of kinisi; only the value types of [Base] are used. *)
From Verif Require Import Base.
From Coq Require Import Reals.
Open Scope R_scope.

(** ** Geometry *)

(** Cartesian vector of a fractional vector: the combination of the three cell vectors. *)
Definition cart (cell : M3 R) (f : V3 R) : V3 R :=
  mkV (vx f * vx (mr0 cell) + vy f * vx (mr1 cell) + vz f * vx (mr2 cell))
      (vx f * vy (mr0 cell) + vy f * vy (mr1 cell) + vz f * vy (mr2 cell))
      (vx f * vz (mr0 cell) + vy f * vz (mr1 cell) + vz f * vz (mr2 cell)).

(** Signed cell volume: scalar triple product a . (b x c). *)
Definition cell_volume (cell : M3 R) : R :=
  let a := mr0 cell in let b := mr1 cell in let c := mr2 cell in
  vx a * (vy b * vz c - vz b * vy c) + vy a * (vz b * vx c - vx b * vz c)
  + vz a * (vx b * vy c - vy b * vx c).

(** Real vector of an integer vector. *)
Definition ivec (k : V3 Z) : V3 R := mkV (IZR (vx k)) (IZR (vy k)) (IZR (vz k)).

Definition plus3 (u v : V3 R) : V3 R := mkV (vx u + vx v) (vy u + vy v) (vz u + vz v).
Definition minus3 (u v : V3 R) : V3 R := mkV (vx u - vx v) (vy u - vy v) (vz u - vz v).
Definition zero3 : V3 R := mkV 0 0 0.

(** Every component in [-1/2, 1/2). *)
Definition within_half (v : V3 R) : Prop :=
  -/2 <= vx v < /2 /\ -/2 <= vy v < /2 /\ -/2 <= vz v < /2.

(** ** Sums and means *)
Fixpoint rsum (l : list R) : R := match l with [] => 0%R | x :: t => (x + rsum t)%R end.
Definition average (l : list R) : R := rsum l / INR (length l).
Definition average3 (l : list (V3 R)) : V3 R :=
  mkV (average (map vx l)) (average (map vy l)) (average (map vz l)).

(** ** Tables *)

(** The list [f 0; ...; f (n-1)]. *)
Definition tab {T} (n : nat) (f : nat -> T) : list T := map f (seq 0 n).

(** Entry at row [a], column [t], if there is one. *)
Definition entry {T} (rows : list (list T)) (a t : nat) : option T :=
  match nth_error rows a with Some r => nth_error r t | None => None end.
Definition arr_entry {A} (x : Arr A) (a t : nat) : option (V3 A) := entry (a_rows x) a t.

(** [m] rows of exactly [n] entries each. *)
Definition shape {T} (rows : list (list T)) (m n : nat) : Prop :=
  length rows = m /\ Forall (fun r => length r = n) rows.

(** The array with [m] sites, [n] observations and entries [x site observation]. *)
Definition table {A} (m n : nat) (x : nat -> nat -> V3 A) : Arr A :=
  mkArr n (tab m (fun a => tab n (x a))).

(** The site meant by a Python index into an axis of length [n]: negative indices count from
    the end. *)
Definition site (n : nat) (i : Z) : nat := Z.to_nat (if (i <? 0)%Z then i + Z.of_nat n else i).
Definition valid_site (n : nat) (i : Z) : Prop := (- Z.of_nat n <= i < Z.of_nat n)%Z.

(** Number of frames left when every [k]-th of [n] is kept. *)
Definition kept (n k : nat) : nat := Nat.div (n + k - 1) k.

(** Every [k]-th element: [sub_sample k l l'] says that [l'] is l[0], l[k], l[2k], ... *)
Definition sub_sample {A} (k : nat) (l l' : list A) : Prop :=
  forall i, nth_error l' i = nth_error l (i * k).
