(** * SpecBayes: weights *)
From Verif Require Import Base Spec.
From Coq Require Import Reals.
Open Scope R_scope.

(** Non-negative weights that add up to 1; all weight on one place. *)
Definition weights_of (k : nat) (row : list R) : Prop := length row = k /\ Forall (fun x => 0 <= x) row /\ rsum row = 1.
Definition one_place (k : nat) (row : list R) : Prop := exists j, (j < k)%nat /\ row = tab k (fun i => if Nat.eqb i j then 1 else 0).
(** What is assumed about NumPy's generators: the rows asked for. *)
Definition draws_rows {G} (P : nat -> list R -> Prop) (draw : G -> list R -> nat -> list (list R) * G) : Prop :=
  forall g alpha n, alpha <> [] -> length (fst (draw g alpha n)) = n /\ Forall (P (length alpha)) (fst (draw g alpha n)).
(** The weighted mean. *)
Definition weighted (row values : list R) : R := rsum (map (fun p => fst p * snd p) (combine row values)).
