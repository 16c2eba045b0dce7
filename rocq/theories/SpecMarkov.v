(** * SpecMarkov: vocabulary of C87, fitted lines over many repetitions of the data *)
From Verif Require Import Base Spec SpecFit SpecGls.
From Coq Require Import Reals.
Open Scope R_scope.

(** Average of [f] over the repetitions [es] with weights [wt]. *)
Definition mean_over {E} (es : list E) (wt : E -> R) (f : E -> R) : R := rsum (map (fun e => wt e * f e) es).
(** The points of a line. *)
Definition line_points (dt : list R) (g c : R) : list R := map (fun t => g * t + c) dt.
(** The data [y] have the average [mu] and the covariance matrix [S]. *)
Definition centred_on {E} (es : list E) (wt : E -> R) (y : E -> list R) (mu : list R) : Prop :=
  rsum (map wt es) = 1 /\ (forall e, In e es -> length (y e) = length mu)
  /\ forall i, (i < length mu)%nat -> mean_over es wt (fun e => vec_entry (y e) i) = vec_entry mu i.
Definition scattered {E} (es : list E) (wt : E -> R) (y : E -> list R) (mu : list R) (S : list (list R)) : Prop :=
  length S = length mu
  /\ forall i j, (i < length mu)%nat -> (j < length mu)%nat ->
    mean_over es wt (fun e => (vec_entry (y e) i - vec_entry mu i) * (vec_entry (y e) j - vec_entry mu j)) = matrix_entry S i j.
(** A linear estimate from the data. *)
Definition estimate (a y : list R) : R := sumto (length y) (fun i => vec_entry a i * vec_entry y i).
(** It gives the slope of every line; of every line through the origin. *)
Definition finds_slope (a dt : list R) : Prop := forall g c, estimate a (line_points dt g c) = g.
Definition finds_slope_origin (a dt : list R) : Prop := forall g, estimate a (line_points dt g 0) = g.
(** No parameters are more likely than [best] ([None] is minus infinity). *)
Definition most_likely (ll : list R -> Res (option R)) (best : list R) : Prop :=
  exists l, ll best = Ok (Some l) /\ forall th l', length th = length best -> ll th = Ok (Some l') -> l' <= l.
