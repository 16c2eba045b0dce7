(** * SpecIdeal: vocabulary of C90, an ideal random walk observed through windows that do not overlap *)
From Verif Require Import Base Spec SpecFit SpecStats SpecPool SpecGls SpecMarkov.
From Coq Require Import Reals.
Open Scope R_scope.

(** [s a k] is the k-th step of atom [a]. The quantity [f] uses the steps in [P] only. *)
Definition uses_only (P : nat -> nat -> Prop) (f : (nat -> nat -> V3 R) -> R) : Prop :=
  forall s s', (forall a k, P a k -> s a k = s' a k) -> f s = f s'.
(** The steps are independent: quantities using different steps factorise on average. *)
Definition independent_steps {E} (es : list E) (wt : E -> R) (s : E -> nat -> nat -> V3 R) : Prop :=
  forall (P : nat -> nat -> bool) f g, uses_only (fun a k => P a k = true) f -> uses_only (fun a k => P a k = false) g ->
    mean_over es wt (fun e => f (s e) * g (s e)) = mean_over es wt (fun e => f (s e)) * mean_over es wt (fun e => g (s e)).
(** The first [M] steps of the first [N] atoms go nowhere on average. *)
Definition unbiased_steps {E} (es : list E) (wt : E -> R) (s : E -> nat -> nat -> V3 R) (N M : nat) : Prop :=
  forall a k c, (a < N)%nat -> (k < M)%nat -> mean_over es wt (fun e => coord (s e a k) c) = 0.
(** All have the second moments [C]. *)
Definition second_moments {E} (es : list E) (wt : E -> R) (s : E -> nat -> nat -> V3 R) (N M : nat) (C : axis -> axis -> R) : Prop :=
  forall a k c c', (a < N)%nat -> (k < M)%nat -> mean_over es wt (fun e => coord (s e a k) c * coord (s e a k) c') = C c c'.
Definition trace_of (axes : list axis) (C : axis -> axis -> R) : R := rsum (map (fun c => C c c) axes).
Definition trace_square (axes : list axis) (C : axis -> axis -> R) : R := rsum (map (fun c => rsum (map (fun c' => C c c' * C c c') axes)) axes).
(** And the fourth moment a normal distribution with these second moments has. *)
Definition normal_fourth {E} (es : list E) (wt : E -> R) (s : E -> nat -> nat -> V3 R) (N M : nat) (axes : list axis) (C : axis -> axis -> R) : Prop :=
  forall a k, (a < N)%nat -> (k < M)%nat -> mean_over es wt (fun e => sqlen axes (s e a k) * sqlen axes (s e a k)) = trace_of axes C * trace_of axes C + 2 * trace_square axes C.
(** The displacement of atom [a] over [n] steps from step [k] on. *)
Definition net (s : nat -> nat -> V3 R) (a k n : nat) : V3 R := sum3 (map (s a) (seq k n)).
(** The mean squared displacement over [n] steps, from windows side by side. *)
Definition spaced_msd (axes : list axis) (N M n : nat) (s : nat -> nat -> V3 R) : R :=
  average (map (fun p => sqlen axes (net s (fst p) (snd p * n) n)) (list_prod (seq 0 N) (seq 0 (M / n)))).
(** Interval lengths such that the windows fit into each other and into the run. *)
Definition nested (M : nat) (ns : list nat) : Prop :=
  Forall (fun n => (0 < n)%nat /\ Nat.divide n M) ns
  /\ forall i j, (i <= j < length ns)%nat -> Nat.divide (nth i ns 0%nat) (nth j ns 0%nat).
(** The count kinisi uses: atoms times the longest over the length. *)
Definition counts (N M : nat) (ns : list nat) : list R := map (fun n => INR N * INR M / INR n) ns.
(** Covariance. *)
Definition covary {E} (es : list E) (wt : E -> R) (f g : E -> R) : R :=
  mean_over es wt (fun e => (f e - mean_over es wt f) * (g e - mean_over es wt g)).

(** Example: one atom, two steps along x of length 1, 2 or 4 to either side. *)
Definition hop_sizes : list Z := [1; -1; 2; -2; 4; -4]%Z.
Definition hop_chance (z : Z) : R := match Z.abs z with 1%Z => 24 / 60 | 2%Z => 5 / 60 | _ => 1 / 60 end.
Definition hops : list (Z * Z) := list_prod hop_sizes hop_sizes.
Definition hops_chance (e : Z * Z) : R := hop_chance (fst e) * hop_chance (snd e).
Definition hop (e : Z * Z) (a k : nat) : V3 R :=
  match a, k with
  | O, O => mkV (IZR (fst e)) 0 0
  | O, 1%nat => mkV (IZR (snd e)) 0 0
  | _, _ => zero3
  end.
Definition hop_moments (c c' : axis) : R := match c, c' with AX, AX => 2 | _, _ => 0 end.
