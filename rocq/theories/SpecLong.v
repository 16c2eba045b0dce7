(** * SpecLong: vocabulary of C99, reported displacements of ever longer simulations *)
From Verif Require Import Base Spec SpecParser SpecStats SpecRun SpecTrue SpecPool SpecColl SpecMarkov SpecCalib SpecIdeal.
From Coq Require Import Reals.
Open Scope R_scope.

(** Runs [es] happen with the probabilities [wt]. *)
Definition probabilities {E} (es : list E) (wt : E -> R) : Prop := rsum (map wt es) = 1 /\ forall e, In e es -> 0 <= wt e.
(** [b e f g] is a quantity of run [e] between used frames [f] and [g], of [T]. Windows of [l] <= [m]
    frames have the average [M l] wherever they start and a variance of at most [s2]; windows with
    [gap] frames or more between them are uncorrelated. *)
Record steady_windows {E} (es : list E) (wt : E -> R) (b : E -> nat -> nat -> R) (T m gap : nat) (M : nat -> R) (s2 : R) : Prop := {
  st_mean : forall f l, (f + l < T)%nat -> (l <= m)%nat -> mean_over es wt (fun e => b e f (f + l)%nat) = M l;
  st_spread : forall f l, (f + l < T)%nat -> (l <= m)%nat -> spread_over es wt (fun e => b e f (f + l)%nat) <= s2;
  st_apart : forall f l f' l', (f + l + gap <= f')%nat -> (f' + l' < T)%nat -> (l <= m)%nat -> (l' <= m)%nat ->
    covary es wt (fun e => b e f (f + l)%nat) (fun e => b e f' (f' + l')%nat) = 0 }.
(** The same for each of [N] atoms, different atoms being uncorrelated. *)
Record steady_atoms {E} (es : list E) (wt : E -> R) (own : nat -> E -> nat -> nat -> R) (N T m gap : nat) (M : nat -> R) (s2 : R) : Prop := {
  sa_each : forall c, (c < N)%nat -> steady_windows es wt (own c) T m gap M s2;
  sa_apart : forall c c' f l f' l', (c < N)%nat -> (c' < N)%nat -> c <> c' -> (f + l < T)%nat -> (f' + l' < T)%nat -> (l <= m)%nat -> (l' <= m)%nat ->
    covary es wt (fun e => own c e f (f + l)%nat) (fun e => own c' e f' (f' + l')%nat) = 0 }.
(** The probability of being off by more than [d]. *)
Definition chance_beyond {E} (es : list E) (wt : E -> R) (v : E -> R) (c d : R) : R :=
  rsum (map (fun e => if Rlt_dec d (Rabs (v e - c)) then wt e else 0) es).
(** The mean square error is at most [q], so large errors are unlikely. *)
Definition within_square {E} (es : list E) (wt : E -> R) (v : E -> R) (c q : R) : Prop :=
  mean_over es wt (fun e => (v e - c) * (v e - c)) <= q /\ forall d, 0 < d -> chance_beyond es wt v c d <= q / (d * d).
(** The error allowed for windows of [m] of [T] frames: statistics and the window of [m-1] frames. *)
Definition allowance (T m gap : nat) (M : nat -> R) (s2 : R) : R :=
  s2 * (2 * INR (m + gap) - 1) / INR (T - m + 1) + (M m - M (m - 1)%nat) / INR (T - m + 1) * ((M m - M (m - 1)%nat) / INR (T - m + 1)).
(** The squared displacement of the [c]-th followed atom. *)
Definition own_square (axes : list axis) (natoms k : nat) (pos : nat -> nat -> V3 R) (idx fw : list Z) (c f g : nat) : R :=
  sqlen axes (move_of natoms k pos idx fw c f g).
(** The mean fourth power of a step is at most [q]. *)
Definition fourth_below {E} (es : list E) (wt : E -> R) (s : E -> nat -> nat -> V3 R) (N M : nat) (axes : list axis) (q : R) : Prop :=
  forall a k, (a < N)%nat -> (k < M)%nat -> mean_over es wt (fun e => sqlen axes (s e a k) * sqlen axes (s e a k)) <= q.
(** What this allows for the variance of a squared displacement of [m] steps. *)
Definition walk_spread (axes : list axis) (C : axis -> axis -> R) (q : R) (m : nat) : R :=
  INR m * (q - trace_of axes C * trace_of axes C) + 2 * INR m * INR (m - 1) * trace_square axes C.

(** Example: three steps along x of length 1/10 to either side, given by coins. *)
Definition coin_step (e : bool * bool * bool) (a k : nat) : V3 R :=
  let '(x, y, z) := e in let d (c : bool) := mkV (if c then 1 / 10 else - (1 / 10)) 0 0 in
  match a, k with O, O => d x | O, 1%nat => d y | O, 2%nat => d z | _, _ => zero3 end.
Definition coin_moments (c c' : axis) : R := match c, c' with AX, AX => 1 / 100 | _, _ => 0 end.
