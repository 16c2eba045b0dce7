(** * PropertiesMarkov: C87, the fitted line over many repetitions of the same measurement *)
From Verif Require Import Base Spec SpecFit SpecGls ModelParser ModelDiffusion ProofsCov ProofsFit2 ProofsGls SpecMarkov ProofsMarkov.
From Coq Require Import Reals.
Open Scope nat_scope.

(** ** C87
    [es] are the possible outcomes with the probabilities [wt], [y e] is the measured curve of the
    outcome [e]; the true curve is the line of slope [g0] and intercept [c0].
    Whatever the weights [w], the most likely lines are right on average. *)
Theorem C87_right_on_average : forall E (es : list E) (wt : E -> R) (dt : list R) (y : E -> list R) (ld : R) w (g0 c0 : R) (g c : E -> R),
  centred_on es wt y (line_points dt g0 c0) -> square w (length dt) -> symmetric w -> positive_definite w -> two_times dt ->
  (forall e, In e es -> (0 < g e)%R /\ most_likely (log_likelihood dt (y e) ld w) [g e; c e]) ->
  mean_over es wt g = g0 /\ mean_over es wt c = c0.
Proof. exact @C87_unbiased. Qed.
Print Assumptions C87_right_on_average.
Theorem C87_right_on_average_no_intercept : forall E (es : list E) (wt : E -> R) (dt : list R) (y : E -> list R) (ld : R) w (g0 : R) (g : E -> R),
  centred_on es wt y (line_points dt g0 0) -> square w (length dt) -> symmetric w -> positive_definite w -> some_time dt ->
  (forall e, In e es -> (0 < g e)%R /\ most_likely (log_likelihood dt (y e) ld w) [g e]) -> mean_over es wt g = g0.
Proof. exact @C87_unbiased1. Qed.
Print Assumptions C87_right_on_average_no_intercept.
(** If [w] is the inverse of the covariance matrix [S] of the measured curves: the likelihood of each
    outcome is normal around its most likely line, and the covariance matrix of that normal
    distribution is the covariance matrix of the most likely lines over the outcomes. *)
Theorem C87_width_is_real_spread : forall E (es : list E) (wt : E -> R) (dt : list R) (y : E -> list R) (ld : R) w S (g0 c0 : R) (g c : E -> R),
  centred_on es wt y (line_points dt g0 c0) -> scattered es wt y (line_points dt g0 c0) S ->
  square w (length dt) -> symmetric w -> positive_definite w -> inverse_of w S -> two_times dt ->
  (forall e, In e es -> (0 < g e)%R /\ most_likely (log_likelihood dt (y e) ld w) [g e; c e]) ->
  exists A B C vgg vgc vcc,
    (forall e, In e es -> exists k, forall a b, (0 <= g e + a)%R ->
       log_likelihood dt (y e) ld w [g e + a; c e + b]%R = Ok (Some (k - 1/2 * (a * a * A + 2 * (a * b) * B + b * b * C)))%R)
    /\ mean_over es wt (fun e => (g e - g0) * (g e - g0))%R = vgg
    /\ mean_over es wt (fun e => (g e - g0) * (c e - c0))%R = vgc
    /\ mean_over es wt (fun e => (c e - c0) * (c e - c0))%R = vcc
    /\ inverse_of [[A; B]; [B; C]] [[vgg; vgc]; [vgc; vcc]].
Proof. exact @C87_width. Qed.
Print Assumptions C87_width_is_real_spread.
Theorem C87_width_is_real_spread_no_intercept : forall E (es : list E) (wt : E -> R) (dt : list R) (y : E -> list R) (ld : R) w S (g0 : R) (g : E -> R),
  centred_on es wt y (line_points dt g0 0) -> scattered es wt y (line_points dt g0 0) S ->
  square w (length dt) -> symmetric w -> positive_definite w -> inverse_of w S -> some_time dt ->
  (forall e, In e es -> (0 < g e)%R /\ most_likely (log_likelihood dt (y e) ld w) [g e]) ->
  exists A,
    (forall e, In e es -> exists k, forall a, (0 <= g e + a)%R ->
       log_likelihood dt (y e) ld w [g e + a]%R = Ok (Some (k - 1/2 * (a * a * A)))%R)
    /\ (A * mean_over es wt (fun e => (g e - g0) * (g e - g0)) = 1)%R.
Proof. exact @C87_width1. Qed.
Print Assumptions C87_width_is_real_spread_no_intercept.
(** No other linear estimate that finds the slope of every line scatters less. *)
Theorem C87_least_spread : forall E (es : list E) (wt : E -> R) (dt : list R) (y : E -> list R) (ld : R) w S (g0 c0 : R) (g c : E -> R) (a : list R),
  centred_on es wt y (line_points dt g0 c0) -> scattered es wt y (line_points dt g0 c0) S ->
  square w (length dt) -> symmetric w -> positive_definite w -> inverse_of w S -> two_times dt ->
  (forall e, In e es -> (0 < g e)%R /\ most_likely (log_likelihood dt (y e) ld w) [g e; c e]) ->
  (forall e, In e es -> (0 <= wt e)%R) -> finds_slope a dt ->
  mean_over es wt (fun e => estimate a (y e)) = g0
  /\ (mean_over es wt (fun e => (g e - g0) * (g e - g0)) <= mean_over es wt (fun e => (estimate a (y e) - g0) * (estimate a (y e) - g0)))%R.
Proof. exact @C87_minimum. Qed.
Print Assumptions C87_least_spread.
Theorem C87_least_spread_no_intercept : forall E (es : list E) (wt : E -> R) (dt : list R) (y : E -> list R) (ld : R) w S (g0 : R) (g : E -> R) (a : list R),
  centred_on es wt y (line_points dt g0 0) -> scattered es wt y (line_points dt g0 0) S ->
  square w (length dt) -> symmetric w -> positive_definite w -> inverse_of w S -> some_time dt ->
  (forall e, In e es -> (0 < g e)%R /\ most_likely (log_likelihood dt (y e) ld w) [g e]) ->
  (forall e, In e es -> (0 <= wt e)%R) -> finds_slope_origin a dt ->
  mean_over es wt (fun e => estimate a (y e)) = g0
  /\ (mean_over es wt (fun e => (g e - g0) * (g e - g0)) <= mean_over es wt (fun e => (estimate a (y e) - g0) * (estimate a (y e) - g0)))%R.
Proof. exact @C87_minimum1. Qed.
Print Assumptions C87_least_spread_no_intercept.
(** Three points, each half a unit above or below the line 2t+1: the most likely slope has variance
    1/8, the slope between the first two points has variance 1/2. *)
Example C87_example : centred_on halves (fun _ => 1/8)%R noisy (line_points [1;2;3]%R 2 1)
  /\ scattered halves (fun _ => 1/8)%R noisy (line_points [1;2;3]%R 2 1) quarter_id
  /\ square four_id 3 /\ symmetric four_id /\ positive_definite four_id /\ inverse_of four_id quarter_id /\ two_times [1;2;3]%R
  /\ (forall e, In e halves -> (0 < noisy_slope e)%R /\ most_likely (log_likelihood [1;2;3]%R (noisy e) 0%R four_id) [noisy_slope e; noisy_intercept e])
  /\ finds_slope [-1;1;0]%R [1;2;3]%R
  /\ mean_over halves (fun _ => 1/8)%R (fun e => (noisy_slope e - 2) * (noisy_slope e - 2))%R = (1/8)%R
  /\ mean_over halves (fun _ => 1/8)%R (fun e => (estimate [-1;1;0]%R (noisy e) - 2) * (estimate [-1;1;0]%R (noisy e) - 2))%R = (1/2)%R.
Proof. exact C87_example_proof. Qed.
