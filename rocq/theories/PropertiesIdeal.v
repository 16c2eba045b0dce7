(** * PropertiesIdeal: C90, the covariance matrix and an ideal random walk *)
From Verif Require Import Base Spec SpecParser SpecStats SpecFit SpecGls SpecMarkov SpecCalib SpecIdeal ModelParser ModelDiffusion ModelHdf ProofsStats ProofsCalib ProofsIdeal.
From Coq Require Import Reals.
Open Scope nat_scope.

(** ** C90
    [N] atoms make [len] independent unbiased steps [s e]; [e] are the outcomes with the probabilities
    [wt]. The mean squared displacement is taken over windows lying side by side, for interval lengths
    [ns] each dividing the next. Then kinisi's matrix, given the true variances, is the true covariance
    matrix: whatever the distribution of the steps, different for each atom and step. *)
Theorem C90_matrix_is_true_covariance : forall E (es : list E) (wt : E -> R) s axes N len ns (v : list R) mat,
  rsum (map wt es) = 1%R -> independent_steps es wt s -> unbiased_steps es wt s N len -> 0 < N -> 0 < len -> nested len ns ->
  length v = length ns -> (forall i, i < length ns -> vec_entry v i = spread_over es wt (fun e => spaced_msd axes N len (nth i ns 0) (s e))) ->
  populate_covariance_matrix v (counts N len ns) = Ok mat ->
  length mat = length ns /\ forall i j, i < length ns -> j < length ns ->
    matrix_entry mat i j = covary es wt (fun e => spaced_msd axes N len (nth i ns 0) (s e)) (fun e => spaced_msd axes N len (nth j ns 0) (s e)).
Proof. exact @C90_entries. Qed.
Print Assumptions C90_matrix_is_true_covariance.
(** If all steps have the same second moments and the fourth moment of a normal distribution, the
    variances themselves have the form a t^2 / n_o of kinisi's variance model: on average the curve is
    a line through the origin, and the matrix from the variance model is its covariance matrix (these
    are the hypotheses of C87). *)
Theorem C90_variance_model_is_true : forall E (es : list E) (wt : E -> R) s axes C N len ns (tau : R) mat,
  rsum (map wt es) = 1%R -> independent_steps es wt s -> unbiased_steps es wt s N len ->
  second_moments es wt s N len C -> normal_fourth es wt s N len axes C -> 0 < N -> 0 < len -> nested len ns -> tau <> 0%R ->
  populate_covariance_matrix (model_variance (counts N len ns) (map (fun n => INR n * tau)%R ns) (2 * trace_square axes C / (tau * tau))%R) (counts N len ns) = Ok mat ->
  centred_on es wt (fun e => map (fun n => spaced_msd axes N len n (s e)) ns) (line_points (map (fun n => INR n * tau)%R ns) (trace_of axes C / tau) 0)
  /\ scattered es wt (fun e => map (fun n => spaced_msd axes N len n (s e)) ns) (line_points (map (fun n => INR n * tau)%R ns) (trace_of axes C / tau) 0) mat.
Proof. exact @C90_model_proof. Qed.
Print Assumptions C90_variance_model_is_true.
(** So a fit with the inverse of that matrix is right on average, and its likelihood in every single
    run is as wide as the fitted slope really scatters over the runs. *)
Theorem C90_fit_is_calibrated : forall E (es : list E) (wt : E -> R) s axes C N len ns (tau : R) mat (ld : R) w (g : E -> R),
  rsum (map wt es) = 1%R -> independent_steps es wt s -> unbiased_steps es wt s N len ->
  second_moments es wt s N len C -> normal_fourth es wt s N len axes C -> 0 < N -> 0 < len -> nested len ns -> tau <> 0%R ->
  populate_covariance_matrix (model_variance (counts N len ns) (map (fun n => INR n * tau)%R ns) (2 * trace_square axes C / (tau * tau))%R) (counts N len ns) = Ok mat ->
  square w (length ns) -> symmetric w -> positive_definite w -> inverse_of w mat -> some_time (map (fun n => INR n * tau)%R ns) ->
  (forall e, In e es -> (0 < g e)%R
     /\ most_likely (log_likelihood (map (fun n => INR n * tau)%R ns) (map (fun n => spaced_msd axes N len n (s e)) ns) ld w) [g e]) ->
  mean_over es wt g = (trace_of axes C / tau)%R
  /\ exists A,
    (forall e, In e es -> exists k, forall a, (0 <= g e + a)%R ->
       log_likelihood (map (fun n => INR n * tau)%R ns) (map (fun n => spaced_msd axes N len n (s e)) ns) ld w [g e + a]%R = Ok (Some (k - 1/2 * (a * a * A)))%R)
    /\ (A * mean_over es wt (fun e => (g e - trace_of axes C / tau) * (g e - trace_of axes C / tau)) = 1)%R.
Proof. exact @C90_fit_proof. Qed.
Print Assumptions C90_fit_is_calibrated.
(** For the windows kinisi really uses, which overlap, the claim fails: two atoms walking three steps,
    every interval up to four frames, the true variances of the reported values put into the matrix. *)
Theorem C90_overlapping_windows_refuted : forall G Seed RS (X : Ext R G Seed RS) (g : G), exists p b n_o mat, (forall e, In e walkers ->
    parser_init geomspace_R (table 2 4 (stroll e)) [0; 1]%Z [] 1%R 1%Z (whole_span 4 "multi-origin") = Ok (p e) /\ p_n_o (p e) = n_o
    /\ msd_bootstrap X (demo_boot 1 "xyz") (p_delta_t (p e)) (p_disp_3d (p e)) (p_n_o (p e)) g = Ok (b e, g) /\ 4 <= length (b_n (b e)))
  /\ populate_covariance_matrix (tab 4 (fun i => spread_over walkers fair (fun e => vec_entry (b_n (b e)) i))) n_o = Ok mat
  /\ exists i j, i < 4 /\ j < 4 /\ matrix_entry mat i j <> covary walkers fair (fun e => vec_entry (b_n (b e)) i) (fun e => vec_entry (b_n (b e)) j).
Proof. intros G Seed RS. exact C90_overlap_proof. Qed.
Print Assumptions C90_overlapping_windows_refuted.

(** One atom, two steps of length 1, 2 or 4 with probabilities that give the fourth moment of a normal
    distribution: the fitted slope is 2 on average with the variance 4. *)
Example C90_example : rsum (map hops_chance hops) = 1%R /\ independent_steps hops hops_chance hop /\ unbiased_steps hops hops_chance hop 1 2
  /\ second_moments hops hops_chance hop 1 2 hop_moments /\ normal_fourth hops hops_chance hop 1 2 all_axes hop_moments /\ nested 2 [1; 2]
  /\ populate_covariance_matrix (model_variance (counts 1 2 [1; 2]) (map (fun n => INR n * 1)%R [1; 2]) (2 * trace_square all_axes hop_moments / (1 * 1))%R) (counts 1 2 [1; 2])
     = Ok [[4; 8]; [8; 32]]%R
  /\ trace_of all_axes hop_moments = 2%R
  /\ square hop_weights 2 /\ symmetric hop_weights /\ positive_definite hop_weights /\ inverse_of hop_weights [[4; 8]; [8; 32]]%R
  /\ (forall e, In e hops -> (0 < hop_slope e)%R
       /\ most_likely (log_likelihood (map (fun n => INR n * 1)%R [1; 2]) (map (fun n => spaced_msd all_axes 1 2 n (hop e)) [1; 2]) 0%R hop_weights) [hop_slope e])
  /\ mean_over hops hops_chance (fun e => (hop_slope e - 2) * (hop_slope e - 2))%R = 4%R.
Proof. exact C90_example_proof. Qed.
