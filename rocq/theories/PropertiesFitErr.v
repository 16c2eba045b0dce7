(** * PropertiesFitErr: how far a fitted line is from the true one (C100) *)
From Verif Require Import Base Spec SpecParser SpecStats SpecRun SpecFit SpecGls SpecTrue SpecPool SpecColl SpecMarkov SpecCalib SpecIdeal SpecLong SpecFitErr ModelParser ModelDiffusion ModelHdf ModelAnalyzer
  ProofsFit2 ProofsStats ProofsTrue ProofsTraj ProofsLong2 ProofsFitErr ProofsFitErr2 ProofsFitErr3.
From Coq Require Import Reals.
Open Scope nat_scope.

(** ** C100
    [dt], [y] are the fitted times and displacements, [w] the weights (the inverse of the covariance
    matrix) whose condition number is at most [k], and [g], [c] the most likely slope and intercept
    under the log likelihood that bootstrap_GLS maximises and samples, slopes below 0 being excluded.
    Whatever the data and whichever line one calls the true one: the fitted line is off by no more
    than sqrt k times the errors of the data, even if the best slope is not positive. *)
Theorem C100_line : forall dt y (ld : R) w (k g c g0 c0 : R), length dt = length y -> sound_weights w (length dt) k ->
  most_likely (log_likelihood dt y ld w) [g; c] -> (0 <= g0)%R -> (between_lines dt g c g0 c0 <= k * misfit dt y g0 c0)%R.
Proof. exact C100_line_proof. Qed.
Print Assumptions C100_line.
Theorem C100_line_origin : forall dt y (ld : R) w (k g g0 : R), length dt = length y -> sound_weights w (length dt) k ->
  most_likely (log_likelihood dt y ld w) [g] -> (0 <= g0)%R -> (between_lines dt g 0 g0 0 <= k * misfit dt y g0 0)%R.
Proof. exact C100_line1_proof. Qed.
Print Assumptions C100_line_origin.
(** In particular the slope, the better the further the times are spread. *)
Theorem C100_slope : forall dt y (ld : R) w (k g c g0 c0 : R), length dt = length y -> sound_weights w (length dt) k ->
  most_likely (log_likelihood dt y ld w) [g; c] -> (0 <= g0)%R -> ((g - g0) * (g - g0) * variation dt <= k * misfit dt y g0 c0)%R.
Proof. exact C100_slope_proof. Qed.
Print Assumptions C100_slope.
Theorem C100_slope_origin : forall dt y (ld : R) w (k g g0 : R), length dt = length y -> sound_weights w (length dt) k ->
  most_likely (log_likelihood dt y ld w) [g] -> (0 <= g0)%R -> ((g - g0) * (g - g0) * variation_origin dt <= k * misfit dt y g0 0)%R.
Proof. exact C100_slope1_proof. Qed.
Print Assumptions C100_slope_origin.
(** The weights inherit the condition number of the covariance matrix (limited by cond_max). *)
Theorem C100_weights : forall w S n (k : R), square w n -> symmetric w -> sound_weights S n k -> inverse_of w S -> sound_weights w n k.
Proof. exact C100_weights_proof. Qed.
Print Assumptions C100_weights.
(** Over many runs, each with its own weights: mean square errors of the data limit the one of the slope. *)
Theorem C100_runs : forall E (es : list E) (wt : E -> R) dt (y : E -> list R) (ld : E -> R) w k (g c : E -> R) g0 c0 (q : nat -> R), probabilities es wt ->
  (forall e, In e es -> length dt = length (y e) /\ sound_weights (w e) (length dt) k /\ most_likely (log_likelihood dt (y e) (ld e) (w e)) [g e; c e]) ->
  (0 <= g0)%R -> (0 < variation dt)%R ->
  (forall i, i < length dt -> within_square es wt (fun e => vec_entry (y e) i) (g0 * vec_entry dt i + c0)%R (q i)) ->
  within_square es wt g g0 (k * sumto (length dt) q / variation dt).
Proof. exact @C100_runs_proof. Qed.
Print Assumptions C100_runs.
Theorem C100_runs_origin : forall E (es : list E) (wt : E -> R) dt (y : E -> list R) (ld : E -> R) w k (g : E -> R) g0 (q : nat -> R), probabilities es wt ->
  (forall e, In e es -> length dt = length (y e) /\ sound_weights (w e) (length dt) k /\ most_likely (log_likelihood dt (y e) (ld e) (w e)) [g e]) ->
  (0 <= g0)%R -> (0 < variation_origin dt)%R ->
  (forall i, i < length dt -> within_square es wt (fun e => vec_entry (y e) i) (g0 * vec_entry dt i + 0)%R (q i)) ->
  within_square es wt g g0 (k * sumto (length dt) q / variation_origin dt).
Proof. exact @C100_runs1_proof. Qed.
Print Assumptions C100_runs_origin.
(** From the simulations to the slopes. [es] are the possible runs with the probabilities [wt], [ms]
    the fitted intervals in used frames; the line is fitted from the [r]-th reported displacement on,
    and there the true displacements [M] lie on a line of slope [g0]. *)
Theorem C100_msd : forall G Seed RS (X : Ext R G Seed RS) E (es : list E) (wt : E -> R) x (p : E -> Parsed R) (an : E -> Analyzer R) dt (y : E -> list R) (ld : E -> R) w (slope icept : E -> R) (kappa g0 c0 : R)
    i circ cell types vol n natoms k a u axes r ms m gap (M : nat -> R) (s2 : R),
  probabilities es wt -> (forall e, In e es -> faithful_read i circ cell types vol n natoms k (x e) a (p e)) ->
  (0 < u_sub_sample_dt u)%Z -> u_block u = false -> names (pystr_text (u_dimension u)) axes ->
  (forall e, In e es -> exists g g', diffusion_analyzer X (of_parsed (p e)) u g = Ok (an e, g')) ->
  (forall e, In e es -> skipn r (b_dt (an_diff (an e))) = dt /\ skipn r (b_n (an_diff (an e))) = y e
     /\ forall j, j < length dt -> nth_error (p_intervals (p e)) ((r + j) * Z.to_nat (u_sub_sample_dt u)) = Some (Z.of_nat (nth j ms 0))) ->
  (forall e, In e es -> length dt = length (y e) /\ sound_weights (w e) (length dt) kappa /\ most_likely (log_likelihood dt (y e) (ld e) (w e)) [slope e; icept e]) ->
  (forall l, In l ms -> l <= m) ->
  steady_windows es wt (fun e => square_between axes natoms k (fun f b => cart cell (x e f b)) (p_indices (p e)) (p_drift_indices (p e))) (kept n k) m gap M s2 ->
  (0 <= g0)%R -> (0 < variation dt)%R -> straight M ms dt g0 c0 ->
  within_square es wt slope g0 (kappa * allowances (kept n k) ms gap M s2 / variation dt).
Proof. exact @C100_msd_proof. Qed.
Print Assumptions C100_msd.
Theorem C100_mstd : forall G Seed RS (X : Ext R G Seed RS) E (es : list E) (wt : E -> R) x (p : E -> Parsed R) (an : E -> Analyzer R) dt (y : E -> list R) (ld : E -> R) w (slope icept : E -> R) (kappa g0 c0 : R)
    i circ cell types vol n natoms k a u axes r ms m gap (M : nat -> R) (s2 : R),
  probabilities es wt -> (forall e, In e es -> faithful_read i circ cell types vol n natoms k (x e) a (p e)) ->
  (0 < u_sub_sample_dt u)%Z -> u_block u = false -> names (pystr_text (u_dimension u)) axes ->
  (forall e, In e es -> exists g g', jump_diffusion_analyzer X (of_parsed (p e)) u g = Ok (an e, g')) ->
  (forall e, In e es -> skipn r (b_dt (an_diff (an e))) = dt /\ skipn r (b_n (an_diff (an e))) = y e
     /\ forall j, j < length dt -> nth_error (p_intervals (p e)) ((r + j) * Z.to_nat (u_sub_sample_dt u)) = Some (Z.of_nat (nth j ms 0))) ->
  (forall e, In e es -> length dt = length (y e) /\ sound_weights (w e) (length dt) kappa /\ most_likely (log_likelihood dt (y e) (ld e) (w e)) [slope e; icept e]) ->
  (forall l, In l ms -> l <= m) ->
  steady_windows es wt (fun e => total_between axes natoms k (fun f b => cart cell (x e f b)) (p_indices (p e)) (p_drift_indices (p e))) (kept n k) m gap M s2 ->
  (0 <= g0)%R -> (0 < variation dt)%R -> straight M ms dt g0 c0 ->
  within_square es wt slope g0 (kappa * allowances (kept n k) ms gap M s2 / variation dt).
Proof. exact @C100_mstd_proof. Qed.
Print Assumptions C100_mstd.
Theorem C100_mscd : forall G Seed RS (X : Ext R G Seed RS) E (es : list E) (wt : E -> R) x (p : E -> Parsed R) (an : E -> Analyzer R) dt (y : E -> list R) (ld : E -> R) w (slope icept : E -> R) (kappa g0 c0 : R)
    i circ cell types vol n natoms k a q u r ms m gap (M : nat -> R) (s2 : R),
  probabilities es wt -> (forall e, In e es -> faithful_read i circ cell types vol n natoms k (x e) a (p e)) ->
  (0 < u_sub_sample_dt u)%Z -> u_block u = false -> (forall e l, In e es -> q = QArray l -> length l = length (p_indices (p e))) ->
  (forall e, In e es -> exists g g', conductivity_analyzer X (of_parsed (p e)) q u g = Ok (an e, g')) ->
  (forall e, In e es -> skipn r (b_dt (an_diff (an e))) = dt /\ skipn r (b_n (an_diff (an e))) = y e
     /\ forall j, j < length dt -> nth_error (p_intervals (p e)) ((r + j) * Z.to_nat (u_sub_sample_dt u)) = Some (Z.of_nat (nth j ms 0))) ->
  (forall e, In e es -> length dt = length (y e) /\ sound_weights (w e) (length dt) kappa /\ most_likely (log_likelihood dt (y e) (ld e) (w e)) [slope e; icept e]) ->
  (forall l, In l ms -> l <= m) ->
  steady_windows es wt (fun e => charge_between (charges q (length (p_indices (p e)))) natoms k (fun f b => cart cell (x e f b)) (p_indices (p e)) (p_drift_indices (p e))) (kept n k) m gap M s2 ->
  (0 <= g0)%R -> (0 < variation dt)%R -> straight M ms dt g0 c0 ->
  within_square es wt slope g0 (kappa * allowances (kept n k) ms gap M s2 / variation dt).
Proof. exact @C100_mscd_proof. Qed.
Print Assumptions C100_mscd.
(** So for every accuracy [d] and every risk [eps] there is a length of the simulation from which on a
    slope that is off by more than [d] is rarer than [eps]. *)
Theorem C100_msd_long_enough : forall ms gap (s2 B kappa V d eps : R), (0 <= s2)%R -> (0 <= kappa)%R -> (0 < V)%R -> (0 < d)%R -> (0 < eps)%R -> exists T0, forall G Seed RS (X : Ext R G Seed RS) E (es : list E) (wt : E -> R) x (p : E -> Parsed R) (an : E -> Analyzer R) dt (y : E -> list R) (ld : E -> R) w (slope icept : E -> R) (g0 c0 : R)
    i circ cell types vol n natoms k a u axes r m (M : nat -> R),
  probabilities es wt -> (forall e, In e es -> faithful_read i circ cell types vol n natoms k (x e) a (p e)) ->
  (0 < u_sub_sample_dt u)%Z -> u_block u = false -> names (pystr_text (u_dimension u)) axes ->
  (forall e, In e es -> exists g g', diffusion_analyzer X (of_parsed (p e)) u g = Ok (an e, g')) ->
  (forall e, In e es -> skipn r (b_dt (an_diff (an e))) = dt /\ skipn r (b_n (an_diff (an e))) = y e
     /\ forall j, j < length dt -> nth_error (p_intervals (p e)) ((r + j) * Z.to_nat (u_sub_sample_dt u)) = Some (Z.of_nat (nth j ms 0))) ->
  (forall e, In e es -> length dt = length (y e) /\ sound_weights (w e) (length dt) kappa /\ most_likely (log_likelihood dt (y e) (ld e) (w e)) [slope e; icept e]) ->
  (forall l, In l ms -> l <= m) ->
  steady_windows es wt (fun e => square_between axes natoms k (fun f b => cart cell (x e f b)) (p_indices (p e)) (p_drift_indices (p e))) (kept n k) m gap M s2 ->
  (0 <= g0)%R -> (V <= variation dt)%R -> straight M ms dt g0 c0 -> (forall l, In l ms -> (Rabs (M l - M (l - 1)%nat) <= B)%R) -> T0 <= kept n k ->
  (chance_beyond es wt slope g0 d <= eps)%R.
Proof. exact @C100_msd_long_proof. Qed.
Print Assumptions C100_msd_long_enough.
Theorem C100_mstd_long_enough : forall ms gap (s2 B kappa V d eps : R), (0 <= s2)%R -> (0 <= kappa)%R -> (0 < V)%R -> (0 < d)%R -> (0 < eps)%R -> exists T0, forall G Seed RS (X : Ext R G Seed RS) E (es : list E) (wt : E -> R) x (p : E -> Parsed R) (an : E -> Analyzer R) dt (y : E -> list R) (ld : E -> R) w (slope icept : E -> R) (g0 c0 : R)
    i circ cell types vol n natoms k a u axes r m (M : nat -> R),
  probabilities es wt -> (forall e, In e es -> faithful_read i circ cell types vol n natoms k (x e) a (p e)) ->
  (0 < u_sub_sample_dt u)%Z -> u_block u = false -> names (pystr_text (u_dimension u)) axes ->
  (forall e, In e es -> exists g g', jump_diffusion_analyzer X (of_parsed (p e)) u g = Ok (an e, g')) ->
  (forall e, In e es -> skipn r (b_dt (an_diff (an e))) = dt /\ skipn r (b_n (an_diff (an e))) = y e
     /\ forall j, j < length dt -> nth_error (p_intervals (p e)) ((r + j) * Z.to_nat (u_sub_sample_dt u)) = Some (Z.of_nat (nth j ms 0))) ->
  (forall e, In e es -> length dt = length (y e) /\ sound_weights (w e) (length dt) kappa /\ most_likely (log_likelihood dt (y e) (ld e) (w e)) [slope e; icept e]) ->
  (forall l, In l ms -> l <= m) ->
  steady_windows es wt (fun e => total_between axes natoms k (fun f b => cart cell (x e f b)) (p_indices (p e)) (p_drift_indices (p e))) (kept n k) m gap M s2 ->
  (0 <= g0)%R -> (V <= variation dt)%R -> straight M ms dt g0 c0 -> (forall l, In l ms -> (Rabs (M l - M (l - 1)%nat) <= B)%R) -> T0 <= kept n k ->
  (chance_beyond es wt slope g0 d <= eps)%R.
Proof. exact @C100_mstd_long_proof. Qed.
Print Assumptions C100_mstd_long_enough.
Theorem C100_mscd_long_enough : forall ms gap (s2 B kappa V d eps : R), (0 <= s2)%R -> (0 <= kappa)%R -> (0 < V)%R -> (0 < d)%R -> (0 < eps)%R -> exists T0, forall G Seed RS (X : Ext R G Seed RS) E (es : list E) (wt : E -> R) x (p : E -> Parsed R) (an : E -> Analyzer R) dt (y : E -> list R) (ld : E -> R) w (slope icept : E -> R) (g0 c0 : R)
    i circ cell types vol n natoms k a q u r m (M : nat -> R),
  probabilities es wt -> (forall e, In e es -> faithful_read i circ cell types vol n natoms k (x e) a (p e)) ->
  (0 < u_sub_sample_dt u)%Z -> u_block u = false -> (forall e l, In e es -> q = QArray l -> length l = length (p_indices (p e))) ->
  (forall e, In e es -> exists g g', conductivity_analyzer X (of_parsed (p e)) q u g = Ok (an e, g')) ->
  (forall e, In e es -> skipn r (b_dt (an_diff (an e))) = dt /\ skipn r (b_n (an_diff (an e))) = y e
     /\ forall j, j < length dt -> nth_error (p_intervals (p e)) ((r + j) * Z.to_nat (u_sub_sample_dt u)) = Some (Z.of_nat (nth j ms 0))) ->
  (forall e, In e es -> length dt = length (y e) /\ sound_weights (w e) (length dt) kappa /\ most_likely (log_likelihood dt (y e) (ld e) (w e)) [slope e; icept e]) ->
  (forall l, In l ms -> l <= m) ->
  steady_windows es wt (fun e => charge_between (charges q (length (p_indices (p e)))) natoms k (fun f b => cart cell (x e f b)) (p_indices (p e)) (p_drift_indices (p e))) (kept n k) m gap M s2 ->
  (0 <= g0)%R -> (V <= variation dt)%R -> straight M ms dt g0 c0 -> (forall l, In l ms -> (Rabs (M l - M (l - 1)%nat) <= B)%R) -> T0 <= kept n k ->
  (chance_beyond es wt slope g0 d <= eps)%R.
Proof. exact @C100_mscd_long_proof. Qed.
Print Assumptions C100_mscd_long_enough.
(** Atoms making independent unbiased steps with second moments [C], a frame lasting [tau]: the slope
    tends to trace C / tau, which is 2 d times the diffusion coefficient. *)
Theorem C100_random_walk : forall G Seed RS (X : Ext R G Seed RS) E (es : list E) (wt : E -> R) x (p : E -> Parsed R) (an : E -> Analyzer R) dt (y : E -> list R) (ld : E -> R) w (slope icept : E -> R) (kappa : R)
    i circ cell types vol n natoms k a u axes r ms tau N s C (q : R),
  probabilities es wt -> (forall e, In e es -> faithful_read i circ cell types vol n natoms k (x e) a (p e)) ->
  (0 < u_sub_sample_dt u)%Z -> u_block u = false -> names (pystr_text (u_dimension u)) axes ->
  (forall e, In e es -> exists g g', diffusion_analyzer X (of_parsed (p e)) u g = Ok (an e, g')) ->
  (forall e, In e es -> skipn r (b_dt (an_diff (an e))) = dt /\ skipn r (b_n (an_diff (an e))) = y e
     /\ forall j, j < length dt -> nth_error (p_intervals (p e)) ((r + j) * Z.to_nat (u_sub_sample_dt u)) = Some (Z.of_nat (nth j ms 0))) ->
  (forall e, In e es -> length dt = length (y e) /\ sound_weights (w e) (length dt) kappa /\ most_likely (log_likelihood dt (y e) (ld e) (w e)) [slope e; icept e]) ->
  (forall l, In l ms -> 0 < l) -> length ms = length dt -> (0 < tau)%R -> (forall j, j < length dt -> vec_entry dt j = (tau * INR (nth j ms 0%nat))%R) ->
  0 < N -> 1 < kept n k -> (forall e, In e es -> length (p_indices (p e)) = N) ->
  (forall e c f l, In e es -> c < N -> f + l < kept n k ->
     move_of natoms k (fun f b => cart cell (x e f b)) (p_indices (p e)) (p_drift_indices (p e)) c f (f + l) = net (s e) c f l) ->
  independent_steps es wt s -> unbiased_steps es wt s N (kept n k - 1) -> second_moments es wt s N (kept n k - 1) C -> fourth_below es wt s N (kept n k - 1) axes q ->
  (0 < variation dt)%R ->
  within_square es wt slope (trace_of axes C / tau)%R
    (kappa * sumto (length dt) (fun j => walk_spread axes C q (nth j ms 0%nat) * (2 * INR (nth j ms 0%nat) - 1) / (INR N * INR (kept n k - nth j ms 0%nat + 1))
      + trace_of axes C / INR (kept n k - nth j ms 0%nat + 1) * (trace_of axes C / INR (kept n k - nth j ms 0%nat + 1))) / variation dt)%R.
Proof. exact @C100_walk_proof. Qed.
Print Assumptions C100_random_walk.
(** A Li atom with three coin-tossed steps, the line fitted to both reported displacements with unit
    weights; for two of the eight runs the best slope is the smallest allowed, 0. *)
Example C100_example : forall G Seed RS (X : Ext R G Seed RS) circ (g : G), exists p an y slope icept,
  probabilities tosses eighth
  /\ (forall e, In e tosses -> faithful_read Ase circ unit_cell ["Li"; "O"]%string 1%R 4 2 1 (walk (random_walk e)) walk_params (p e))
  /\ (forall e, In e tosses -> diffusion_analyzer X (of_parsed (p e)) (demo_boot 1 "xyz") g = Ok (an e, g))
  /\ (forall e, In e tosses -> skipn 0 (b_dt (an_diff (an e))) = [1;2]%R /\ skipn 0 (b_n (an_diff (an e))) = y e
       /\ forall j, j < 2 -> nth_error (p_intervals (p e)) ((0 + j) * 1) = Some (Z.of_nat (nth j [1;2] 0)))
  /\ (forall e, In e tosses -> 2 = length (y e) /\ sound_weights unit2 2 1 /\ most_likely (log_likelihood [1;2]%R (y e) 0%R unit2) [slope e; icept e])
  /\ variation [1;2]%R = (1 / 2)%R /\ (0 < variation [1;2])%R
  /\ within_square tosses eighth slope (1 / 100)%R (2 * (1 / 160000 + (4 / 10000 + 1 / 90000)))%R
  /\ mean_over tosses eighth (fun e => (slope e - 1 / 100) * (slope e - 1 / 100))%R = (1 / 40000 + 1 / 2880000 + 1 / 25600)%R.
Proof. exact C100_example_proof. Qed.
