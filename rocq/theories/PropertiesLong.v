(** * PropertiesLong: longer simulations and more atoms give better displacements (C99) *)
From Verif Require Import Base Spec SpecParser SpecStats SpecRun SpecTrue SpecPool SpecColl SpecMarkov SpecCalib SpecIdeal SpecLong ModelParser ModelDiffusion ModelHdf ModelAnalyzer
  ProofsFit2 ProofsStats ProofsTrue ProofsTraj ProofsLong ProofsLong2.
From Coq Require Import Reals.
Open Scope nat_scope.

(** ** C99
    [es] are the possible runs with the probabilities [wt]; [v e] is the value that run [e] reports for
    the interval of [m] used frames; [M m] is the average squared displacement over [m] frames. If
    windows lying [gap] frames apart are uncorrelated, the mean square error is at most
    s2 (2 (m + gap) - 1)/(T - m + 1) for the statistics and ((M m - M (m-1))/(T - m + 1))^2 for the
    additional shorter window (C81), and large errors are unlikely. *)
Theorem C99_msd : forall G Seed RS (X : Ext R G Seed RS) E (es : list E) (wt : E -> R) x (p : E -> Parsed R) (an : E -> Analyzer R) (v : E -> R)
    i circ cell types vol n natoms k a u axes j m gap (M : nat -> R) (s2 : R),
  probabilities es wt -> (forall e, In e es -> faithful_read i circ cell types vol n natoms k (x e) a (p e)) ->
  (0 < u_sub_sample_dt u)%Z -> u_block u = false -> names (pystr_text (u_dimension u)) axes ->
  (forall e, In e es -> exists g g' t, diffusion_analyzer X (of_parsed (p e)) u g = Ok (an e, g')
     /\ nth_error (b_dt (an_diff (an e))) j = Some t /\ nth_error (b_n (an_diff (an e))) j = Some (v e)
     /\ nth_error (p_intervals (p e)) (j * Z.to_nat (u_sub_sample_dt u)) = Some (Z.of_nat m)) ->
  steady_windows es wt (fun e => square_between axes natoms k (fun f b => cart cell (x e f b)) (p_indices (p e)) (p_drift_indices (p e))) (kept n k) m gap M s2 ->
  within_square es wt v (M m) (allowance (kept n k) m gap M s2).
Proof. exact @C99_msd_proof. Qed.
Print Assumptions C99_msd.
(** The total displacement and the charge displacement. *)
Theorem C99_mstd : forall G Seed RS (X : Ext R G Seed RS) E (es : list E) (wt : E -> R) x (p : E -> Parsed R) (an : E -> Analyzer R) (v : E -> R)
    i circ cell types vol n natoms k a u axes j m gap (M : nat -> R) (s2 : R),
  probabilities es wt -> (forall e, In e es -> faithful_read i circ cell types vol n natoms k (x e) a (p e)) ->
  (0 < u_sub_sample_dt u)%Z -> u_block u = false -> names (pystr_text (u_dimension u)) axes ->
  (forall e, In e es -> exists g g' t, jump_diffusion_analyzer X (of_parsed (p e)) u g = Ok (an e, g')
     /\ nth_error (b_dt (an_diff (an e))) j = Some t /\ nth_error (b_n (an_diff (an e))) j = Some (v e)
     /\ nth_error (p_intervals (p e)) (j * Z.to_nat (u_sub_sample_dt u)) = Some (Z.of_nat m)) ->
  steady_windows es wt (fun e => total_between axes natoms k (fun f b => cart cell (x e f b)) (p_indices (p e)) (p_drift_indices (p e))) (kept n k) m gap M s2 ->
  within_square es wt v (M m) (allowance (kept n k) m gap M s2).
Proof. exact @C99_mstd_proof. Qed.
Print Assumptions C99_mstd.
Theorem C99_mscd : forall G Seed RS (X : Ext R G Seed RS) E (es : list E) (wt : E -> R) x (p : E -> Parsed R) (an : E -> Analyzer R) (v : E -> R)
    i circ cell types vol n natoms k a q u j m gap (M : nat -> R) (s2 : R),
  probabilities es wt -> (forall e, In e es -> faithful_read i circ cell types vol n natoms k (x e) a (p e)) ->
  (0 < u_sub_sample_dt u)%Z -> u_block u = false -> (forall e l, In e es -> q = QArray l -> length l = length (p_indices (p e))) ->
  (forall e, In e es -> exists g g' t, conductivity_analyzer X (of_parsed (p e)) q u g = Ok (an e, g')
     /\ nth_error (b_dt (an_diff (an e))) j = Some t /\ nth_error (b_n (an_diff (an e))) j = Some (v e)
     /\ nth_error (p_intervals (p e)) (j * Z.to_nat (u_sub_sample_dt u)) = Some (Z.of_nat m)) ->
  steady_windows es wt (fun e => charge_between (charges q (length (p_indices (p e)))) natoms k (fun f b => cart cell (x e f b)) (p_indices (p e)) (p_drift_indices (p e))) (kept n k) m gap M s2 ->
  within_square es wt v (M m) (allowance (kept n k) m gap M s2).
Proof. exact @C99_mscd_proof. Qed.
Print Assumptions C99_mscd.
(** So for every accuracy [d] and every risk [eps] there is a length of the simulation, depending on
    [m], [gap], [s2] and the growth [B] only, from which on larger errors are rarer than [eps]. *)
Theorem C99_msd_long_enough : forall m gap (s2 B d eps : R), (0 <= s2)%R -> (0 < d)%R -> (0 < eps)%R -> exists T0, forall G Seed RS (X : Ext R G Seed RS) E (es : list E) (wt : E -> R) x (p : E -> Parsed R) (an : E -> Analyzer R) (v : E -> R)
    i circ cell types vol n natoms k a u axes j (M : nat -> R),
  probabilities es wt -> (forall e, In e es -> faithful_read i circ cell types vol n natoms k (x e) a (p e)) ->
  (0 < u_sub_sample_dt u)%Z -> u_block u = false -> names (pystr_text (u_dimension u)) axes ->
  (forall e, In e es -> exists g g' t, diffusion_analyzer X (of_parsed (p e)) u g = Ok (an e, g')
     /\ nth_error (b_dt (an_diff (an e))) j = Some t /\ nth_error (b_n (an_diff (an e))) j = Some (v e)
     /\ nth_error (p_intervals (p e)) (j * Z.to_nat (u_sub_sample_dt u)) = Some (Z.of_nat m)) ->
  steady_windows es wt (fun e => square_between axes natoms k (fun f b => cart cell (x e f b)) (p_indices (p e)) (p_drift_indices (p e))) (kept n k) m gap M s2 -> (Rabs (M m - M (m - 1)%nat) <= B)%R -> T0 <= kept n k ->
  (chance_beyond es wt v (M m) d <= eps)%R.
Proof. exact @C99_msd_long_proof. Qed.
Print Assumptions C99_msd_long_enough.
Theorem C99_mstd_long_enough : forall m gap (s2 B d eps : R), (0 <= s2)%R -> (0 < d)%R -> (0 < eps)%R -> exists T0, forall G Seed RS (X : Ext R G Seed RS) E (es : list E) (wt : E -> R) x (p : E -> Parsed R) (an : E -> Analyzer R) (v : E -> R)
    i circ cell types vol n natoms k a u axes j (M : nat -> R),
  probabilities es wt -> (forall e, In e es -> faithful_read i circ cell types vol n natoms k (x e) a (p e)) ->
  (0 < u_sub_sample_dt u)%Z -> u_block u = false -> names (pystr_text (u_dimension u)) axes ->
  (forall e, In e es -> exists g g' t, jump_diffusion_analyzer X (of_parsed (p e)) u g = Ok (an e, g')
     /\ nth_error (b_dt (an_diff (an e))) j = Some t /\ nth_error (b_n (an_diff (an e))) j = Some (v e)
     /\ nth_error (p_intervals (p e)) (j * Z.to_nat (u_sub_sample_dt u)) = Some (Z.of_nat m)) ->
  steady_windows es wt (fun e => total_between axes natoms k (fun f b => cart cell (x e f b)) (p_indices (p e)) (p_drift_indices (p e))) (kept n k) m gap M s2 -> (Rabs (M m - M (m - 1)%nat) <= B)%R -> T0 <= kept n k ->
  (chance_beyond es wt v (M m) d <= eps)%R.
Proof. exact @C99_mstd_long_proof. Qed.
Print Assumptions C99_mstd_long_enough.
Theorem C99_mscd_long_enough : forall m gap (s2 B d eps : R), (0 <= s2)%R -> (0 < d)%R -> (0 < eps)%R -> exists T0, forall G Seed RS (X : Ext R G Seed RS) E (es : list E) (wt : E -> R) x (p : E -> Parsed R) (an : E -> Analyzer R) (v : E -> R)
    i circ cell types vol n natoms k a q u j (M : nat -> R),
  probabilities es wt -> (forall e, In e es -> faithful_read i circ cell types vol n natoms k (x e) a (p e)) ->
  (0 < u_sub_sample_dt u)%Z -> u_block u = false -> (forall e l, In e es -> q = QArray l -> length l = length (p_indices (p e))) ->
  (forall e, In e es -> exists g g' t, conductivity_analyzer X (of_parsed (p e)) q u g = Ok (an e, g')
     /\ nth_error (b_dt (an_diff (an e))) j = Some t /\ nth_error (b_n (an_diff (an e))) j = Some (v e)
     /\ nth_error (p_intervals (p e)) (j * Z.to_nat (u_sub_sample_dt u)) = Some (Z.of_nat m)) ->
  steady_windows es wt (fun e => charge_between (charges q (length (p_indices (p e)))) natoms k (fun f b => cart cell (x e f b)) (p_indices (p e)) (p_drift_indices (p e))) (kept n k) m gap M s2 -> (Rabs (M m - M (m - 1)%nat) <= B)%R -> T0 <= kept n k ->
  (chance_beyond es wt v (M m) d <= eps)%R.
Proof. exact @C99_mscd_long_proof. Qed.
Print Assumptions C99_mscd_long_enough.
(** With [N] uncorrelated atoms, [s2] being the variance of the squared displacement of one atom, the
    statistical error of the mean squared displacement is smaller by the factor [N]. *)
Theorem C99_more_atoms : forall G Seed RS (X : Ext R G Seed RS) E (es : list E) (wt : E -> R) x (p : E -> Parsed R) (an : E -> Analyzer R) (v : E -> R)
    i circ cell types vol n natoms k a u axes j m gap N (M : nat -> R) (s2 : R),
  probabilities es wt -> (forall e, In e es -> faithful_read i circ cell types vol n natoms k (x e) a (p e)) ->
  (0 < u_sub_sample_dt u)%Z -> u_block u = false -> names (pystr_text (u_dimension u)) axes ->
  (forall e, In e es -> exists g g' t, diffusion_analyzer X (of_parsed (p e)) u g = Ok (an e, g')
     /\ nth_error (b_dt (an_diff (an e))) j = Some t /\ nth_error (b_n (an_diff (an e))) j = Some (v e)
     /\ nth_error (p_intervals (p e)) (j * Z.to_nat (u_sub_sample_dt u)) = Some (Z.of_nat m)) ->
  0 < N -> (forall e, In e es -> length (p_indices (p e)) = N) ->
  steady_atoms es wt (fun c e => own_square axes natoms k (fun f b => cart cell (x e f b)) (p_indices (p e)) (p_drift_indices (p e)) c) N (kept n k) m gap M s2 ->
  within_square es wt v (M m) (allowance (kept n k) m gap M (s2 / INR N)).
Proof. exact @C99_atoms_proof. Qed.
Print Assumptions C99_more_atoms.
(** In particular for atoms making independent unbiased steps [s] with second moments [C] and mean
    fourth power at most [q]: the reported value tends to m times the trace of C. *)
Theorem C99_random_walk : forall G Seed RS (X : Ext R G Seed RS) E (es : list E) (wt : E -> R) x (p : E -> Parsed R) (an : E -> Analyzer R) (v : E -> R)
    i circ cell types vol n natoms k a u axes j m N s C (q : R),
  probabilities es wt -> (forall e, In e es -> faithful_read i circ cell types vol n natoms k (x e) a (p e)) ->
  (0 < u_sub_sample_dt u)%Z -> u_block u = false -> names (pystr_text (u_dimension u)) axes ->
  (forall e, In e es -> exists g g' t, diffusion_analyzer X (of_parsed (p e)) u g = Ok (an e, g')
     /\ nth_error (b_dt (an_diff (an e))) j = Some t /\ nth_error (b_n (an_diff (an e))) j = Some (v e)
     /\ nth_error (p_intervals (p e)) (j * Z.to_nat (u_sub_sample_dt u)) = Some (Z.of_nat m)) ->
  0 < N -> 1 < kept n k -> 0 < m -> (forall e, In e es -> length (p_indices (p e)) = N) ->
  (forall e c f l, In e es -> c < N -> f + l < kept n k ->
     move_of natoms k (fun f b => cart cell (x e f b)) (p_indices (p e)) (p_drift_indices (p e)) c f (f + l) = net (s e) c f l) ->
  independent_steps es wt s -> unbiased_steps es wt s N (kept n k - 1) -> second_moments es wt s N (kept n k - 1) C -> fourth_below es wt s N (kept n k - 1) axes q ->
  within_square es wt v (INR m * trace_of axes C)%R
    (walk_spread axes C q m * (2 * INR m - 1) / (INR N * INR (kept n k - m + 1)) + trace_of axes C / INR (kept n k - m + 1) * (trace_of axes C / INR (kept n k - m + 1)))%R.
Proof. exact @C99_walk_proof. Qed.
Print Assumptions C99_random_walk.
(** A Li atom with three coin-tossed steps: the bound for two frames is about 4/10000, the true mean
    square error 1/10000. *)
Example C99_example : forall G Seed RS (X : Ext R G Seed RS) circ (g : G), exists p an v,
  probabilities tosses eighth
  /\ (forall e, In e tosses -> faithful_read Ase circ unit_cell ["Li"; "O"]%string 1%R 4 2 1 (walk (random_walk e)) walk_params (p e))
  /\ (forall e, In e tosses -> exists t, diffusion_analyzer X (of_parsed (p e)) (demo_boot 1 "xyz") g = Ok (an e, g)
       /\ nth_error (b_dt (an_diff (an e))) 1 = Some t /\ nth_error (b_n (an_diff (an e))) 1 = Some (v e) /\ nth_error (p_intervals (p e)) 1 = Some 2%Z)
  /\ (forall e, In e tosses -> length (p_indices (p e)) = 1)
  /\ (forall e c f l, In e tosses -> c < 1 -> f + l < 4 ->
       move_of 2 1 (fun f b => cart unit_cell (walk (random_walk e) f b)) (p_indices (p e)) (p_drift_indices (p e)) c f (f + l) = net (coin_step e) c f l)
  /\ independent_steps tosses eighth coin_step /\ unbiased_steps tosses eighth coin_step 1 3
  /\ second_moments tosses eighth coin_step 1 3 coin_moments /\ fourth_below tosses eighth coin_step 1 3 all_axes (1 / 10000)%R
  /\ within_square tosses eighth v (2 * (1 / 100))%R (4 / 10000 * 3 / 3 + 1 / 300 * (1 / 300))%R
  /\ mean_over tosses eighth (fun e => (v e - 2 * (1 / 100)) * (v e - 2 * (1 / 100)))%R = (1 / 10000)%R.
Proof. exact C99_example_proof. Qed.
