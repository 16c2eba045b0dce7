(** * PropertiesResample: C91, bootstrap results on average over the random numbers

    [gs] are the initial states of the random generator and [wt] their probabilities; [B g] is the
    object obtained from the state [g]. [fixed_resamples u]: the bootstrap is asked for and
    max_resamples does not exceed n_resamples, so that no further resamples are drawn. [sizes] lists
    the number of observations of each interval and how many of them are drawn. *)
From Verif Require Import Base Spec SpecStats SpecFit SpecMarkov SpecResample ModelParser ModelDiffusion ModelHdf ProofsResample.
From Coq Require Import Reals Lra Lia.
Open Scope nat_scope.

Theorem C91_msd_bootstrap_agrees : forall G Seed RS (X : Ext R G Seed RS) (gs : list G) wt u dts disps n_o (B : G -> Boot R) used sizes i K m no,
  rsum (map wt gs) = 1%R -> fixed_resamples u ->
  (forall g, In g gs -> exists g', msd_bootstrap X u dts disps n_o g = Ok (B g, g')) ->
  sub_sample (Z.to_nat (u_sub_sample_dt u)) disps used ->
  Forall2 (fun d km => length (entries d) = fst km /\ 1 < fst km) used sizes ->
  (forall k no km, nth_error n_o k = Some no -> nth_error sizes k = Some km -> whole_part no (snd km)) ->
  fair_draws gs wt X (run_requests (Z.to_nat (u_n_resamples u)) sizes) ->
  nth_error sizes i = Some (K, m) -> nth_error n_o i = Some no -> 0 < m ->
  agrees_on_average gs wt B (Z.to_nat (u_n_resamples u)) i K m no.
Proof. exact @C91_msd_proof. Qed.
Print Assumptions C91_msd_bootstrap_agrees.
(** The total mean-squared displacement: only the first half of the intervals, n_o per atom. *)
Theorem C91_mstd_bootstrap_agrees : forall G Seed RS (X : Ext R G Seed RS) (gs : list G) wt u dts disps n_o (B : G -> Boot R) used sizes natoms i K m no,
  rsum (map wt gs) = 1%R -> fixed_resamples u -> Forall arr_wf disps -> Forall (fun d => length (a_rows d) = natoms) disps ->
  (forall g, In g gs -> exists g', mstd_bootstrap X u dts disps n_o g = Ok (B g, g')) ->
  sub_sample (Z.to_nat (u_sub_sample_dt u)) disps used ->
  Forall2 (fun d km => a_obs d = fst km /\ 1 < fst km) (firstn (Nat.div (length used) 2) used) sizes ->
  (forall k no km, nth_error n_o k = Some no -> nth_error sizes k = Some km -> whole_part (no / INR natoms) (snd km)) ->
  fair_draws gs wt X (run_requests (Z.to_nat (u_n_resamples u)) sizes) ->
  nth_error sizes i = Some (K, m) -> nth_error n_o i = Some no -> 0 < m ->
  agrees_on_average gs wt B (Z.to_nat (u_n_resamples u)) i K m (no / INR natoms).
Proof. exact @C91_mstd_proof. Qed.
Print Assumptions C91_mstd_bootstrap_agrees.
Theorem C91_mscd_bootstrap_agrees : forall G Seed RS (X : Ext R G Seed RS) (gs : list G) wt u dts disps q n_o (B : G -> Boot R) used sizes natoms i K m no,
  rsum (map wt gs) = 1%R -> fixed_resamples u -> Forall arr_wf disps -> Forall (fun d => length (a_rows d) = natoms) disps ->
  (forall l, q = QArray l -> length l = natoms) ->
  (forall g, In g gs -> exists g', mscd_bootstrap X u dts disps q n_o g = Ok (B g, g')) ->
  sub_sample (Z.to_nat (u_sub_sample_dt u)) disps used ->
  Forall2 (fun d km => a_obs d = fst km /\ 1 < fst km) (firstn (Nat.div (length used) 2) used) sizes ->
  (forall k no km, nth_error n_o k = Some no -> nth_error sizes k = Some km -> whole_part (no / INR natoms) (snd km)) ->
  fair_draws gs wt X (run_requests (Z.to_nat (u_n_resamples u)) sizes) ->
  nth_error sizes i = Some (K, m) -> nth_error n_o i = Some no -> 0 < m ->
  agrees_on_average gs wt B (Z.to_nat (u_n_resamples u)) i K m (no / INR natoms).
Proof. exact @C91_mscd_proof. Qed.
Print Assumptions C91_mscd_bootstrap_agrees.
(** The two variances are not the same on average: here the reported one is 64/5, the bootstrap's 8. *)
Theorem C91_equal_variances_refuted : forall X, exists u dts disps n_o (B : nat -> Boot R) gs wt v,
  rsum (map wt gs) = 1%R /\ fixed_resamples u /\ fair_draws gs wt (coins X) (run_requests (Z.to_nat (u_n_resamples u)) [(2, 2)])
  /\ (forall g, In g gs -> exists g', msd_bootstrap (coins X) u dts disps n_o g = Ok (B g, g') /\ nth_error (b_v (B g)) 0 = Some v)
  /\ mean_over gs wt (fun g => nth 0 (b_v_bootstrap (B g)) 0%R) <> v.
Proof. exact C91_refuted_proof. Qed.
Print Assumptions C91_equal_variances_refuted.
(** Two observations (1 and 9) of which two are drawn for each of two resamples: four draws, all 16 outcomes. *)
Example C91_example : forall X, fixed_resamples two_resamples /\ fair_draws rows_of_coins even_odds (coins X) (run_requests 2 [(2, 2)])
  /\ exists B, (forall g, In g rows_of_coins -> exists g', msd_bootstrap (coins X) two_resamples [1%R] two_hops [(5 / 2)%R] g = Ok (B g, g')
                  /\ b_n (B g) = [5%R] /\ b_v (B g) = [(64 / 5)%R])
     /\ mean_over rows_of_coins even_odds (fun g => nth 0 (b_n_bootstrap (B g)) 0%R) = 5%R
     /\ mean_over rows_of_coins even_odds (fun g => nth 0 (b_v_bootstrap (B g)) 0%R) = 8%R.
Proof. exact C91_example_proof. Qed.
