(** * ProofsUnits: C75, units and the fit *)
From Verif Require Import Base Spec SpecFit SpecGls SpecSym ModelParser ModelDiffusion Lemmas ProofsCov ProofsFit2 ProofsGls.
From Coq Require Import Reals Lra Lia Psatz.
Open Scope nat_scope.

Lemma residuals_units s t dt n g c : t <> 0%R ->
  residuals (map (Rmult t) dt) (map (Rmult s) n) (s / t * g) (s * c) = map (Rmult s) (residuals dt n g c).
Proof.
  intros Ht. unfold residuals. revert n. induction dt as [|x dt IH]; intros [|y n]; cbn; try reflexivity. rewrite IH. f_equal. field. exact Ht.
Qed.
Lemma weighted_square k w n : square w n -> square (weighted k w) n.
Proof.
  intros [H1 H2]. split; [unfold weighted; now rewrite map_length|]. apply Forall_forall. intros r Hr.
  unfold weighted in Hr. apply in_map_iff in Hr as (r0 & <- & Hr0). rewrite map_length. rewrite Forall_forall in H2. now apply H2.
Qed.
Lemma weighted_symmetric k w n : square w n -> symmetric w -> symmetric (weighted k w).
Proof.
  intros [L Q] S i j Hi Hj. unfold weighted in Hi, Hj. rewrite map_length in Hi, Hj. rewrite Forall_forall in Q.
  assert (E : forall i j, i < length w -> j < length w -> matrix_entry (weighted k w) i j = (k * matrix_entry w i j)%R).
  { clear i j Hi Hj. intros i j Hi Hj. unfold matrix_entry, weighted. rewrite (nth_map_lt _ w i []) by exact Hi.
    rewrite (nth_map_lt _ _ j 0%R); [reflexivity|]. rewrite (Q (nth i w [])) by (now apply nth_In). lia. }
  rewrite !E by assumption. f_equal. now apply S.
Qed.
Lemma ones_map s (l : list R) : ones (length (map (Rmult s) l)) = ones (length l).
Proof. now rewrite map_length. Qed.

Lemma C75_line_proof (dt n : list R) w s t g c : length dt = length n -> square w (length n) -> symmetric w -> s <> 0%R -> t <> 0%R ->
  (gls_solution (weighted (/ (s * s)) w) (map (Rmult t) dt) (map (Rmult s) n) (s / t * g) (s * c) <-> gls_solution w dt n g c).
Proof.
  intros HL Hw Hs Zs Zt. unfold gls_solution. rewrite residuals_units by exact Zt. rewrite map_length.
  pose proof (residuals_length dt n g c HL) as RL.
  assert (NZ : (s * s <> 0)%R) by now apply Rmult_integral_contrapositive_currified.
  rewrite !(weighted_bilinear _ w _ _ (length n)); rewrite ?map_length, ?ones_length; try assumption.
  rewrite !(bilinear_scale_r w (length n)); rewrite ?map_length, ?ones_length; try assumption.
  rewrite bilinear_scale_l. set (a := bilinear w dt _). set (b := bilinear w (ones _) _).
  assert (I : forall k r, k <> 0%R -> (k * r = 0 <-> r = 0)%R).
  { intros k r Hk. split; [intros E; apply Rmult_integral in E; tauto|intros ->; ring]. }
  pose proof (Rinv_neq_0_compat _ NZ). rewrite !I by assumption. reflexivity.
Qed.
Lemma C75_line1_proof (dt n : list R) w s t g : length dt = length n -> square w (length n) -> symmetric w -> s <> 0%R -> t <> 0%R ->
  (gls_solution_no_intercept (weighted (/ (s * s)) w) (map (Rmult t) dt) (map (Rmult s) n) (s / t * g)
   <-> gls_solution_no_intercept w dt n g).
Proof.
  intros HL Hw Hs Zs Zt. unfold gls_solution_no_intercept. replace 0%R with (s * 0)%R at 1 by ring. rewrite residuals_units by exact Zt.
  pose proof (residuals_length dt n g 0 HL) as RL.
  assert (NZ : (s * s <> 0)%R) by now apply Rmult_integral_contrapositive_currified.
  rewrite !(weighted_bilinear _ w _ _ (length n)); rewrite ?map_length; try assumption.
  rewrite !(bilinear_scale_r w (length n)); rewrite ?map_length; try assumption.
  rewrite bilinear_scale_l. set (a := bilinear w dt _).
  assert (I : forall k r, k <> 0%R -> (k * r = 0 <-> r = 0)%R).
  { intros k r Hk. split; [intros E; apply Rmult_integral in E; tauto|intros ->; ring]. }
  pose proof (Rinv_neq_0_compat _ NZ). rewrite !I by assumption. reflexivity.
Qed.

Lemma quadratic_units w n s (r : list R) : square w n -> symmetric w -> length r = n -> s <> 0%R ->
  quadratic (weighted (/ (s * s)) w) (map (Rmult s) r) = quadratic w r.
Proof.
  intros Hw Hs HL Zs. unfold quadratic. rewrite (weighted_bilinear _ w _ _ n) by (rewrite ?map_length; assumption).
  rewrite bilinear_scale_l, (bilinear_scale_r w n) by assumption. field. exact Zs.
Qed.
Lemma C75_likelihood_proof (dt n : list R) (ld ld' : R) w s t : length dt = length n -> square w (length n) -> symmetric w ->
  (0 < s)%R -> (0 < t)%R -> forall g c l, log_likelihood dt n ld w [g; c] = Ok l ->
  log_likelihood (map (Rmult t) dt) (map (Rmult s) n) ld' (weighted (/ (s * s)) w) [s / t * g; s * c]%R
    = Ok (option_map (fun x => x - (ld' - ld) / 2)%R l).
Proof.
  intros HL Hw Hs Ps Pt g c l H.
  assert (Pq : (0 < s / t)%R) by (apply Rdiv_lt_0_compat; assumption).
  destruct (Rlt_or_le g 0) as [N|P].
  - rewrite ll_negative in H by exact N. injection H as <-. rewrite ll_negative; [reflexivity|]. nra.
  - rewrite ll_two in H by assumption. injection H as <-.
    rewrite ll_two; [|rewrite !map_length; exact HL|rewrite map_length; now apply weighted_square|apply Rmult_le_pos; lra].
    rewrite residuals_units by lra. rewrite (quadratic_units w (length n)) by (try assumption; try lra; now apply residuals_length).
    cbn [option_map]. do 2 f_equal. field.
Qed.
Lemma C75_likelihood1_proof (dt n : list R) (ld ld' : R) w s t : length dt = length n -> square w (length n) -> symmetric w ->
  (0 < s)%R -> (0 < t)%R -> forall g l, log_likelihood dt n ld w [g] = Ok l ->
  log_likelihood (map (Rmult t) dt) (map (Rmult s) n) ld' (weighted (/ (s * s)) w) [s / t * g]%R
    = Ok (option_map (fun x => x - (ld' - ld) / 2)%R l).
Proof.
  intros HL Hw Hs Ps Pt g l H.
  assert (Pq : (0 < s / t)%R) by (apply Rdiv_lt_0_compat; assumption).
  destruct (Rlt_or_le g 0) as [N|P].
  - rewrite ll_negative in H by exact N. injection H as <-. rewrite ll_negative; [reflexivity|]. nra.
  - rewrite ll_one in H by assumption. injection H as <-.
    rewrite ll_one; [|rewrite !map_length; exact HL|rewrite map_length; now apply weighted_square|apply Rmult_le_pos; lra].
    replace 0%R with (s * 0)%R at 1 by ring.
    rewrite residuals_units by lra. rewrite (quadratic_units w (length n)) by (try assumption; try lra; now apply residuals_length).
    cbn [option_map]. do 2 f_equal. field.
Qed.

(** ** The covariance matrix *)
Lemma populate_units k (v n : list R) : populate_covariance_matrix (map (Rmult k) v) n = outcome (weighted k) (populate_covariance_matrix v n).
Proof.
  unfold populate_covariance_matrix. rewrite map_length. destruct (length v <=? length n)%nat; [|reflexivity]. cbn [guard bind outcome]. f_equal.
  unfold mat_of, weighted. rewrite map_map. apply map_seq_ext. intros i Hi. rewrite map_map. apply map_seq_ext. intros j Hj.
  rewrite !fill_value by (rewrite ?map_length; assumption). unfold cov_value.
  replace 0%R with (k * 0)%R at 3 by ring. rewrite map_nth. ring.
Qed.
Lemma vdiagvt_units k (V : list (list R)) l : vdiagvt V (map (Rmult k) l) = weighted k (vdiagvt V l).
Proof.
  unfold vdiagvt, weighted. rewrite map_map. apply map_ext. intros r. rewrite map_map. apply map_ext. intros r'.
  rewrite !nsum_R. generalize (combine r r'). intros q. revert l. induction q as [|x q IH]; intros [|y l]; cbn; try ring.
  specialize (IH l). cbn in IH. rewrite IH. numR. ring.
Qed.
Lemma recondition_units k l (c : R) : (0 < k)%R ->
  recondition_eigenvalues (map (Rmult k) l) c = outcome (map (Rmult k)) (recondition_eigenvalues l c).
Proof.
  intros Hk. unfold recondition_eigenvalues. change 0%Z with (Z.of_nat 0). rewrite !py_index_nat, nth_error_map.
  destruct (nth_error l 0) as [e|]; [|reflexivity]. cbn [option_map opt_res bind outcome]. f_equal. rewrite !map_map. apply map_ext. intros x. numR.
  assert (E : Rltb (k * x) (k * e / c) = Rltb x (e / c)).
  { destruct (Rltb x (e / c)) eqn:F; [apply Rltb_true in F; apply Rltb_true|apply Rltb_false in F; apply Rltb_false]; unfold Rdiv in *; rewrite Rmult_assoc; nra. }
  rewrite E. destruct (Rltb x (e / c)); [unfold Rdiv; ring|reflexivity].
Qed.

Lemma C75_recondition_proof {G Seed RS} (X : Ext R G Seed RS) k m l V (c : R) : (0 < k)%R ->
  x_eig X m = Ok (l, V) -> x_eig X (weighted k m) = Ok (map (Rmult k) l, V) ->
  minimum_eigenvalue_method X (weighted k m) c = outcome (weighted k) (minimum_eigenvalue_method X m c).
Proof.
  intros Hk E1 E2. unfold minimum_eigenvalue_method. rewrite E1, E2. cbn [bind]. rewrite recondition_units by exact Hk.
  destruct (recondition_eigenvalues l c); [|reflexivity]. cbn [outcome bind]. f_equal. apply vdiagvt_units.
Qed.
Lemma C75_covariance_proof {G Seed RS} (X : Ext R G Seed RS) c b b' p r : scaled_statistics c b b' ->
  (l_model p = true -> x_curve_fit X (skipn r (b_dt b')) (skipn r (b_v b')) (skipn r (b_n_o b'))
     = outcome (Rmult (c * c * (c * c))) (x_curve_fit X (skipn r (b_dt b)) (skipn r (b_v b)) (skipn r (b_n_o b)))) ->
  fst (generate_covariance_matrix X b' p r) = option_map (weighted (c * c * (c * c))) (fst (generate_covariance_matrix X b p r)).
Proof.
  intros (_ & Ev & Ed & Eo) Hf. unfold generate_covariance_matrix. set (k := (c * c * (c * c))%R) in *.
  destruct (l_model p).
  - rewrite (Hf eq_refl). clear Hf. rewrite Ed, Eo. destruct (x_curve_fit X _ _ _) as [a|e]; [|reflexivity]. cbn [outcome bind].
    assert (E : model_variance (skipn r (b_n_o b)) (skipn r (b_dt b)) (k * a)%R = map (Rmult k) (model_variance (skipn r (b_n_o b)) (skipn r (b_dt b)) a)).
    { unfold model_variance, zip_with. rewrite map_map. apply map_ext. intros [x y]. cbn [fst snd]. unfold nsq. numR. unfold Rdiv. ring. }
    rewrite E, populate_units. now destruct (populate_covariance_matrix _ _).
  - cbn [bind]. rewrite Eo, Ev, skipn_map, populate_units. now destruct (populate_covariance_matrix _ _).
Qed.
Lemma C75_time_covariance_proof {G Seed RS} (X : Ext R G Seed RS) c b p r : l_model p = false ->
  generate_covariance_matrix X (retime_boot c b) p r = generate_covariance_matrix X b p r.
Proof. intros H. unfold generate_covariance_matrix. rewrite H. reflexivity. Qed.

Lemma weighted_entry k w n i j : square w n -> i < n -> j < n -> matrix_entry (weighted k w) i j = (k * matrix_entry w i j)%R.
Proof.
  intros [L Q] Hi Hj. rewrite Forall_forall in Q. unfold matrix_entry, weighted. rewrite (nth_map_lt _ w i []) by lia.
  rewrite (nth_map_lt _ _ j 0%R); [reflexivity|]. rewrite (Q (nth i w [])); [exact Hj|]. apply nth_In. lia.
Qed.
Lemma C75_inverse_proof k w m : square w (length m) -> square m (length m) -> k <> 0%R ->
  (inverse_of (weighted (/ k) w) (weighted k m) <-> inverse_of w m).
Proof.
  intros Hw Hm Hk. unfold inverse_of. assert (LE : length (weighted k m) = length m) by (unfold weighted; now rewrite map_length).
  rewrite LE. assert (E : forall i j, i < length m -> j < length m ->
     sumto (length m) (fun q => matrix_entry (weighted (/ k) w) i q * matrix_entry (weighted k m) q j)%R
     = sumto (length m) (fun q => matrix_entry w i q * matrix_entry m q j)%R).
  { intros i j Hi Hj. apply sumto_ext. intros q Hq. rewrite !(weighted_entry _ _ (length m)) by assumption. field. exact Hk. }
  split; intros H i j Hi Hj; [rewrite <- E by assumption|rewrite E by assumption]; now apply H.
Qed.
Lemma C75_fit_proof c b b' r w g i : c <> 0%R -> scaled_statistics c b b' ->
  length (b_dt b) = length (b_n b) -> square w (length (skipn r (b_n b))) -> symmetric w ->
  (gls_solution (weighted (/ (c * c * (c * c))) w) (skipn r (b_dt b')) (skipn r (b_n b')) (c * c * g) (c * c * i)
   <-> gls_solution w (skipn r (b_dt b)) (skipn r (b_n b)) g i).
Proof.
  intros Hc (En & _ & Ed & _) HL Hw Hs. rewrite En, Ed, skipn_map.
  assert (Hcc : (c * c <> 0)%R) by now apply Rmult_integral_contrapositive_currified.
  rewrite <- (C75_line_proof (skipn r (b_dt b)) (skipn r (b_n b)) w (c * c) 1 g i); try assumption; [|rewrite !skipn_length; lia|lra].
  replace (map (Rmult 1) (skipn r (b_dt b))) with (skipn r (b_dt b)).
  - replace (c * c / 1 * g)%R with (c * c * g)%R by field. reflexivity.
  - rewrite <- (map_id (skipn r (b_dt b))) at 1. apply map_ext. intros x. ring.
Qed.
Lemma C75_time_fit_proof c b r w g i : c <> 0%R ->
  length (b_dt b) = length (b_n b) -> square w (length (skipn r (b_n b))) -> symmetric w ->
  (gls_solution w (skipn r (b_dt (retime_boot c b))) (skipn r (b_n (retime_boot c b))) (g / c) i
   <-> gls_solution w (skipn r (b_dt b)) (skipn r (b_n b)) g i).
Proof.
  intros Hc HL Hw Hs. cbn [retime_boot b_dt b_n]. rewrite skipn_map.
  rewrite <- (C75_line_proof (skipn r (b_dt b)) (skipn r (b_n b)) w 1 c g i); try assumption; [|rewrite !skipn_length; lia|lra].
  replace (map (Rmult 1) (skipn r (b_n b))) with (skipn r (b_n b)) by (rewrite <- (map_id (skipn r (b_n b))) at 1; apply map_ext; intros x; ring).
  replace (weighted (/ (1 * 1)) w) with w.
  - replace (1 / c * g)%R with (g / c)%R by (field; exact Hc). replace (1 * i)%R with i by ring. reflexivity.
  - unfold weighted. rewrite <- (map_id w) at 1. apply map_ext. intros l. rewrite <- (map_id l) at 1. apply map_ext. intros x. field.
Qed.
Lemma C75_example_proof : gls_solution (weighted (/ (100 * 100)) id2) [1000; 2000]%R [400; 300]%R (100 / 1000 * -1) (100 * 5)
  /\ log_likelihood (map (Rmult 1000) [1;2]%R) (map (Rmult 100) [4;3]%R) 7%R (weighted (/ (100 * 100)) id2) [100 / 1000 * 2; 100 * 0]%R
     = Ok (Some (- (1/2) * (3 + 5) - (7 - 3) / 2)%R).
Proof.
  destruct C67_example_proof as (_ & _ & _ & E & _).
  assert (Sq : square id2 2) by (split; [reflexivity|repeat constructor]).
  assert (Sy : symmetric id2).
  { intros i j Hi Hj. cbn in Hi, Hj. destruct i as [|[|i]], j as [|[|j]]; try lia; reflexivity. }
  split.
  - generalize (proj2 (C75_line_proof [1;2]%R [4;3]%R id2 100 1000 (-1) 5 eq_refl Sq Sy ltac:(lra) ltac:(lra)) E).
    cbn [map]. replace (1000 * 1)%R with 1000%R by lra. replace (1000 * 2)%R with 2000%R by lra.
    replace (100 * 4)%R with 400%R by lra. replace (100 * 3)%R with 300%R by lra. exact (fun H => H).
  - rewrite (C75_likelihood_proof [1;2]%R [4;3]%R 3 7 id2 100 1000 eq_refl Sq Sy ltac:(lra) ltac:(lra) 2 0 (Some (- (1/2) * (3 + 5))%R)).
    + reflexivity.
    + rewrite ll_two by (try assumption; try reflexivity; lra). do 3 f_equal. unfold quadratic, bilinear, residuals, matrix_entry, vec_entry, id2. cbn. lra.
Qed.
