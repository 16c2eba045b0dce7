(** * ProofsRescale: the posterior samples convert with the units (C130) *)
From Verif Require Import Base Spec SpecFit SpecGls SpecSym SpecMetro SpecRescale ModelParser ModelDiffusion Lemmas ProofsSym ProofsTime ProofsFit ProofsCov ProofsFit2 ProofsGls ProofsUnits ProofsMetro.
From Coq Require Import Reals Lra Lia.
Open Scope R_scope.

Lemma cons_eq {T} (x y : T) l m : x = y -> l = m -> x :: l = y :: m.
Proof. now intros -> ->. Qed.
Section Chain.
  Context {G Seed RS : Type} (X : Ext R G Seed RS) (s t : R).
  Notation F := (in_units s t).
  Hypothesis HX : moves_convert X s t.
  Definition conv_walker (k : R) (w : list R * option R) : list R * option R := (F (fst w), moved_by k (snd w)).
  Definition conv_move (m : option (list R * R * R)) : option (list R * R * R) := option_map (fun m => (F (fst (fst m)), snd (fst m), snd m)) m.
  Definition follows (k : R) (ll ll' : list R -> Res (option R)) : Prop := forall th, ll' (F th) = match ll th with Ok o => Ok (moved_by k o) | Raise e => Raise e end.
  Lemma move_conv k ll ll' w p : follows k ll ll' -> move_walker ll' (conv_walker k w) (conv_move p) = match move_walker ll w p with Ok w' => Ok (conv_walker k w') | Raise e => Raise e end.
  Proof.
    intros H. destruct p as [[[q f] lu]|]; [|reflexivity]. unfold move_walker, conv_move. cbn [option_map fst snd]. rewrite H. destruct (ll q) as [lp|e]; [|reflexivity]. cbn [bind].
    assert (E : accepts (conv_walker k w) (moved_by k lp) f lu = accepts w lp f lu).
    { unfold accepts, conv_walker. cbn [snd]. destruct lp as [l|]; [|reflexivity]. destruct (snd w) as [l0|]; [|reflexivity]. cbn [moved_by option_map]. numR. f_equal. lra. }
    rewrite E. destruct (accepts w lp f lu); reflexivity.
  Qed.
  Lemma moves_conv k ll ll' : follows k ll ll' -> forall ws ps, move_walkers ll' (map (conv_walker k) ws) (map conv_move ps) = match move_walkers ll ws ps with Ok w' => Ok (map (conv_walker k) w') | Raise e => Raise e end.
  Proof.
    intros H. induction ws as [|w ws IH]; intros ps; [destruct ps; reflexivity|]. destruct ps as [|p ps]; [reflexivity|]. cbn [map move_walkers]. rewrite (move_conv k ll ll' w p H).
    destruct (move_walker ll w p) as [w1|e]; [|reflexivity]. cbn [bind]. rewrite IH. destruct (move_walkers ll ws ps); reflexivity.
  Qed.
  Lemma conv_positions k ws : map fst (map (conv_walker k) ws) = map F (map fst ws).
  Proof. rewrite !map_map. now apply map_ext. Qed.
  Lemma half_conv k ll ll' ws g : follows k ll ll' -> half_step X ll' (map (conv_walker k) ws) g = match half_step X ll ws g with Ok (w', g') => Ok (map (conv_walker k) w', g') | Raise e => Raise e end.
  Proof.
    intros H. unfold half_step. rewrite conv_positions, (proj1 HX). destruct (x_propose X g (map fst ws)) as [ps g']. cbn [fst snd].
    fold conv_move. rewrite (moves_conv k ll ll' H). destruct (move_walkers ll ws ps); reflexivity.
  Qed.
  Lemma chain_conv k ll ll' steps : follows k ll ll' -> forall ws g, run_chain X ll' steps (map (conv_walker k) ws) g = outcome (map (map F)) (run_chain X ll steps ws g).
  Proof.
    intros H. induction steps as [|st IH]; intros ws g; [reflexivity|]. cbn [run_chain]. rewrite (half_conv k ll ll' ws g H).
    destruct (half_step X ll ws g) as [[w1 g1]|e]; [|reflexivity]. cbn [bind]. rewrite (half_conv k ll ll' w1 g1 H).
    destruct (half_step X ll w1 g1) as [[w2 g2]|e]; [|reflexivity]. cbn [bind]. rewrite IH, conv_positions. destruct (run_chain X ll st w2 g2); reflexivity.
  Qed.
  Lemma mapM_conv k ll ll' pos : follows k ll ll' -> mapM ll' (map F pos) = match mapM ll pos with Ok l => Ok (map (moved_by k) l) | Raise e => Raise e end.
  Proof.
    intros H. induction pos as [|p pos IH]; [reflexivity|]. cbn [mapM map]. rewrite H. destruct (ll p); [|reflexivity]. cbn [bind]. rewrite IH. destruct (mapM ll pos); reflexivity.
  Qed.
  Lemma mcmc_conv k ll ll' pos nd steps g : follows k ll ll' -> run_mcmc X ll' (map F pos) nd steps g = outcome (map (map F)) (run_mcmc X ll pos nd steps g).
  Proof.
    intros H. unfold run_mcmc. rewrite (proj2 HX), map_length. destruct (guard (x_independent X pos) ValueError); [|reflexivity]. cbn [bind]. rewrite (mapM_conv k ll ll' pos H). destruct (mapM ll pos) as [lps|e]; [|reflexivity]. cbn [bind].
    destruct (guard (0 <=? steps)%Z ValueError); [|reflexivity]. cbn [bind]. destruct (guard (0 <? steps)%Z AttributeError); [|reflexivity]. cbn [bind].
    destruct (guard _ RuntimeError); [|reflexivity]. cbn [bind]. rewrite <- (chain_conv k ll ll' _ H). f_equal.
    clear H. revert lps. induction pos as [|p pos IH]; intros lps; [reflexivity|]. destruct lps as [|l lps]; [reflexivity|]. cbn [combine map]. now rewrite IH.
  Qed.
  Lemma get_chain_conv chain d th : get_chain (map (map F) chain) d th = outcome (map F) (get_chain chain d th).
  Proof.
    unfold get_chain. rewrite py_from_map, py_stride_map. destruct (py_stride th _) as [sub|e]; [|reflexivity]. cbn [bind outcome]. now rewrite concat_map.
  Qed.
  Lemma positions_conv ml noise : initial_positions (F ml) noise = map F (initial_positions ml noise).
  Proof.
    unfold initial_positions. rewrite map_map. apply map_ext. intros row. unfold zip_with. rewrite milli_R.
    destruct ml as [|g [|c ml]]; destruct row as [|z [|z2 row]]; cbn [combine map in_units fst snd]; numR; try reflexivity; apply cons_eq; try ring; try reflexivity; apply cons_eq; try ring; reflexivity.
  Qed.
  Lemma conv_length th : length (F th) = length th.
  Proof. now destruct th as [|g [|c th]]. Qed.
End Chain.

Lemma ll_conv s t dt n (ld ld' : R) w : (0 < s) -> (0 < t) -> length dt = length n -> square w (length n) -> symmetric w ->
  follows s t (- ((ld' - ld) / 2)) (log_likelihood dt n ld w) (log_likelihood (map (Rmult t) dt) (map (Rmult s) n) ld' (weighted (/ (s * s)) w)).
Proof.
  intros Hs Ht HL HW HY th. assert (Pq : 0 < s / t) by (apply Rdiv_lt_0_compat; assumption).
  destruct th as [|g [|c [|x rest]]].
  - reflexivity.
  - cbn [in_units]. destruct (log_likelihood dt n ld w [g]) as [l|e] eqn:E.
    + now rewrite (C75_likelihood1_proof dt n ld ld' w s t HL HW HY Hs Ht g l E).
    + exfalso. revert E. unfold log_likelihood. change (py_index [g] 0) with (Ok g). cbn [bind straight_line]. destruct (g <? n0)%num; discriminate.
  - cbn [in_units]. destruct (log_likelihood dt n ld w [g; c]) as [l|e] eqn:E.
    + now rewrite (C75_likelihood_proof dt n ld ld' w s t HL HW HY Hs Ht g c l E).
    + exfalso. revert E. unfold log_likelihood. change (py_index [g; c] 0) with (Ok g). cbn [bind straight_line]. destruct (g <? n0)%num; discriminate.
  - cbn [in_units]. unfold log_likelihood.
    assert (I : forall (a b : R) l, py_index (a :: b :: l) 0 = Ok a). { intros a b l. change 0%Z with (Z.of_nat 0). rewrite py_index_nat. reflexivity. }
    rewrite !I. cbn [bind straight_line]. numR. unfold Rltb. destruct (Rlt_dec g 0), (Rlt_dec (s / t * g) 0); try reflexivity; exfalso; nra.
Qed.

Section Fit.
  Context {G Seed RS : Type} (X : Ext R G Seed RS).
  Lemma C130_samples_proof (b b' : Boot R) (p p' : GLSParams R RS) r cov inv sl sl' s t g :
    0 < s -> 0 < t -> same_data s t b b' -> same_options t p p' ->
    square inv (length (b_n b) - r) -> symmetric inv -> algebra_converts X s cov inv ->
    x_linregress X (skipn r (b_dt b)) (skipn r (b_n b)) = Ok sl -> x_linregress X (skipn r (b_dt b')) (skipn r (b_n b')) = Ok sl' ->
    finds_converted X s t (starting_point tiny (l_fit_intercept p) sl) (starting_point tiny (l_fit_intercept p) sl') ->
    moves_convert X s t ->
    sample_gls X b' p' r (weighted (s * s) cov) g = (fst (sample_gls X b p r cov g), outcome (map (in_units s t)) (snd (sample_gls X b p r cov g))).
  Proof.
    intros Hs Ht (Edt & En & HL) Hp HW HY (P1 & P2 & (ld & D1) & ld' & D2) L1 L2 HM HX. rewrite Hp.
    unfold sample_gls. cbn [l_fit_intercept l_n_walkers l_n_samples l_n_burn l_thin]. rewrite D1, D2. cbn [bind]. rewrite P1, P2. cbn [bind]. rewrite L1, L2. cbn [bind].
    rewrite Edt, En, !skipn_map.
    set (dts := skipn r (b_dt b)) in *. set (ns := skipn r (b_n b)) in *.
    assert (HLs : length dts = length ns) by (unfold dts, ns; rewrite !skipn_length; lia).
    assert (HWs : square inv (length ns)) by (unfold ns; rewrite skipn_length; exact HW).
    set (L := nadd ld _). set (L' := nadd ld' _).
    pose proof (ll_conv s t dts ns L L' inv Hs Ht HLs HWs HY) as S.
    assert (ES : forall z : R, (if l_fit_intercept p then [if (z <? n0)%num then tiny else z; tiny] else [if (z <? n0)%num then tiny else z]) = starting_point tiny (l_fit_intercept p) z).
    { intros z. unfold starting_point. numR. unfold Rltb. destruct (Rlt_dec z 0); reflexivity. }
    rewrite !ES.
    rewrite (HM (fun th => let! l := log_likelihood dts ns L inv th in Ok (option_map nopp l)) _ ((L' - L) / 2)).
    2:{ intros th. rewrite S. destruct (log_likelihood dts ns L inv th) as [[l|]|e]; cbn [bind moved_by option_map]; try reflexivity. do 2 f_equal. numR. lra. }
    destruct (x_minimize X _ _) as [ml|e]; [|reflexivity]. cbn [bind outcome]. rewrite conv_length. destruct (x_randn X g _ _) as [noise g']. cbn [fst snd]. f_equal.
    rewrite positions_conv, (mcmc_conv X s t HX _ _ _ _ _ _ _ S). destruct (run_mcmc X _ _ _ _ _) as [ch|e]; [|reflexivity]. cbn [bind outcome].
    apply get_chain_conv.
  Qed.
  Lemma column0_conv s t ch gr : column 0 ch = Ok gr -> column 0 (map (in_units s t) ch) = Ok (map (Rmult (s / t)) gr).
  Proof.
    unfold column. revert gr. induction ch as [|row ch IH]; intros gr E; cbn [mapM map] in *; [now injection E as <-|].
    destruct row as [|a row]; [discriminate|].
    assert (I : forall (a : R) l, py_index (a :: l) 0 = Ok a). { intros a0 l. change 0%Z with (Z.of_nat 0). rewrite py_index_nat. reflexivity. }
    rewrite I in E. cbn [bind] in E. destruct (mapM _ ch) as [v|e]; [|discriminate]. cbn [bind] in E. injection E as <-.
    assert (J : py_index (in_units s t (a :: row)) 0 = Ok (s / t * a)) by (destruct row; apply I).
    rewrite J. cbn [bind]. now rewrite (IH v eq_refl).
  Qed.
  Lemma column1_conv s t ch gr : column 1 ch = Ok gr -> column 1 (map (in_units s t) ch) = Ok (map (Rmult s) gr).
  Proof.
    unfold column. revert gr. induction ch as [|row ch IH]; intros gr E; cbn [mapM map] in *; [now injection E as <-|].
    destruct row as [|a [|c row]]; [discriminate|discriminate|].
    assert (I : forall (a c : R) l, py_index (a :: c :: l) 1 = Ok c). { intros a0 c0 l. change 1%Z with (Z.of_nat 1). rewrite py_index_nat. reflexivity. }
    rewrite I in E. cbn [bind] in E. destruct (mapM _ ch) as [v|e]; [|discriminate]. cbn [bind] in E. injection E as <-.
    cbn [in_units]. rewrite I. cbn [bind]. now rewrite (IH v eq_refl).
  Qed.
  Lemma fit_conv (b b' b1 : Boot R) (p p' : GLSParams R RS) r raw raw' cov inv sl sl' s t g g1 :
    0 < s -> 0 < t -> same_data s t b b' -> same_options t p p' -> first_at_least (l_start_dt p) (b_dt b) r ->
    generate_covariance_matrix X (set_settings b p) p r = (Some raw, Ok cov) ->
    generate_covariance_matrix X (set_settings b' p') p' r = (Some raw', Ok (weighted (s * s) cov)) ->
    square inv (length (b_n b) - r) -> symmetric inv -> algebra_converts X s cov inv ->
    x_linregress X (skipn r (b_dt b)) (skipn r (b_n b)) = Ok sl -> x_linregress X (skipn r (b_dt b')) (skipn r (b_n b')) = Ok sl' ->
    finds_converted X s t (starting_point tiny (l_fit_intercept p) sl) (starting_point tiny (l_fit_intercept p) sl') ->
    moves_convert X s t -> bootstrap_GLS X b p g = (b1, g1, Ok tt) ->
    exists b1', bootstrap_GLS X b' p' g = (b1', g1, Ok tt) /\ same_fit s t b1 b1'.
  Proof.
    intros Hs Ht HD Hp Hr G1 G2 HW HY HA L1 L2 HM HX. unfold bootstrap_GLS.
    assert (E1 : l_random_state p' = l_random_state p) by (now rewrite Hp).
    assert (E2 : l_fit_intercept p' = l_fit_intercept p) by (now rewrite Hp).
    assert (E3 : l_start_dt p' = t * l_start_dt p) by (now rewrite Hp).
    change (b_dt (set_settings b p)) with (b_dt b). change (b_dt (set_settings b' p')) with (b_dt b').
    rewrite E1, E2, E3. rewrite (proj1 HD), (C61_regime_proof t _ _ Ht), (find_regime_of_first _ _ _ Hr), G1, G2.
    set (g0 := match l_random_state p with Some rs => _ | None => g end).
    rewrite (C130_samples_proof (set_covariance (set_settings b p) cov) (set_covariance (set_settings b' p') (weighted (s * s) cov)) p p' r cov inv sl sl' s t g0 Hs Ht HD Hp HW HY HA L1 L2 HM HX).
    destruct (sample_gls X (set_covariance (set_settings b p) cov) p r cov g0) as [g' [chain|e]]; cbn [fst snd outcome]; [|discriminate].
    destruct (column 0 chain) as [gr|e] eqn:C0; [|discriminate].
    rewrite (column0_conv s t _ _ C0).
    destruct (l_fit_intercept p).
    - destruct (column 1 chain) as [ic|e] eqn:C1; [|discriminate]. cbn [bind]. rewrite (column1_conv s t _ _ C1). cbn [bind].
      intros E. injection E as <- <-. eexists. split; [reflexivity|]. unfold same_fit. repeat split; try reflexivity; [exact (proj1 HD)|cbn [set_fit set_covariance set_settings b_start_dt option_map]; now rewrite E3].
    - intros E. injection E as <- <-. eexists. split; [reflexivity|]. unfold same_fit. repeat split; try reflexivity; [exact (proj1 HD)|cbn [set_fit set_covariance set_settings b_start_dt option_map]; now rewrite E3].
  Qed.
  Lemma gls_dims (b b1 : Boot R) p g g1 : bootstrap_GLS X b p g = (b1, g1, Ok tt) -> b_dims b1 = b_dims b.
  Proof.
    unfold bootstrap_GLS. destruct (find_regime _ _ _) as [dr|e]; [|discriminate]. destruct (generate_covariance_matrix X _ p dr) as [[raw|] [cov|e]]; try discriminate.
    destruct (sample_gls X _ p dr cov _) as [g' [ch|e]]; [|discriminate]. destruct (l_fit_intercept p).
    - destruct (column 1 ch) as [ic|e]; destruct (column 0 ch) as [gr|e']; cbn [bind]; try discriminate. intros E. injection E as <- <-. reflexivity.
    - destruct (column 0 ch) as [gr|e']; try discriminate. intros E. injection E as <- <-. reflexivity.
  Qed.
  Lemma diffusion_conv (b b' b1 : Boot R) (p p' : GLSParams R RS) r raw raw' cov inv sl sl' s t g g1 :
    0 < s -> 0 < t -> same_data s t b b' -> b_dims b' = b_dims b -> same_options t p p' -> first_at_least (l_start_dt p) (b_dt b) r ->
    generate_covariance_matrix X (set_settings b p) p r = (Some raw, Ok cov) ->
    generate_covariance_matrix X (set_settings b' p') p' r = (Some raw', Ok (weighted (s * s) cov)) ->
    square inv (length (b_n b) - r) -> symmetric inv -> algebra_converts X s cov inv ->
    x_linregress X (skipn r (b_dt b)) (skipn r (b_n b)) = Ok sl -> x_linregress X (skipn r (b_dt b')) (skipn r (b_n b')) = Ok sl' ->
    finds_converted X s t (starting_point tiny (l_fit_intercept p) sl) (starting_point tiny (l_fit_intercept p) sl') ->
    moves_convert X s t -> diffusion X b p g = (b1, g1, Ok tt) ->
    exists b1', diffusion X b' p' g = (b1', g1, Ok tt) /\ b_D b1' = option_map (map (Rmult (s / t))) (b_D b1).
  Proof.
    intros Hs Ht HD Hd Hp Hr G1 G2 HW HY HA L1 L2 HM HX. unfold diffusion. destruct (bootstrap_GLS X b p g) as [[b0 g0] [[]|e]] eqn:E; [|discriminate].
    destruct (fit_conv b b' b0 p p' r raw raw' cov inv sl sl' s t g g0 Hs Ht HD Hp Hr G1 G2 HW HY HA L1 L2 HM HX E) as (b0' & E' & (_ & EG & _)).
    rewrite E'. rewrite EG, (gls_dims _ _ _ _ _ E), (gls_dims _ _ _ _ _ E'), Hd.
    destruct (b_gradient b0) as [gr|]; cbn [option_map samples_of]; [|discriminate]. intros K. injection K as <- <-. eexists. split; [reflexivity|].
    cbn [set_D b_D option_map]. f_equal. unfold diffusion_samples. rewrite !map_map. apply map_ext. intros x. numR. unfold Rdiv. ring.
  Qed.
  Lemma model_conv (no dts : list R) (a s t : R) : t <> 0 -> model_variance no (map (Rmult t) dts) (s * s / (t * t) * a) = map (Rmult (s * s)) (model_variance no dts a).
  Proof.
    intros Ht. unfold model_variance, zip_with. revert dts. induction no as [|x no IH]; intros [|d dts]; cbn [combine map]; try reflexivity. rewrite IH. apply cons_eq; [|reflexivity].
    cbn [fst snd]. unfold nsq. numR. unfold Rdiv. rewrite Rinv_mult. replace (s * s * (/ t * / t) * a * / x * (t * d * (t * d))) with (s * s * a * / x * (d * d) * (t * / t) * (t * / t)) by ring. rewrite Rinv_r by exact Ht. ring.
  Qed.
  Lemma C130_covariance_proof (b b' : Boot R) (p p' : GLSParams R RS) r raw cov s t :
    0 < s -> 0 < t -> same_data s t b b' -> same_variances s b b' -> same_options t p p' ->
    generate_covariance_matrix X (set_settings b p) p r = (Some raw, Ok cov) ->
    reconditioning_converts X (s * s) raw -> (l_model p = true -> model_converts X s t b b' r) ->
    generate_covariance_matrix X (set_settings b' p') p' r = (Some (weighted (s * s) raw), Ok (weighted (s * s) cov)).
  Proof.
    intros Hs Ht (Edt & _) (Ev & Eo) Hp HG ((l & V & E1 & E2) & HN) HM. revert HG. unfold generate_covariance_matrix.
    change (b_dt (set_settings b p)) with (b_dt b). change (b_v (set_settings b p)) with (b_v b). change (b_n_o (set_settings b p)) with (b_n_o b).
    change (b_dt (set_settings b' p')) with (b_dt b'). change (b_v (set_settings b' p')) with (b_v b'). change (b_n_o (set_settings b' p')) with (b_n_o b').
    rewrite Hp. cbn [l_model l_cond_max].
    assert (ER : (let! model_v := (if l_model p then let! a := x_curve_fit X (skipn r (b_dt b')) (skipn r (b_v b')) (skipn r (b_n_o b')) in Ok (model_variance (skipn r (b_n_o b')) (skipn r (b_dt b')) a) else Ok (skipn r (b_v b'))) in populate_covariance_matrix model_v (skipn r (b_n_o b')))
      = outcome (weighted (s * s)) (let! model_v := (if l_model p then let! a := x_curve_fit X (skipn r (b_dt b)) (skipn r (b_v b)) (skipn r (b_n_o b)) in Ok (model_variance (skipn r (b_n_o b)) (skipn r (b_dt b)) a) else Ok (skipn r (b_v b))) in populate_covariance_matrix model_v (skipn r (b_n_o b)))).
    { destruct (l_model p).
      - rewrite (HM eq_refl). destruct (x_curve_fit X (skipn r (b_dt b)) _ _) as [a|e]; [|reflexivity]. cbn [outcome bind].
        rewrite Edt, Eo, skipn_map, model_conv by lra. apply populate_units.
      - cbn [bind]. rewrite Ev, Eo, skipn_map. apply populate_units. }
    rewrite ER. destruct (let! model_v := (if l_model p then _ else Ok (skipn r (b_v b))) in _) as [m|e]; [|discriminate]. cbn [outcome].
    intros K. injection K as -> K2. f_equal. rewrite (C75_recondition_proof X (s * s) raw l V (l_cond_max p) ltac:(nra) E1 E2).
    destruct (minimum_eigenvalue_method X raw (l_cond_max p)) as [m'|e]; [|discriminate]. cbn [outcome bind] in *. rewrite HN, K2. reflexivity.
  Qed.
  Lemma C130_fit_proof (b b' b1 : Boot R) (p p' : GLSParams R RS) r raw cov inv sl sl' s t g g1 :
    0 < s -> 0 < t -> same_data s t b b' -> same_options t p p' -> first_at_least (l_start_dt p) (b_dt b) r ->
    generate_covariance_matrix X (set_settings b p) p r = (Some raw, Ok cov) ->
    same_variances s b b' -> reconditioning_converts X (s * s) raw -> (l_model p = true -> model_converts X s t b b' r) ->
    square inv (length (b_n b) - r) -> symmetric inv -> algebra_converts X s cov inv ->
    x_linregress X (skipn r (b_dt b)) (skipn r (b_n b)) = Ok sl -> x_linregress X (skipn r (b_dt b')) (skipn r (b_n b')) = Ok sl' ->
    finds_converted X s t (starting_point tiny (l_fit_intercept p) sl) (starting_point tiny (l_fit_intercept p) sl') ->
    moves_convert X s t -> bootstrap_GLS X b p g = (b1, g1, Ok tt) ->
    exists b1', bootstrap_GLS X b' p' g = (b1', g1, Ok tt) /\ same_fit s t b1 b1'.
  Proof.
    intros Hs Ht HD Hp Hr G1 HV HR HM. pose proof (C130_covariance_proof b b' p p' r raw cov s t Hs Ht HD HV Hp G1 HR HM) as G2.
    now apply (fit_conv b b' b1 p p' r raw (weighted (s * s) raw) cov inv sl sl' s t g g1).
  Qed.
  Lemma C130_diffusion_proof (b b' b1 : Boot R) (p p' : GLSParams R RS) r raw cov inv sl sl' s t g g1 :
    0 < s -> 0 < t -> same_data s t b b' -> b_dims b' = b_dims b -> same_options t p p' -> first_at_least (l_start_dt p) (b_dt b) r ->
    generate_covariance_matrix X (set_settings b p) p r = (Some raw, Ok cov) ->
    same_variances s b b' -> reconditioning_converts X (s * s) raw -> (l_model p = true -> model_converts X s t b b' r) ->
    square inv (length (b_n b) - r) -> symmetric inv -> algebra_converts X s cov inv ->
    x_linregress X (skipn r (b_dt b)) (skipn r (b_n b)) = Ok sl -> x_linregress X (skipn r (b_dt b')) (skipn r (b_n b')) = Ok sl' ->
    finds_converted X s t (starting_point tiny (l_fit_intercept p) sl) (starting_point tiny (l_fit_intercept p) sl') ->
    moves_convert X s t -> diffusion X b p g = (b1, g1, Ok tt) ->
    exists b1', diffusion X b' p' g = (b1', g1, Ok tt) /\ b_D b1' = option_map (map (Rmult (s / t))) (b_D b1).
  Proof.
    intros Hs Ht HD Hd Hp Hr G1 HV HR HM. pose proof (C130_covariance_proof b b' p p' r raw cov s t Hs Ht HD HV Hp G1 HR HM) as G2.
    now apply (diffusion_conv b b' b1 p p' r raw (weighted (s * s) raw) cov inv sl sl' s t g g1).
  Qed.
  Lemma gls_displacements (b b1 : Boot R) p g g1 : bootstrap_GLS X b p g = (b1, g1, Ok tt) -> b_displacements b1 = b_displacements b.
  Proof.
    unfold bootstrap_GLS. destruct (find_regime _ _ _) as [dr|e]; [|discriminate]. destruct (generate_covariance_matrix X _ p dr) as [[raw|] [cov|e]]; try discriminate.
    destruct (sample_gls X _ p dr cov _) as [g' [ch|e]]; [|discriminate]. destruct (l_fit_intercept p).
    - destruct (column 1 ch) as [ic|e]; destruct (column 0 ch) as [gr|e']; cbn [bind]; try discriminate. intros E. injection E as <- <-. reflexivity.
    - destruct (column 0 ch) as [gr|e']; try discriminate. intros E. injection E as <- <-. reflexivity.
  Qed.
  Lemma loop_conv s t gr ic cov dts n draws : 0 < t -> draws_convert X s -> forall g,
    ppd_loop X (map (Rmult (s / t)) gr) (option_map (map (Rmult s)) ic) (weighted (s * s) cov) (map (Rmult t) dts) n draws g
    = outcome (fun r => (map (map (map (Rmult s))) (fst r), snd r)) (ppd_loop X gr ic cov dts n draws g).
  Proof.
    intros Ht HD. induction draws as [|d draws IH]; intros g; [reflexivity|]. cbn [ppd_loop]. rewrite py_index_map. destruct (py_index gr _) as [gn|e]; [|reflexivity]. cbn [bind].
    destruct ic as [ic|]; [|reflexivity]. cbn [option_map opt_res bind]. rewrite py_index_map. destruct (py_index ic _) as [cn|e]; [|reflexivity]. cbn [bind].
    assert (EM : map (fun d0 : R => nadd (nmul (Rmult (s / t) gn) d0) (Rmult s cn)) (map (Rmult t) dts) = map (Rmult s) (map (fun d0 : R => nadd (nmul gn d0) cn) dts)).
    { rewrite !map_map. apply map_ext. intros x. numR. field. lra. }
    rewrite EM. unfold weighted at 1. rewrite !map_length. destruct (guard (length cov =? length dts)%nat ValueError); [|reflexivity]. cbn [bind].
    rewrite HD. destruct (x_mvn X g _ cov n) as [rows g']. cbn [fst snd]. destruct (guard _ ValueError); [|reflexivity]. cbn [bind].
    cbn [option_map] in IH. rewrite IH. destruct (ppd_loop X gr (Some ic) cov dts n draws g') as [[more g'']|e]; reflexivity.
  Qed.
  Lemma C130_predictions_proof (b b' : Boot R) s t np n g : 0 < t -> same_fit s t b b' -> draws_convert X s ->
    posterior_predictive X b' np n g = outcome (fun r => (map (map (Rmult s)) (fst r), snd r)) (posterior_predictive X b np n g).
  Proof.
    intros Ht (_ & EG & EI & EC & ED & ES) HD. unfold posterior_predictive. rewrite EG, EI, EC, ED, ES.
    destruct (b_gradient b) as [gr|]; cbn [option_map]; unfold samples_of; cbn [opt_res bind].
    - destruct np as [k|]; cbn [bind].
      + destruct (b_start_dt b) as [st|]; [|reflexivity]. cbn [option_map opt_res bind]. rewrite (C61_regime_proof t _ _ Ht). destruct (find_regime st 0 (b_dt b)) as [r|e]; [|reflexivity]. cbn [opt_res bind]. rewrite !map_length.
        destruct (guard _ ValueError); [|reflexivity]. cbn [bind]. destruct (x_randints X g _ _) as [draws g']. destruct (b_covariance b) as [cov|]; [|reflexivity]. cbn [option_map opt_res bind].
        rewrite skipn_map, loop_conv by assumption. destruct (ppd_loop X gr _ cov _ n draws g') as [[bl g'']|e]; [|reflexivity]. cbn [outcome bind fst snd]. now rewrite concat_map.
      + destruct (b_start_dt b) as [st|]; [|reflexivity]. cbn [option_map opt_res bind]. rewrite (C61_regime_proof t _ _ Ht). destruct (find_regime st 0 (b_dt b)) as [r|e]; [|reflexivity]. cbn [opt_res bind]. rewrite !map_length.
        destruct (guard _ ValueError); [|reflexivity]. cbn [bind]. destruct (x_randints X g _ _) as [draws g']. destruct (b_covariance b) as [cov|]; [|reflexivity]. cbn [option_map opt_res bind].
        rewrite skipn_map, loop_conv by assumption. destruct (ppd_loop X gr _ cov _ n draws g') as [[bl g'']|e]; [|reflexivity]. cbn [outcome bind fst snd]. now rewrite concat_map.
    - destruct np as [k|]; [|reflexivity]. cbn [bind]. destruct (b_start_dt b) as [st|]; [|reflexivity]. cbn [option_map opt_res bind]. rewrite (C61_regime_proof t _ _ Ht). destruct (find_regime st 0 (b_dt b)); reflexivity.
  Qed.
  Lemma C130_jump_proof (b b' b1 : Boot R) (p p' : GLSParams R RS) r raw cov inv sl sl' s t g g1 :
    0 < s -> 0 < t -> same_data s t b b' -> b_dims b' = b_dims b -> same_atoms b b' -> same_options t p p' -> first_at_least (l_start_dt p) (b_dt b) r ->
    generate_covariance_matrix X (set_settings b p) p r = (Some raw, Ok cov) ->
    same_variances s b b' -> reconditioning_converts X (s * s) raw -> (l_model p = true -> model_converts X s t b b' r) ->
    square inv (length (b_n b) - r) -> symmetric inv -> algebra_converts X s cov inv ->
    x_linregress X (skipn r (b_dt b)) (skipn r (b_n b)) = Ok sl -> x_linregress X (skipn r (b_dt b')) (skipn r (b_n b')) = Ok sl' ->
    finds_converted X s t (starting_point tiny (l_fit_intercept p) sl) (starting_point tiny (l_fit_intercept p) sl') ->
    moves_convert X s t -> jump_diffusion X b p g = (b1, g1, Ok tt) ->
    exists b1', jump_diffusion X b' p' g = (b1', g1, Ok tt) /\ b_DJ b1' = option_map (map (Rmult (s / t))) (b_DJ b1).
  Proof.
    intros Hs Ht HD Hd HA0 Hp Hr G1 HV HR HMo HW HY HA L1 L2 HM HX. unfold jump_diffusion. destruct (bootstrap_GLS X b p g) as [[b0 g0] [[]|e]] eqn:E; [|discriminate].
    destruct (C130_fit_proof b b' b0 p p' r raw cov inv sl sl' s t g g0 Hs Ht HD Hp Hr G1 HV HR HMo HW HY HA L1 L2 HM HX E) as (b0' & E' & (_ & EG & _)).
    rewrite E'. rewrite EG, (gls_dims _ _ _ _ _ E), (gls_dims _ _ _ _ _ E'), (gls_displacements _ _ _ _ _ E), (gls_displacements _ _ _ _ _ E'), Hd.
    destruct (b_gradient b0) as [gr|]; cbn [option_map samples_of]; [|discriminate]. destruct (py_index (b_displacements b) 0) as [d0|e] eqn:E0; [|discriminate].
    destruct (HA0 d0 E0) as (d0' & E0' & EL). rewrite E0', EL.
    intros K. injection K as <- <-. eexists. split; [reflexivity|].
    cbn [set_DJ b_DJ option_map]. f_equal. unfold jump_samples. rewrite !map_map. apply map_ext. intros x. numR. unfold Rdiv. ring.
  Qed.
  Lemma C130_conductivity_proof (b b' b1 : Boot R) (p p' : GLSParams R RS) r raw cov inv sl sl' s t g g1 k T vol v :
    0 < s -> 0 < t -> 0 < v -> same_data s t b b' -> b_dims b' = b_dims b -> same_options t p p' -> first_at_least (l_start_dt p) (b_dt b) r ->
    generate_covariance_matrix X (set_settings b p) p r = (Some raw, Ok cov) ->
    same_variances s b b' -> reconditioning_converts X (s * s) raw -> (l_model p = true -> model_converts X s t b b' r) ->
    square inv (length (b_n b) - r) -> symmetric inv -> algebra_converts X s cov inv ->
    x_linregress X (skipn r (b_dt b)) (skipn r (b_n b)) = Ok sl -> x_linregress X (skipn r (b_dt b')) (skipn r (b_n b')) = Ok sl' ->
    finds_converted X s t (starting_point tiny (l_fit_intercept p) sl) (starting_point tiny (l_fit_intercept p) sl') ->
    moves_convert X s t -> conductivity X k b p T vol g = (b1, g1, Ok tt) ->
    exists b1', conductivity X k b' p' T (v * vol) g = (b1', g1, Ok tt) /\ b_sigma b1' = option_map (map (Rmult (s / (t * v)))) (b_sigma b1).
  Proof.
    intros Hs Ht Hv HD Hd Hp Hr G1 HV HR HMo HW HY HA L1 L2 HM HX. unfold conductivity. destruct (bootstrap_GLS X b p g) as [[b0 g0] [[]|e]] eqn:E; [|discriminate].
    destruct (C130_fit_proof b b' b0 p p' r raw cov inv sl sl' s t g g0 Hs Ht HD Hp Hr G1 HV HR HMo HW HY HA L1 L2 HM HX E) as (b0' & E' & (_ & EG & _)).
    rewrite E'. rewrite EG, (gls_dims _ _ _ _ _ E), (gls_dims _ _ _ _ _ E'), Hd.
    destruct (b_gradient b0) as [gr|]; cbn [option_map samples_of]; [|discriminate]. intros K. injection K as <- <-. eexists. split; [reflexivity|].
    cbn [set_sigma b_sigma option_map]. f_equal. unfold diffusion_samples. rewrite !map_map. apply map_ext. intros x. unfold conductivity_conversion, nsq. numR. unfold Rdiv. rewrite !Rinv_mult. ring.
  Qed.
End Fit.

(** Libraries that are exact for one data point: the factor of the variance model, the eigenvalue of a 1 x 1 matrix, its
    inverse, the line through the origin. Proposals double the parameters. *)
Definition point_ext : Ext R nat nat nat :=
  mkExt sqrt (fun g _ size => (repeat 0%nat size, S g)) (fun _ => 0%R) (fun _ => (0%R, 0%R)) (fun rs => rs) (fun x => x)
    (fun dt v no => Ok (hd 0%R v * hd 0%R no / (hd 1%R dt * hd 1%R dt))%R) (fun m => Ok (map (fun row => hd 0%R row) m, repeat [1%R] (length m)))
    (fun m => Ok m) (fun _ => Ok 0%R) 0%R (fun m => Ok (map (map Rinv) m)) (fun dt n => Ok (hd 0%R n / hd 1%R dt)%R)
    (fun _ x0 => Ok (match x0 with [g] => [g] | g :: _ => [g; 0%R] | [] => [] end))
    (fun g rows cols => (repeat (repeat 0%R cols) rows, S g)) (fun _ => true)
    (fun g pos => (map (fun q => Some (map (Rmult 2) q, 0%R, (-10)%R)) pos, S g)) (fun g mu _ n => (repeat mu n, S g)).
Definition other_units : Boot R :=
  mkBoot (b_displacements demo_data) [1;2]%R 2 [] [1000 * 1; 1000 * 2]%R [100 * 2; 100 * 4]%R [1;1]%R [100 * 100; 100 * 100]%R [] [] [] [4;2]%R [] 1 (PyStr "xyz") []
         None None None None None None None SAll None 3 None None.
Definition other_fit : GLSParams R nat := mkGLSParams (1000 * 2)%R 10%R false false 1 4 0 1 (Some 7%nat).

Lemma point_moves s t : moves_convert point_ext s t.
Proof.
  split; [|reflexivity]. intros g pos. cbn [point_ext x_propose fst snd]. f_equal. rewrite !map_map. apply map_ext. intros q. cbn [option_map fst snd].
  do 3 f_equal. destruct q as [|a [|c q]]; cbn [map in_units]; repeat (apply cons_eq; [ring|]); reflexivity.
Qed.
Lemma point_draws s : draws_convert point_ext s.
Proof. intros g mu cov n. cbn [point_ext x_mvn fst snd]. f_equal. induction n as [|n IH]; [reflexivity|]. cbn [repeat map]. now rewrite IH. Qed.
Lemma point_algebra s (x : R) : s <> 0 -> algebra_converts point_ext s [[x]] [[/ x]].
Proof.
  intros Hs. split; [reflexivity|]. split; [|split; eexists; reflexivity]. cbn [point_ext x_pinvh]. unfold weighted. cbn [map]. do 3 f_equal.
  destruct (Req_dec x 0) as [->|Hx]; [rewrite Rmult_0_r, Rinv_0; ring|]. field. auto.
Qed.
Lemma point_cov (k : R) : 0 < k -> minimum_eigenvalue_method point_ext [[k]] 10 = Ok [[k]].
Proof.
  intros Hk. unfold minimum_eigenvalue_method. cbn [point_ext x_eig bind map hd length repeat x_cov_nearest].
  unfold recondition_eigenvalues. change (py_index [k] 0) with (Ok k). cbn [bind map]. numR.
  assert (E : Rltb k (k / 10) = false) by (apply Rltb_false; lra). rewrite E. cbn [bind]. unfold vdiagvt. cbn. numR. do 3 f_equal. ring.
Qed.

Lemma point_generate b p (v : R) : b_v b = [v; v] -> b_n_o b = [4; 2]%R -> l_model p = false -> l_cond_max p = 10%R -> 0 < v ->
  generate_covariance_matrix point_ext b p 1 = (Some [[v]], Ok [[v]]).
Proof.
  intros Ev En Em Ec Hv. unfold generate_covariance_matrix. rewrite Ev, En, Em, Ec. cbn [skipn].
  assert (EP : populate_covariance_matrix [v] [2]%R = Ok [[v]]).
  { unfold populate_covariance_matrix. cbn. numR. do 3 f_equal. field. }
  cbn [bind]. rewrite EP, (point_cov v Hv). reflexivity.
Qed.
Lemma point_find (x : R) s t : 0 <= x -> 0 < s -> 0 < t -> finds_converted point_ext s t (starting_point tiny false x) (starting_point tiny false (s / t * x)).
Proof.
  intros Hx Hs Ht f f' k _. assert (Pq : 0 < s / t) by (apply Rdiv_lt_0_compat; assumption).
  unfold starting_point. destruct (Rlt_dec x 0); [lra|]. destruct (Rlt_dec (s / t * x) 0); [exfalso; nra|]. reflexivity.
Qed.
Lemma point_ll (g : R) : 0 <= g -> log_likelihood [2]%R [4]%R (0 + 0 * 1) [[1]]%R [g] = Ok (Some (- (1/2) * ((2 * g - 4) * (2 * g - 4)))).
Proof.
  intros Hg. unfold log_likelihood. change (py_index [g] 0) with (Ok g). cbn [bind]. numR. assert (E : Rltb g 0 = false) by (apply Rltb_false; lra). rewrite E.
  cbn [straight_line bind]. rewrite nhalf_R. unfold dot, mat_vec_mul, zip_with. cbn. numR. do 2 f_equal. field.
Qed.
Lemma point_fit : exists b1 g1, bootstrap_GLS point_ext demo_data (demo_fit 2 false) 0%nat = (b1, g1, Ok tt) /\ b_gradient b1 = Some [4;4;4;4]%R.
Proof.
  assert (Hr : first_at_least 2 [1;2]%R 1).
  { exists 2%R. split; [reflexivity|]. split; [lra|]. intros j y Hj Hy. destruct j; [injection Hy as <-; lra|lia]. }
  unfold bootstrap_GLS. change (b_dt (set_settings demo_data (demo_fit 2 false))) with [1;2]%R. change (l_start_dt (demo_fit 2 false)) with 2%R.
  rewrite (find_regime_of_first _ _ _ Hr), (point_generate _ _ 1) by (try reflexivity; lra).
  assert (ES : forall g, sample_gls point_ext (set_covariance (set_settings demo_data (demo_fit 2 false)) [[1%R]]) (demo_fit 2 false) 1 [[1%R]] g = (S g, Ok [[4];[4];[4];[4]]%R)).
  { intros g. unfold sample_gls. change (skipn 1 (b_dt _)) with [2]%R. change (skipn 1 (b_n _)) with [4]%R.
    cbn [point_ext x_logdet x_pinvh x_linregress x_minimize x_log2pi x_randn bind demo_fit l_fit_intercept l_n_walkers l_n_samples l_n_burn l_thin map hd length].
    match goal with |- context[if ?c then tiny else _] => assert (c = false) as -> by (numR; apply Rltb_false; lra) end. rewrite Rinv_1.
    replace (4 / 2)%R with 2%R by lra. change (Z.to_nat 4) with 4%nat. cbn [length repeat].
    assert (EP : initial_positions [2]%R [[0];[0];[0];[0]]%R = [[2];[2];[2];[2]]%R).
    { unfold initial_positions, zip_with. rewrite milli_R. cbn. numR. repeat (apply cons_eq; [apply cons_eq; [ring|reflexivity]|]). reflexivity. }
    rewrite EP. unfold nofnat. cbn [length].
    match goal with |- context[log_likelihood [2]%R [4]%R ?l] => replace l with (0 + 0 * 1)%R by (numR; ring) end.
    set (ll := log_likelihood [2]%R [4]%R (0 + 0 * 1) [[1]]%R).
    assert (L : forall g : R, 0 <= g -> ll [g] = Ok (Some (- (1/2) * ((2 * g - 4) * (2 * g - 4))))) by (exact point_ll).
    f_equal. unfold run_mcmc. cbn [mapM]. rewrite L by lra. cbn [bind point_ext x_independent guard].
    change (0 <=? 1 + 0)%Z with true. change (0 <? 1 + 0)%Z with true. change (2 * 1 <=? length [[2];[2];[2];[2]]%R)%nat with true. cbn [guard bind].
    change (Z.to_nat (1 + 0)) with 1%nat. cbn [combine run_chain].
    assert (M1 : forall x, x = (- (1/2) * ((2 * 2 - 4) * (2 * 2 - 4)))%R -> exists y, y = (- (1/2) * ((2 * 4 - 4) * (2 * 4 - 4)))%R /\ move_walker ll ([2]%R, Some x) (Some ([2 * 2]%R, 0%R, (-10)%R)) = Ok ([4]%R, Some y)).
    { intros x ->. eexists. split; [reflexivity|]. unfold move_walker. rewrite L by lra. cbn [bind accepts snd]. numR.
      match goal with |- context[Rltb ?a ?b] => assert (Rltb a b = true) as -> by (apply Rltb_true; lra) end. replace (2 * 2)%R with 4%R by lra. reflexivity. }
    destruct (M1 _ eq_refl) as (y & Ey & M1').
    assert (M2 : move_walker ll ([4]%R, Some y) (Some ([2 * 4]%R, 0%R, (-10)%R)) = Ok ([4]%R, Some y)).
    { unfold move_walker. rewrite L by lra. cbn [bind accepts snd]. numR.
      match goal with |- context[Rltb ?a ?b] => assert (Rltb a b = false) as -> by (apply Rltb_false; lra) end. reflexivity. }
    unfold half_step at 1. cbn [point_ext x_propose map fst move_walkers]. rewrite !M1'. cbn [bind].
    unfold half_step. cbn [point_ext x_propose map fst move_walkers]. rewrite !M2. cbn [bind map fst].
    unfold get_chain. change (0 + 1 - 1)%Z with 0%Z. unfold py_from. cbn [length]. change (py_bound 1 0) with 0%nat. cbn [skipn]. rewrite py_stride_one. reflexivity. }
  rewrite ES. cbn [demo_fit l_fit_intercept]. change (column 0 [[4];[4];[4];[4]]%R) with (Ok [4;4;4;4]%R). do 2 eexists. split; reflexivity.
Qed.
Lemma C130_example_proof : same_data 100 1000 demo_data other_units /\ same_options 1000 (demo_fit 2 false) other_fit
  /\ first_at_least 2 (b_dt demo_data) 1
  /\ generate_covariance_matrix point_ext (set_settings demo_data (demo_fit 2 false)) (demo_fit 2 false) 1 = (Some [[1]], Ok [[1]])
  /\ same_variances 100 demo_data other_units /\ reconditioning_converts point_ext (100 * 100) [[1]]
  /\ square [[/ 1]] (length (b_n demo_data) - 1) /\ symmetric [[/ 1]] /\ algebra_converts point_ext 100 [[1]] [[/ 1]]
  /\ x_linregress point_ext (skipn 1 (b_dt demo_data)) (skipn 1 (b_n demo_data)) = Ok 2
  /\ x_linregress point_ext (skipn 1 (b_dt other_units)) (skipn 1 (b_n other_units)) = Ok (100 / 1000 * 2)
  /\ finds_converted point_ext 100 1000 (starting_point tiny false 2) (starting_point tiny false (100 / 1000 * 2))
  /\ moves_convert point_ext 100 1000 /\ draws_convert point_ext 100 /\ model_converts point_ext 100 1000 demo_data other_units 1 /\ same_atoms demo_data other_units
  /\ exists b1 g1, bootstrap_GLS point_ext demo_data (demo_fit 2 false) 0%nat = (b1, g1, Ok tt) /\ b_gradient b1 = Some [4;4;4;4].
Proof.
  split; [repeat split|]. split; [reflexivity|]. split.
  { exists 2%R. split; [reflexivity|]. split; [lra|]. intros j y Hj Hy. destruct j; [injection Hy as <-; lra|lia]. }
  split; [apply (point_generate _ _ 1); try reflexivity; lra|]. split.
  { split; [|reflexivity]. cbn. now rewrite Rmult_1_r. }
  split; [split; [exists [1], [[1]]; split; reflexivity|reflexivity]|].
  split; [split; [reflexivity|repeat constructor]|]. split; [intros i j Hi Hj; cbn in Hi, Hj; replace i with 0%nat by lia; replace j with 0%nat by lia; reflexivity|].
  split; [apply point_algebra; lra|]. split; [cbn; f_equal; lra|]. split; [cbn; f_equal; lra|].
  split; [apply point_find; lra|]. split; [apply point_moves|]. split; [apply point_draws|]. split; [|split; [intros d Ed; eauto|exact point_fit]].
  unfold model_converts. cbn. f_equal. field.
Qed.
