(** * ProofsMetro: the posterior samples depend on the misfit alone (C115) *)
From Verif Require Import Base Spec SpecFit SpecMetro ModelDiffusion Lemmas ProofsFit ProofsCov ProofsFit2.
From Coq Require Import Reals Lra Lia.
Open Scope R_scope.

Lemma ll_line dt n (ld : R) w th g c : length dt = length n -> square w (length n) -> line_of th g c ->
  log_likelihood dt n ld w th = if Rlt_dec g 0 then Ok None else Ok (Some (- (1/2) * (ld + quadratic w (residuals dt n g c)))).
Proof.
  intros HL HW H. destruct (Rlt_dec g 0) as [Hg|Hg].
  - destruct H as [->|[-> _]]; now apply ll_negative.
  - apply Rnot_lt_le in Hg. destruct H as [->|[-> ->]]; [now apply ll_two|now apply ll_one].
Qed.
Lemma C115_moves_proof dt n (ld : R) w th th' g c g' c' l f u : length dt = length n -> square w (length n) -> line_of th g c -> line_of th' g' c' -> 0 < u < 1 ->
  log_likelihood dt n ld w th = Ok (Some l) -> exists l' w', log_likelihood dt n ld w th' = Ok l' /\ move_walker (log_likelihood dt n ld w) (th, Some l) (Some (th', f, ln u)) = Ok w'
    /\ (u < metropolis f (weight w dt n g c) (weight w dt n g' c') -> w' = (th', l'))
    /\ (metropolis f (weight w dt n g c) (weight w dt n g' c') <= u -> w' = (th, Some l)).
Proof.
  intros HL HW H H' Hu E. rewrite (ll_line _ _ _ _ _ _ _ HL HW H) in E. unfold weight. destruct (Rlt_dec g 0) as [|Hg]; [discriminate|]. injection E as El.
  unfold move_walker. rewrite (ll_line _ _ _ _ _ _ _ HL HW H'). destruct (Rlt_dec g' 0) as [Hg'|Hg'].
  - exists None. eexists. split; [reflexivity|]. split; [reflexivity|]. cbn [accepts]. split; [|reflexivity]. intros K. exfalso. unfold metropolis in K.
    unfold Rdiv in K. rewrite Rmult_0_l, Rmult_0_r in K. rewrite Rmin_right in K by lra. lra.
  - eexists. eexists. split; [reflexivity|]. split; [cbn [bind accepts snd]; reflexivity|]. numR.
    set (q := quadratic w (residuals dt n g c)) in *. set (q' := quadratic w (residuals dt n g' c')).
    assert (M : exp f * (exp (- q' / 2) / exp (- q / 2)) = exp (f + - (1/2) * (ld + q') - l)).
    { rewrite <- El. unfold Rdiv. rewrite <- exp_Ropp, <- !exp_plus. f_equal. field. }
    unfold metropolis. rewrite M. set (z := f + - (1/2) * (ld + q') - l) in *.
    split; intros K.
    + assert (Rltb (ln u) z = true) as ->; [|reflexivity]. apply Rltb_true. apply exp_lt_inv. rewrite exp_ln by lra.
      apply (Rlt_le_trans _ _ _ K). apply Rmin_r.
    + assert (Rltb (ln u) z = false) as ->; [|reflexivity]. apply Rltb_false. 
      assert (exp z <= u). { destruct (Rle_dec 1 (exp z)); [rewrite Rmin_left in K by lra; lra|rewrite Rmin_right in K by lra; lra]. }
      destruct (Rle_dec z (ln u)) as [|N]; [assumption|]. exfalso. apply Rnot_le_lt in N. apply exp_increasing in N. rewrite exp_ln in N by lra. lra.
Qed.
Lemma C115_balance_proof f a b : 0 < a -> 0 < b -> a * metropolis f a b = exp f * b * metropolis (- f) b a.
Proof.
  intros Ha Hb. unfold metropolis. pose proof (exp_pos f) as Hf. set (e := exp f) in *. assert (E : exp (- f) = / e) by apply exp_Ropp. rewrite E.
  assert (P1 : 0 < e * b) by nra. 
  destruct (Rle_dec a (e * b)) as [L|L].
  - rewrite Rmin_left, Rmin_right.
    + field. repeat split; lra.
    + apply (Rmult_le_reg_r (e * b)); [exact P1|]. replace (/ e * (a / b) * (e * b)) with a by (field; lra). lra.
    + apply (Rmult_le_reg_r a); [exact Ha|]. replace (e * (b / a) * a) with (e * b) by (field; lra). lra.
  - apply Rnot_le_lt in L. rewrite Rmin_right, Rmin_left.
    + field. lra.
    + apply (Rmult_le_reg_r (e * b)); [exact P1|]. replace (/ e * (a / b) * (e * b)) with a by (field; lra). lra.
    + apply (Rmult_le_reg_r a); [exact Ha|]. replace (e * (b / a) * a) with (e * b) by (field; lra). lra.
Qed.

Section Determinant.
  Context {G Seed RS : Type} (X : Ext R G Seed RS).
  Definition moved_by (k : R) (o : option R) : option R := option_map (fun v => v + k) o.
  Definition shifted (k : R) (ll ll' : list R -> Res (option R)) : Prop := forall th, ll' th = match ll th with Ok o => Ok (moved_by k o) | Raise e => Raise e end.
  Definition moved_walker (k : R) (w : list R * option R) : list R * option R := (fst w, moved_by k (snd w)).
  Lemma move_shift k ll ll' w p : shifted k ll ll' -> move_walker ll' (moved_walker k w) p = match move_walker ll w p with Ok w' => Ok (moved_walker k w') | Raise e => Raise e end.
  Proof.
    intros H. destruct p as [[[q f] lu]|]; [|reflexivity]. unfold move_walker. rewrite H. destruct (ll q) as [lp|e]; [|reflexivity]. cbn [bind].
    assert (E : accepts (moved_walker k w) (moved_by k lp) f lu = accepts w lp f lu).
    { unfold accepts, moved_walker. cbn [snd]. destruct lp as [l|]; [|reflexivity]. destruct (snd w) as [l0|]; [|reflexivity]. cbn [moved_by option_map]. numR. f_equal. lra. }
    rewrite E. destruct (accepts w lp f lu); reflexivity.
  Qed.
  Lemma moves_shift k ll ll' : shifted k ll ll' -> forall ws ps, move_walkers ll' (map (moved_walker k) ws) ps = match move_walkers ll ws ps with Ok w' => Ok (map (moved_walker k) w') | Raise e => Raise e end.
  Proof.
    intros H. induction ws as [|w ws IH]; intros ps; [reflexivity|]. destruct ps as [|p ps]; [reflexivity|]. cbn [map move_walkers]. rewrite (move_shift k ll ll' w p H).
    destruct (move_walker ll w p) as [w1|e]; [|reflexivity]. cbn [bind]. rewrite IH. destruct (move_walkers ll ws ps); reflexivity.
  Qed.
  Lemma moved_positions k ws : map fst (map (moved_walker k) ws) = map fst ws.
  Proof. rewrite map_map. now apply map_ext. Qed.
  Lemma half_shift k ll ll' ws g : shifted k ll ll' -> half_step X ll' (map (moved_walker k) ws) g = match half_step X ll ws g with Ok (w', g') => Ok (map (moved_walker k) w', g') | Raise e => Raise e end.
  Proof.
    intros H. unfold half_step. rewrite moved_positions. destruct (x_propose X g (map fst ws)) as [ps g']. rewrite (moves_shift k ll ll' H). destruct (move_walkers ll ws ps); reflexivity.
  Qed.
  Lemma chain_shift k ll ll' steps : shifted k ll ll' -> forall ws g, run_chain X ll' steps (map (moved_walker k) ws) g = run_chain X ll steps ws g.
  Proof.
    intros H. induction steps as [|s IH]; intros ws g; [reflexivity|]. cbn [run_chain]. rewrite (half_shift k ll ll' ws g H).
    destruct (half_step X ll ws g) as [[w1 g1]|e]; [|reflexivity]. cbn [bind]. rewrite (half_shift k ll ll' w1 g1 H).
    destruct (half_step X ll w1 g1) as [[w2 g2]|e]; [|reflexivity]. cbn [bind]. now rewrite IH, moved_positions.
  Qed.
  Lemma mapM_shift k ll ll' pos : shifted k ll ll' -> mapM ll' pos = match mapM ll pos with Ok l => Ok (map (moved_by k) l) | Raise e => Raise e end.
  Proof.
    intros H. induction pos as [|p pos IH]; [reflexivity|]. cbn [mapM]. rewrite H. destruct (ll p); [|reflexivity]. cbn [bind]. rewrite IH. destruct (mapM ll pos); reflexivity.
  Qed.
  Lemma mcmc_shift k ll ll' pos nd steps g : shifted k ll ll' -> run_mcmc X ll' pos nd steps g = run_mcmc X ll pos nd steps g.
  Proof.
    intros H. unfold run_mcmc. destruct (guard (x_independent X pos) ValueError); [|reflexivity]. cbn [bind]. rewrite (mapM_shift k ll ll' pos H). destruct (mapM ll pos) as [lps|e]; [|reflexivity]. cbn [bind].
    destruct (guard (0 <=? steps)%Z ValueError); [|reflexivity]. cbn [bind]. destruct (guard (0 <? steps)%Z AttributeError); [|reflexivity]. cbn [bind].
    destruct (guard _ RuntimeError); [|reflexivity]. cbn [bind]. rewrite <- (chain_shift k ll ll' _ H). f_equal.
    clear H. revert lps. induction pos as [|p pos IH]; intros lps; [reflexivity|]. destruct lps as [|l lps]; [reflexivity|]. cbn [combine map]. now rewrite IH.
  Qed.
  Lemma ll_shift dt n (ld ld' : R) w : shifted (- (1/2) * (ld' - ld)) (log_likelihood dt n ld w) (log_likelihood dt n ld' w).
  Proof.
    intros th. unfold log_likelihood. destruct (py_index th 0) as [g|e]; [|reflexivity]. cbn [bind]. destruct (g <? n0)%num; [reflexivity|].
    destruct (straight_line dt th) as [m|e]; [|reflexivity]. cbn [bind moved_by option_map]. do 2 f_equal. set (q := dot _ _). rewrite nhalf_R. numR. lra.
  Qed.
  Lemma sample_shift det l2 b p dr cov g : ignores_constants X -> (forall m, exists x, x_logdet X m = Ok x) ->
    sample_gls (with_determinant X det l2) b p dr cov g = sample_gls X b p dr cov g.
  Proof.
    intros HM HD. unfold sample_gls. destruct (HD cov) as [ld E]. rewrite E. cbn [with_determinant x_logdet x_log2pi x_pinvh x_linregress x_minimize x_randn bind].
    destruct (x_pinvh X cov) as [inv|e]; [|reflexivity]. cbn [bind]. set (dts := skipn dr (b_dt b)). set (ns := skipn dr (b_n b)).
    destruct (x_linregress X dts ns) as [sl|e]; [|reflexivity]. cbn [bind].
    set (L := nadd ld _). set (L' := nadd (det cov) _). pose proof (ll_shift dts ns L L' inv) as S.
    assert (EM : forall x0, x_minimize X (fun th => let! l := log_likelihood dts ns L' inv th in Ok (option_map nopp l)) x0 = x_minimize X (fun th => let! l := log_likelihood dts ns L inv th in Ok (option_map nopp l)) x0).
    { intros x0. apply (HM _ _ (- (- (1/2) * (L' - L)))). intros th. rewrite S. destruct (log_likelihood dts ns L inv th) as [[l|]|e]; cbn [bind moved_by option_map]; try reflexivity.
      do 2 f_equal. numR. lra. }
    rewrite EM. destruct (x_minimize X _ _) as [ml|e]; [|reflexivity]. cbn [bind]. destruct (x_randn X g _ _) as [noise g']. f_equal.
    change (run_mcmc (with_determinant X det l2)) with (run_mcmc X). now rewrite (mcmc_shift _ _ _ _ _ _ _ S).
  Qed.
  Lemma C115_determinant_proof det l2 b p g : ignores_constants X -> (forall m, exists x, x_logdet X m = Ok x) ->
    bootstrap_GLS (with_determinant X det l2) b p g = bootstrap_GLS X b p g.
  Proof.
    intros HM HD. unfold bootstrap_GLS. cbn [with_determinant x_seed x_seed_of]. destruct (find_regime _ _ _) as [dr|e]; [|reflexivity].
    change (generate_covariance_matrix (with_determinant X det l2)) with (generate_covariance_matrix X).
    destruct (generate_covariance_matrix X _ p dr) as [[raw|] [cov|e]]; try reflexivity. now rewrite sample_shift.
  Qed.
End Determinant.

(** Data 2, 4 at times 1, 2 with unit weights: the step from the line 2 t to the line 3 t costs 5 and is taken with chance exp(-5/2); a falling line is never taken. *)
Lemma C115_example_proof : line_of [2] 2 0 /\ square id2 2 /\ metropolis 0 (weight id2 [1;2] [2;4] 2 0) (weight id2 [1;2] [2;4] 3 0) = exp (- (5 / 2))
  /\ metropolis 0 (weight id2 [1;2] [2;4] 2 0) (weight id2 [1;2] [2;4] (-1) 0) = 0.
Proof.
  split; [now right|]. split; [split; [reflexivity|]; repeat constructor|]. unfold weight, quadratic, bilinear, residuals, matrix_entry, vec_entry, id2.
  destruct (Rlt_dec 2 0); [lra|]. destruct (Rlt_dec 3 0); [lra|]. destruct (Rlt_dec (-1) 0); [|lra]. cbn [sumto length map combine fst snd nth].
  replace (- _ / 2) with 0 by field.
  split.
  - match goal with |- metropolis _ _ (exp ?x) = _ => replace x with (- (5/2)) by field end. unfold metropolis. rewrite exp_0, Rmin_right; [field|].
    rewrite Rmult_1_l. unfold Rdiv at 1. rewrite Rinv_1, Rmult_1_r. left. rewrite <- exp_0. apply exp_increasing. lra.
  - unfold metropolis, Rdiv. rewrite Rmult_0_l, Rmult_0_r. apply Rmin_right. lra.
Qed.
Lemma C115_example_fit_proof pv m0 (f : bool) g : ignores_constants (demo_ext pv m0) /\ (forall m, exists x, x_logdet (demo_ext pv m0) m = Ok x)
  /\ exists b g', bootstrap_GLS (demo_ext pv m0) demo_data (demo_fit 1 f) g = (b, g', Ok tt) /\ b_gradient b = Some (repeat m0 4).
Proof.
  split; [intros ? ? ? x0 _; reflexivity|]. split; [intros m; eexists; reflexivity|].
  destruct (demo_gls pv m0 f 1 0 g) as (cov & E & _).
  { exists 1. split; [reflexivity|]. split; [lra|]. intros i y Hi. lia. }
  do 2 eexists. split; [exact E|]. reflexivity.
Qed.
