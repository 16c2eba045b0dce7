(** * ProofsFit: fitting and its results (C34 end to end, C36, C37, C38, C39, C40, C44, C47, C48) *)
From Verif Require Import Base Spec SpecParser SpecStats SpecFit ModelParser ModelDiffusion ModelHdf ModelAnalyzer
  Lemmas ProofsWindows ProofsParser ProofsBoot ProofsStats ProofsCov SpecRun.
From Coq Require Import Reals Lra Lia ZArith Sorted.
Open Scope Z_scope.

(** ** C34 for what the parser and the bootstrap produce *)
Lemma firstn_map' {S T} (f : S -> T) n (l : list S) : firstn n (map f l) = map f (firstn n l).
Proof. revert l. induction n; intros [|x l]; cbn; congruence. Qed.
Lemma parsed_counts N T (x : nat -> nat -> V3 R) idx drift (ts : R) ss o p :
  Forall (valid_site N) idx -> Forall (valid_site N) drift -> sensible T (IZR ss * ts) o -> idx <> [] ->
  o_sampling o = "multi-origin"%string \/ o_sampling o = "single-origin"%string ->
  parser_init geomspace_R (table N T x) idx drift ts ss o = Ok p ->
  exists K c tis k, (0 < K)%R /\ Forall (fun m => 0 < m)%nat tis /\ StronglySorted le tis
    /\ p_delta_t p = map (fun m => INR m * c)%R tis /\ p_n_o p = map (fun m => K / INR m)%R (firstn k tis)
    /\ length (p_disp_3d p) = length (p_n_o p).
Proof.
  intros Hi Hd HS Hne Hs Hp.
  assert (Hlen : length (p_disp_3d p) = length (p_n_o p)).
  { destruct Hs as [Hs|Hs].
    - now destruct (C09_multi_proof _ _ _ _ _ _ _ _ _ Hi Hd HS Hs Hp) as (-> & _).
    - now destruct (C09_single_proof _ _ _ _ _ _ _ _ _ Hi Hd HS Hs Hp) as (-> & _). }
  assert (H : exists tis k, Forall (fun n => (0 < n <= T)%nat) tis /\ StronglySorted le tis
    /\ p_delta_t p = delta_ts ts ss tis
    /\ p_n_o p = map (obs_count (length idx) (last_interval tis)) (firstn k tis)).
  { destruct Hs as [Hs|Hs].
    - destruct (run_multi N T x idx drift ts ss o Hi Hd HS p Hs Hp) as (tis & F1 & F2 & Ef & Em & ->).
      eexists tis, _. repeat (split; [eassumption || reflexivity|]). reflexivity.
    - destruct (run_single N T x idx drift ts ss o Hi Hd HS p Hs Hp) as (tis & F1 & F2 & Em & ->).
      eexists tis, _. repeat (split; [eassumption || reflexivity|]). reflexivity. }
  destruct H as (tis & k & F1 & F2 & E1 & E2).
  assert (F1' : Forall (fun m => 0 < m)%nat tis) by (eapply Forall_impl; [|exact F1]; cbn; lia).
  destruct tis as [|m0 rest] eqn:Et.
  - exists 1%R, 0%R, [], k. rewrite E1, E2. split; [lra|]. repeat (split; [constructor|]). split; [|congruence].
    now destruct k.
  - rewrite <- Et in *. exists (INR (length idx) * IZR (last_interval tis))%R, (ts * IZR ss)%R, tis, k.
    split; [|split; [exact F1'|split; [exact F2|]]].
    + apply Rmult_lt_0_compat.
      * apply lt_0_INR. destruct idx; [congruence|cbn; lia].
      * apply IZR_lt. unfold last_interval.
        assert (m0 <= last tis 0)%nat by (apply sorted_last_max; [exact F2|rewrite Et; now left]).
        rewrite Et in F1'. inversion F1'; subst. lia.
    + split; [|split; [|congruence]].
      * rewrite E1. unfold delta_ts. apply map_ext. intros m. ring.
      * rewrite E2. reflexivity.
Qed.
Lemma sorted_nth_le ms : StronglySorted le ms -> forall i j, (i <= j < length ms)%nat -> (nth i ms 0 <= nth j ms 0)%nat.
Proof.
  intros H i j Hij. destruct (Nat.eq_dec i j) as [->|Hn]; [lia|].
  eapply (StronglySorted_nth le ms i j); [exact H|lia| |]; apply nth_error_nth'; lia.
Qed.
Lemma StronglySorted_firstn {T} (P : T -> T -> Prop) n l : StronglySorted P l -> StronglySorted P (firstn n l).
Proof.
  intros H. revert n. induction H as [|a l Hl IH Ha]; intros [|n]; cbn; try constructor; [apply IH|].
  rewrite Forall_forall in *. intros x Hx. apply Ha. rewrite <- (firstn_skipn n l). apply in_or_app. now left.
Qed.
Lemma shown_counts K c tis k (p_dt p_no : list R) (b : Boot R) s :
  p_dt = map (fun m => INR m * c)%R tis -> p_no = map (fun m => K / INR m)%R (firstn k tis) ->
  (s <= length p_no)%nat -> b_dt b = firstn s p_dt -> b_n_o b = firstn s p_no ->
  walk_counts K c (firstn s tis) (b_dt b) (b_n_o b).
Proof.
  intros -> -> Hs -> ->. unfold walk_counts. rewrite !firstn_map'. split; [reflexivity|].
  f_equal. rewrite firstn_firstn. f_equal. rewrite map_length, firstn_length in Hs. lia.
Qed.
(** The data of an object analysed with sub_sample_dt = 1. *)
Lemma report_counts {G Seed RS} (X : Ext R G Seed RS) K c tis k u n_samples n_o dts axes Qf used (disps : list (Arr R)) shown (b : Boot R) :
  dts = map (fun m => INR m * c)%R tis -> n_o = map (fun m => K / INR m)%R (firstn k tis) ->
  length disps = length n_o -> (length used <= length disps)%nat ->
  boot_report X u n_samples n_o dts axes Qf used shown b -> b_n_o b = firstn (length shown) n_o ->
  walk_counts K c (firstn (length shown) tis) (b_dt b) (b_n_o b).
Proof.
  intros H1 H2 H3 H4 HR H5. eapply shown_counts; [exact H1|exact H2| |exact (br_dt _ _ _ _ _ _ _ _ _ _ HR)|exact H5].
  destruct (br_shown _ _ _ _ _ _ _ _ _ _ HR) as (rest & E & _). rewrite E, app_length in H4. lia.
Qed.

Section EndToEnd.
  Context {G Seed RS : Type} (X : Ext R G Seed RS).
  Context (N T : nat) (x : nat -> nat -> V3 R) (idx drift : list Z) (ts : R) (ss : Z) (o : Options R) (p : Parsed R)
    (Hi : Forall (valid_site N) idx) (Hd : Forall (valid_site N) drift) (HS : sensible T (IZR ss * ts) o) (Hne : idx <> [])
    (Hs : o_sampling o = "multi-origin"%string \/ o_sampling o = "single-origin"%string)
    (Hp : parser_init geomspace_R (table N T x) idx drift ts ss o = Ok p)
    (l : GLSParams R RS) (Hm : l_model l = true)
    (Hc : forall x y z a, x_curve_fit X x y z = Ok a -> (0 <= a)%R).
  Lemma end_to_end (b : Boot R) dr raw r u n_samples axes Qf used shown :
    (length used <= length (p_disp_3d p))%nat ->
    boot_report X u n_samples (p_n_o p) (p_delta_t p) axes Qf used shown b ->
    b_n_o b = firstn (length shown) (p_n_o p) ->
    generate_covariance_matrix X b l dr = (Some raw, r) -> positive_semidefinite raw.
  Proof.
    intros Hu HR Hn H.
    destruct (parsed_counts N T x idx drift ts ss o p Hi Hd HS Hne Hs Hp) as (K & c & tis & k & HK & F1 & F2 & E1 & E2 & E3).
    assert (W := report_counts X K c tis k u n_samples (p_n_o p) (p_delta_t p) axes Qf used (p_disp_3d p) shown b E1 E2 E3 Hu HR Hn).
    eapply (C34_walk_proof X b l dr raw r K c (firstn (length shown) tis)); try eassumption.
    - apply Forall_forall. intros m Hin. rewrite Forall_forall in F1. apply F1.
      rewrite <- (firstn_skipn (length shown) tis). apply in_or_app. now left.
    - apply sorted_nth_le. now apply StronglySorted_firstn.
  Qed.
  Context (u : BootParams R) (Hk : u_sub_sample_dt u = 1).
  Lemma C34_msd_proof g b g' dr raw r : msd_bootstrap X u (p_delta_t p) (p_disp_3d p) (p_n_o p) g = Ok (b, g') ->
    generate_covariance_matrix X b l dr = (Some raw, r) -> positive_semidefinite raw.
  Proof.
    intros E. destruct (msd_run X u _ _ _ g b g' ltac:(lia) E) as (axes & shown & _ & _ & H3 & H4 & H5 & HR).
    rewrite Hk in H3, H4. apply sub_sample_one in H3. apply sub_sample_one in H4. rewrite H4 in HR.
    eapply end_to_end; [|exact HR|exact H5]. rewrite H3. reflexivity.
  Qed.
  Lemma parsed_wf : Forall arr_wf (p_disp_3d p).
  Proof.
    apply Forall_forall. intros d Hin. apply In_nth_error in Hin as (k & Hin).
    destruct Hs as [Hs'|Hs'].
    - destruct (C09_multi_proof _ _ _ _ _ _ _ _ _ Hi Hd HS Hs' Hp) as (_ & _ & _ & H).
      destruct (H k d Hin) as (n & _ & _ & _ & [W1 [_ W2] _ _] & _). unfold arr_wf. now rewrite W1.
    - destruct (C09_single_proof _ _ _ _ _ _ _ _ _ Hi Hd HS Hs' Hp) as (_ & _ & _ & H).
      destruct (H k d Hin) as (n & _ & _ & _ & [W1 [_ W2] _] & _). unfold arr_wf. now rewrite W1.
  Qed.
  Lemma parsed_atoms : Forall (fun d => length (a_rows d) = length idx) (p_disp_3d p).
  Proof.
    apply Forall_forall. intros d Hin. apply In_nth_error in Hin as (k & Hin).
    destruct Hs as [Hs'|Hs'].
    - destruct (C09_multi_proof _ _ _ _ _ _ _ _ _ Hi Hd HS Hs' Hp) as (_ & _ & _ & H).
      destruct (H k d Hin) as (n & _ & _ & _ & [W1 [W3 W2] _ _] & _). exact W3.
    - destruct (C09_single_proof _ _ _ _ _ _ _ _ _ Hi Hd HS Hs' Hp) as (_ & _ & _ & H).
      destruct (H k d Hin) as (n & _ & _ & _ & [W1 [W3 W2] _] & _). exact W3.
  Qed.
  Lemma C34_mscd_proof q g b g' dr raw r : (forall l, q = QArray l -> length l = length idx) ->
    mscd_bootstrap X u (p_delta_t p) (p_disp_3d p) q (p_n_o p) g = Ok (b, g') ->
    generate_covariance_matrix X b l dr = (Some raw, r) -> positive_semidefinite raw.
  Proof.
    intros Hq E. destruct (mscd_run X u _ _ q _ g b g' (length idx) ltac:(lia) parsed_wf parsed_atoms Hq E)
      as (axes & shown & _ & _ & H3 & H4 & H5 & HR).
    rewrite Hk in H3, H4. apply sub_sample_one in H3. apply sub_sample_one in H4. rewrite H4 in HR.
    eapply end_to_end; [|exact HR|exact H5]. rewrite H3, firstn_length. lia.
  Qed.
  Lemma C34_mstd_proof g b g' dr raw r :
    mstd_bootstrap X u (p_delta_t p) (p_disp_3d p) (p_n_o p) g = Ok (b, g') ->
    generate_covariance_matrix X b l dr = (Some raw, r) -> positive_semidefinite raw.
  Proof.
    intros E. destruct (mstd_run X u _ _ _ g b g' ltac:(lia) parsed_wf E) as (axes & shown & _ & _ & H3 & H4 & H5 & HR).
    rewrite Hk in H3, H4. apply sub_sample_one in H3. apply sub_sample_one in H4. rewrite H4 in HR.
    eapply end_to_end; [|exact HR|exact H5]. rewrite H3, firstn_length. lia.
  Qed.
End EndToEnd.

(** ** C36 *)
Lemma find_regime_shift (start : R) dt i : find_regime start i dt = match find_regime start 0 dt with Ok r => Ok (i + r)%nat | Raise e => Raise e end.
Proof.
  revert i. induction dt as [|x dt IH]; intros i; [reflexivity|]. cbn [find_regime].
  destruct (_ <=? _)%num; [f_equal; lia|]. rewrite (IH (S i)), (IH 1%nat).
  destruct (find_regime start 0 dt); [f_equal; lia|reflexivity].
Qed.
Lemma find_regime_spec (start : R) dt :
  (exists r, find_regime start 0 dt = Ok r /\ first_at_least start dt r)
  \/ (find_regime start 0 dt = Raise IndexError /\ forall x, In x dt -> (x < start)%R).
Proof.
  induction dt as [|x dt IH].
  - right. split; [reflexivity|]. intros x [].
  - cbn [find_regime]. numR. destruct (Rleb start x) eqn:E.
    + apply Rleb_true in E. left. exists 0%nat. split; [reflexivity|]. exists x. split; [reflexivity|]. split; [exact E|].
      intros i y Hi. lia.
    + apply Rleb_false in E. rewrite find_regime_shift. destruct IH as [(r & -> & y & H1 & H2 & H3)|[-> H]].
      * left. exists (S r). split; [reflexivity|]. exists y. split; [exact H1|]. split; [exact H2|].
        intros [|i] z Hi Hz; [injection Hz as <-; exact E|]. cbn in Hz. eapply (H3 i); [lia|exact Hz].
      * right. split; [reflexivity|]. intros y [<-|Hy]; [exact E|now apply H].
Qed.
Lemma first_at_least_unique start dt r r' : first_at_least start dt r -> first_at_least start dt r' -> r = r'.
Proof.
  intros (x & H1 & H2 & H3) (y & K1 & K2 & K3). destruct (Nat.lt_trichotomy r r') as [H|[H|H]]; [|exact H|].
  - specialize (K3 r x H H1). lra. - specialize (H3 r' y H K1). lra.
Qed.
Lemma find_regime_first start dt r : find_regime start 0 dt = Ok r -> first_at_least start dt r.
Proof. intros H. destruct (find_regime_spec start dt) as [(r' & E & F)|[E _]]; rewrite E in H; [injection H as <-; exact F|discriminate]. Qed.
Lemma find_regime_of_first start dt r : first_at_least start dt r -> find_regime start 0 dt = Ok r.
Proof.
  intros H. destruct (find_regime_spec start dt) as [(r' & E & F)|[E F]].
  - rewrite E. f_equal. eapply first_at_least_unique; eauto.
  - destruct H as (x & H1 & H2 & _). apply nth_error_In in H1. specialize (F x H1). lra.
Qed.
Lemma find_regime_ext (start : R) dt dt' : dt = dt' -> find_regime start 0 dt = find_regime start 0 dt'.
Proof. now intros ->. Qed.
Lemma at_least_all start l : Forall (fun x => start <= x)%R l -> at_least start l = l.
Proof. induction 1 as [|x l Hx _ IH]; [reflexivity|]. cbn. destruct (Rle_dec start x); [now rewrite IH|lra]. Qed.
Lemma C36_increasing_proof start dt r : ascending dt -> first_at_least start dt r -> skipn r dt = at_least start dt.
Proof.
  intros Hi (x & H1 & H2 & H3). revert r H1 H3. induction dt as [|y dt IH]; intros [|r] H1 H3; try discriminate.
  - cbn [skipn]. symmetry. apply at_least_all. cbn in H1. injection H1 as ->. apply Forall_forall. intros z Hz.
    apply In_nth_error in Hz as ([|k] & Hk); cbn in Hk; [injection Hk as <-; exact H2|].
    assert (x < z)%R by (apply (Hi 0%nat (S k)); [lia|reflexivity|exact Hk]). lra.
  - cbn [skipn at_least]. assert (y < start)%R by (apply (H3 0%nat); [lia|reflexivity]).
    destruct (Rle_dec start y); [lra|]. apply IH.
    + intros i j a b Hij Ha Hb. apply (Hi (S i) (S j)); [lia|exact Ha|exact Hb].
    + exact H1.
    + intros i z Hlt Hz. apply (H3 (S i)); [lia|exact Hz].
Qed.

Section Fit.
  Context {G Seed RS : Type} (X : Ext R G Seed RS).


  Lemma generate_data b b' p r r' : fit_data b r = fit_data b' r' ->
    generate_covariance_matrix X b p r = generate_covariance_matrix X b' p r'.
  Proof. unfold fit_data, generate_covariance_matrix. intros H. injection H as H1 H2 H3 H4. now rewrite H1, H3, H4. Qed.
  Lemma sample_data b b' p r r' cov g : fit_data b r = fit_data b' r' ->
    sample_gls X b p r cov g = sample_gls X b' p r' cov g.
  Proof. unfold fit_data, sample_gls. intros H. injection H as H1 H2 H3 H4. now rewrite H1, H2. Qed.
  (** Case analysis of a fit. *)
  Inductive gls_run (b : Boot R) (p : GLSParams R RS) (g : G) : Boot R * G * Res unit -> Prop :=
  | run_no_regime g0 : (forall x, In x (b_dt b) -> (x < l_start_dt p)%R) ->
      gls_run b p g (set_settings b p, g0, Raise IndexError)
  | run_no_cov r g0 e : first_at_least (l_start_dt p) (b_dt b) r ->
      generate_covariance_matrix X (set_settings b p) p r = (None, Raise e) ->
      gls_run b p g (set_settings b p, g0, Raise e)
  | run_bad_cov r g0 raw e : first_at_least (l_start_dt p) (b_dt b) r ->
      generate_covariance_matrix X (set_settings b p) p r = (Some raw, Raise e) ->
      gls_run b p g (set_covariance (set_settings b p) raw, g0, Raise e)
  | run_no_chain r g0 raw cov e : first_at_least (l_start_dt p) (b_dt b) r ->
      generate_covariance_matrix X (set_settings b p) p r = (Some raw, Ok cov) ->
      gls_run b p g (set_covariance (set_settings b p) cov, g0, Raise e)
  | run_ok r g0 g1 raw cov chain gr ic : first_at_least (l_start_dt p) (b_dt b) r ->
      g0 = match l_random_state p with Some rs => x_seed X (x_seed_of X rs) | None => g end ->
      generate_covariance_matrix X (set_settings b p) p r = (Some raw, Ok cov) ->
      sample_gls X b p r cov g0 = (g1, Ok chain) ->
      column 0 chain = Ok gr ->
      (l_fit_intercept p = true /\ (exists c, column 1 chain = Ok c /\ ic = Some c)
       \/ l_fit_intercept p = false /\ ic = None) ->
      gls_run b p g (set_fit (set_covariance (set_settings b p) cov) chain gr ic, g1, Ok tt).
  Lemma gls_cases b p g : gls_run b p g (bootstrap_GLS X b p g).
  Proof.
    unfold bootstrap_GLS. set (g0 := match l_random_state p with Some rs => _ | None => g end).
    change (b_dt (set_settings b p)) with (b_dt b).
    destruct (find_regime_spec (l_start_dt p) (b_dt b)) as [(r & -> & F)|[-> F]]; [|now apply run_no_regime].
    destruct (generate_covariance_matrix X (set_settings b p) p r) as [[raw|] [cov|e]] eqn:EG.
    - destruct (sample_gls X _ p r cov g0) as [g1 [chain|e]] eqn:ES; [|eapply run_no_chain; eauto].
      destruct (column 0 chain) as [gr|e] eqn:E0; [|eapply run_no_chain; eauto].
      destruct (l_fit_intercept p) eqn:EF.
      + destruct (column 1 chain) as [c|e] eqn:E1; cbn [bind]; [|eapply run_no_chain; eauto].
        eapply run_ok; eauto.
      + eapply run_ok; eauto.
    - eapply run_bad_cov; eauto.
    - exfalso. unfold generate_covariance_matrix in EG.
      destruct (bind _ _); [injection EG as ? ?; discriminate|discriminate].
    - eapply run_no_cov; eauto.
  Qed.




  Lemma gls_statistics b p g b' g' r : bootstrap_GLS X b p g = (b', g', r) -> same_statistics b b'.
  Proof.
    intros H. assert (K := gls_cases b p g). rewrite H in K. inversion K; subst; repeat (split; [reflexivity|]); reflexivity.
  Qed.
  Lemma gls_coefficients b p g b' g' r : bootstrap_GLS X b p g = (b', g', r) -> same_coefficients b b'.
  Proof.
    intros H. assert (K := gls_cases b p g). rewrite H in K. inversion K; subst; repeat (split; [reflexivity|]); reflexivity.
  Qed.
  Lemma gls_failed b p g b' g' e : bootstrap_GLS X b p g = (b', g', Raise e) -> same_fit b b'.
  Proof.
    intros H. assert (K := gls_cases b p g). rewrite H in K. inversion K; subst; repeat (split; [reflexivity|]); reflexivity.
  Qed.
  Lemma C36_none_proof b p g : (forall x, In x (b_dt b) -> (x < l_start_dt p)%R) ->
    exists b' g', bootstrap_GLS X b p g = (b', g', Raise IndexError)
      /\ same_statistics b b' /\ same_coefficients b b' /\ same_fit b b' /\ b_covariance b' = b_covariance b.
  Proof.
    intros H. destruct (bootstrap_GLS X b p g) as [[b' g'] r] eqn:E.
    assert (K := gls_cases b p g). rewrite E in K.
    assert (A : forall r, ~ first_at_least (l_start_dt p) (b_dt b) r).
    { intros r0 (x & H1 & H2 & _). apply nth_error_In in H1. specialize (H x H1). lra. }
    inversion K; subst; try (exfalso; eapply A; eassumption).
    exists (set_settings b p), g'. split; [reflexivity|].
    split; [eapply gls_statistics; eauto|]. split; [eapply gls_coefficients; eauto|].
    split; [eapply gls_failed; eauto|reflexivity].
  Qed.
  Lemma C36_suffix_proof b b1 p g r r1 b' g' o b1' g1' o1 :
    first_at_least (l_start_dt p) (b_dt b) r -> first_at_least (l_start_dt p) (b_dt b1) r1 ->
    fit_data b r = fit_data b1 r1 ->
    bootstrap_GLS X b p g = (b', g', o) -> bootstrap_GLS X b1 p g = (b1', g1', o1) ->
    o = o1 /\ g' = g1' /\ (o = Ok tt -> b_gradient b' = b_gradient b1' /\ b_intercept b' = b_intercept b1'
      /\ b_flatchain b' = b_flatchain b1' /\ b_covariance b' = b_covariance b1').
  Proof.
    intros F F1 D H H1. unfold bootstrap_GLS in H, H1.
    change (b_dt (set_settings b p)) with (b_dt b) in H. change (b_dt (set_settings b1 p)) with (b_dt b1) in H1.
    rewrite (find_regime_of_first _ _ _ F) in H. rewrite (find_regime_of_first _ _ _ F1) in H1.
    assert (EG : generate_covariance_matrix X (set_settings b p) p r = generate_covariance_matrix X (set_settings b1 p) p r1)
      by (apply generate_data; exact D).
    rewrite EG in H. set (g0 := match l_random_state p with Some rs => _ | None => g end) in *.
    destruct (generate_covariance_matrix X (set_settings b1 p) p r1) as [[raw|] [cov|e]].
    - assert (ES : sample_gls X (set_covariance (set_settings b p) cov) p r cov g0
                 = sample_gls X (set_covariance (set_settings b1 p) cov) p r1 cov g0) by (apply sample_data; exact D).
      rewrite ES in H. destruct (sample_gls X _ p r1 cov g0) as [g2 [chain|e]].
      + destruct (column 0 chain) as [gr|e]; destruct (l_fit_intercept p); try destruct (column 1 chain) as [c|e']; cbn [bind] in H, H1;
          injection H as <- <- <-; injection H1 as <- <- <-;
          (split; [reflexivity|]; split; [reflexivity|]; intros Hbad; try discriminate Hbad; cbn; auto).
      + injection H as <- <- <-; injection H1 as <- <- <-. split; [reflexivity|]. split; [reflexivity|discriminate].
    - injection H as <- <- <-; injection H1 as <- <- <-. split; [reflexivity|]. split; [reflexivity|discriminate].
    - injection H as <- <- <-; injection H1 as <- <- <-. split; [reflexivity|]. split; [reflexivity|discriminate].
    - injection H as <- <- <-; injection H1 as <- <- <-. split; [reflexivity|]. split; [reflexivity|discriminate].
  Qed.
End Fit.

(** ** C37 *)
Lemma Rof20000 : @nofZ R _ 20000 = 20000%R.
Proof. numR. reflexivity. Qed.
Lemma diffusion_samples_units dims (gr : list R) : (0 < dims)%nat ->
  diffusion_samples dims gr = map (fun x => in_cm2_per_s (einstein dims x)) gr.
Proof.
  intros Hd. unfold diffusion_samples. apply map_ext. intros x. rewrite nofnat_R. numR.
  unfold in_cm2_per_s, einstein, angstrom_in_cm, ps_in_s.
  assert (P : (0 < INR dims)%R) by (now apply lt_0_INR). field. lra.
Qed.
Lemma jump_samples_units dims natoms (gr : list R) : (0 < dims)%nat -> (0 < natoms)%nat ->
  jump_samples dims natoms gr = map (fun x => in_cm2_per_s (einstein dims x) / INR natoms)%R gr.
Proof.
  intros Hd Hn. unfold jump_samples. apply map_ext. intros x. rewrite !nofnat_R. numR.
  unfold in_cm2_per_s, einstein, angstrom_in_cm, ps_in_s.
  assert (P : (0 < INR dims)%R) by (now apply lt_0_INR). assert (Q : (0 < INR natoms)%R) by (now apply lt_0_INR). field. lra.
Qed.
Lemma conversion_units (k : Consts R) (t vol d : R) : k_NA k <> 0%R -> k_R k <> 0%R -> t <> 0%R -> vol <> 0%R ->
  (d * conductivity_conversion k t vol)%R
  = in_milli (nernst_einstein (k_NA k) (k_e k) (k_R k) (in_cm3 vol) t d).
Proof.
  intros H1 H2 H3 H4. unfold conductivity_conversion, in_milli, nernst_einstein, in_cm3, angstrom_in_cm, nsq. numR.
  field. repeat split; assumption.
Qed.
Section Fit2.
  Context {G Seed RS : Type} (X : Ext R G Seed RS).
  Lemma gls_ok_gradient b p g b' g' : bootstrap_GLS X b p g = (b', g', Ok tt) ->
    exists chain gr, b_flatchain b' = Some chain /\ b_gradient b' = Some gr /\ column 0 chain = Ok gr
      /\ (l_fit_intercept p = true -> exists c, b_intercept b' = Some c /\ column 1 chain = Ok c)
      /\ (l_fit_intercept p = false -> b_intercept b' = None).
  Proof.
    intros H. assert (K := gls_cases X b p g). rewrite H in K. inversion K as [| | | |r g0 g1 raw cov chain gr ic F E0 EG ES EC EI]; subst.
    exists chain, gr. repeat (split; [reflexivity || assumption|]). split.
    - intros Hf. destruct EI as [[_ (c & E & ->)]|[E _]]; [exists c; now split|congruence].
    - intros Hf. destruct EI as [[E _]|[_ ->]]; [congruence|reflexivity].
  Qed.
  (** The three public methods: what a successful call stores. *)
  Lemma diffusion_ok b p g b' g' : diffusion X b p g = (b', g', Ok tt) ->
    exists b1 gr, bootstrap_GLS X b p g = (b1, g', Ok tt) /\ b_gradient b1 = Some gr
      /\ b' = set_D b1 (diffusion_samples (b_dims b) gr).
  Proof.
    unfold diffusion. destruct (bootstrap_GLS X b p g) as [[b1 g1] [[]|e]] eqn:E; [|discriminate].
    destruct (gls_ok_gradient _ _ _ _ _ E) as (chain & gr & _ & Eg & _).
    rewrite Eg. cbn [samples_of opt_res]. intros H. injection H as <- <-. exists b1, gr. split; [reflexivity|]. split; [exact Eg|].
    now rewrite (proj2 (proj2 (proj2 (proj2 (proj2 (proj2 (proj2 (proj2 (proj2 (proj2 (proj2 (proj2 (proj2 (proj2 (proj2 (proj2 (proj2 (gls_statistics X _ _ _ _ _ _ E)))))))))))))))))).
  Qed.
  Lemma jump_ok b p g b' g' : jump_diffusion X b p g = (b', g', Ok tt) ->
    exists b1 gr d0, bootstrap_GLS X b p g = (b1, g', Ok tt) /\ b_gradient b1 = Some gr
      /\ nth_error (b_displacements b) 0 = Some d0
      /\ b' = set_DJ b1 (jump_samples (b_dims b) (length (a_rows d0)) gr).
  Proof.
    unfold jump_diffusion. destruct (bootstrap_GLS X b p g) as [[b1 g1] [[]|e]] eqn:E; [|discriminate].
    destruct (gls_ok_gradient _ _ _ _ _ E) as (chain & gr & _ & Eg & _).
    assert (St := gls_statistics X _ _ _ _ _ _ E). unfold same_statistics in St.
    assert (E1 : b_displacements b1 = b_displacements b) by tauto. assert (E2 : b_dims b1 = b_dims b) by tauto. clear St.
    rewrite Eg, E1, E2. cbn [samples_of opt_res].
    change (py_index (b_displacements b) 0) with (py_index (b_displacements b) (Z.of_nat 0)). rewrite py_index_nat.
    destruct (nth_error (b_displacements b) 0) as [d0|] eqn:Ed; cbn [opt_res]; [|discriminate].
    intros H. injection H as <- <-. exists b1, gr, d0. auto.
  Qed.
  Lemma conductivity_ok k b p t vol g b' g' : conductivity X k b p t vol g = (b', g', Ok tt) ->
    exists b1 gr, bootstrap_GLS X b p g = (b1, g', Ok tt) /\ b_gradient b1 = Some gr
      /\ b' = set_sigma b1 (map (fun d => d * conductivity_conversion k t vol)%R (diffusion_samples (b_dims b) gr)).
  Proof.
    unfold conductivity. destruct (bootstrap_GLS X b p g) as [[b1 g1] [[]|e]] eqn:E; [|discriminate].
    destruct (gls_ok_gradient _ _ _ _ _ E) as (chain & gr & _ & Eg & _).
    assert (St := gls_statistics X _ _ _ _ _ _ E). unfold same_statistics in St.
    assert (E2 : b_dims b1 = b_dims b) by tauto. clear St.
    rewrite Eg, E2. cbn [samples_of opt_res]. intros H. injection H as <- <-. exists b1, gr. auto.
  Qed.
  Lemma C37_diffusion_proof b p g b' g' : (0 < b_dims b)%nat -> diffusion X b p g = (b', g', Ok tt) ->
    exists gr, b_gradient b' = Some gr
      /\ b_D b' = Some (map (fun x => in_cm2_per_s (einstein (b_dims b) x)) gr).
  Proof.
    intros Hd H. destruct (diffusion_ok _ _ _ _ _ H) as (b1 & gr & _ & Eg & ->). exists gr. split; [exact Eg|].
    cbn. now rewrite diffusion_samples_units.
  Qed.
  Lemma C37_jump_proof b p g b' g' d0 : (0 < b_dims b)%nat -> nth_error (b_displacements b) 0 = Some d0 ->
    (0 < length (a_rows d0))%nat ->
    jump_diffusion X b p g = (b', g', Ok tt) ->
    exists gr, b_gradient b' = Some gr
      /\ b_DJ b' = Some (map (fun x => in_cm2_per_s (einstein (b_dims b) x) / INR (length (a_rows d0)))%R gr).
  Proof.
    intros Hd E0 Hn H. destruct (jump_ok _ _ _ _ _ H) as (b1 & gr & d & _ & Eg & Ed & ->). exists gr. split; [exact Eg|].
    rewrite E0 in Ed. injection Ed as <-. cbn. now rewrite jump_samples_units.
  Qed.
  Lemma C37_sigma_proof k b p t vol g b' g' : (0 < b_dims b)%nat ->
    k_NA k <> 0%R -> k_R k <> 0%R -> t <> 0%R -> vol <> 0%R ->
    conductivity X k b p t vol g = (b', g', Ok tt) ->
    exists gr, b_gradient b' = Some gr
      /\ b_sigma b' = Some (map (fun x => in_milli (nernst_einstein (k_NA k) (k_e k) (k_R k) (in_cm3 vol) t
                                              (in_cm2_per_s (einstein (b_dims b) x)))) gr).
  Proof.
    intros Hd H1 H2 H3 H4 H. destruct (conductivity_ok _ _ _ _ _ _ _ _ H) as (b1 & gr & _ & Eg & ->). exists gr. split; [exact Eg|].
    cbn [set_sigma b_sigma]. rewrite diffusion_samples_units by exact Hd. rewrite map_map. f_equal. apply map_ext. intros x.
    now apply conversion_units.
  Qed.
  (** Scaling with volume and temperature, for a fit with the same random numbers. *)
  Lemma C37_scaling_proof k b p t vol t' vol' g b1 g1 b2 g2 s : 
    k_NA k <> 0%R -> k_R k <> 0%R -> t <> 0%R -> vol <> 0%R -> t' <> 0%R -> vol' <> 0%R ->
    conductivity X k b p t vol g = (b1, g1, Ok tt) -> conductivity X k b p t' vol' g = (b2, g2, Ok tt) ->
    b_sigma b1 = Some s -> b_sigma b2 = Some (map (fun x => x * ((vol * t) / (vol' * t')))%R s).
  Proof.
    intros H1 H2 H3 H4 H5 H6 E1 E2 Es.
    destruct (conductivity_ok _ _ _ _ _ _ _ _ E1) as (c1 & gr & F1 & G1 & ->).
    destruct (conductivity_ok _ _ _ _ _ _ _ _ E2) as (c2 & gr' & F2 & G2 & ->).
    rewrite F1 in F2. injection F2 as <- _. rewrite G1 in G2. injection G2 as <-.
    cbn [set_sigma b_sigma] in *. injection Es as <-. f_equal. rewrite map_map. apply map_ext. intros d.
    unfold conductivity_conversion, nsq. numR. field. repeat split; assumption.
  Qed.
End Fit2.

(** ** C38 *)
Section Sampling.
  Context {G Seed RS : Type} (X : Ext R G Seed RS).

  Lemma gradient_cases dt n ld w th lp : log_likelihood dt n (ld : R) w th = Ok (Some lp) -> gradient_ok th.
  Proof.
    unfold log_likelihood. intros H. inv_bind H x E. apply py_index_ok_inv in E as E'.
    destruct th as [|y th]; [destruct E'|]. 
    change (py_index (y :: th) 0) with (py_index (y :: th) (Z.of_nat 0)) in E. rewrite py_index_nat in E. cbn in E. injection E as ->.
    revert H. numR. destruct (Rltb x 0) eqn:El; [discriminate|]. apply Rltb_false in El. intros _. exists x, th. split; [reflexivity|lra].
  Qed.
  Definition good (ll : list R -> Res (option R)) : Prop := forall th lp, ll th = Ok (Some lp) -> gradient_ok th.
  Lemma move_walker_ok ll w p w' : good ll -> gradient_ok (fst w) -> move_walker ll w p = Ok w' -> gradient_ok (fst w').
  Proof.
    intros Hg Hw H. destruct p as [[[q f] lu]|]; cbn in H; [|injection H as <-; exact Hw].
    inv_bind H lp E. destruct (accepts w lp f lu) eqn:Ea; injection H as <-; [|exact Hw].
    cbn [fst]. destruct lp as [l|]; [eapply Hg; eauto|discriminate].
  Qed.
  Lemma move_walkers_ok ll : good ll -> forall ws ps ws', Forall (fun w => gradient_ok (fst w)) ws ->
    move_walkers ll ws ps = Ok ws' -> Forall (fun w => gradient_ok (fst w)) ws'.
  Proof.
    intros Hg ws. induction ws as [|w ws IH]; intros ps ws' Hw H.
    - cbn in H. injection H as <-. constructor.
    - destruct ps as [|p ps]; cbn in H; [injection H as <-; exact Hw|].
      inv_bind H w1 E1. inv_bind H rest E2. injection H as <-. inversion Hw; subst. constructor; [eapply move_walker_ok; eauto|eapply IH; eauto].
  Qed.
  Lemma half_step_ok ll ws g ws' g' : good ll -> Forall (fun w => gradient_ok (fst w)) ws ->
    half_step X ll ws g = Ok (ws', g') -> Forall (fun w => gradient_ok (fst w)) ws'.
  Proof.
    intros Hg Hw H. unfold half_step in H. destruct (x_propose X g (map fst ws)) as [ps g1].
    inv_bind H w1 E. injection H as <- <-. eapply move_walkers_ok; eauto.
  Qed.
  Lemma run_chain_ok ll steps : good ll -> forall ws g chain, Forall (fun w => gradient_ok (fst w)) ws ->
    run_chain X ll steps ws g = Ok chain -> Forall (Forall gradient_ok) chain.
  Proof.
    intros Hg. induction steps as [|k IH]; intros ws g chain Hw H; cbn in H; [injection H as <-; constructor|].
    inv_bind H a1 E1. destruct a1 as [ws1 g1]. inv_bind H a2 E2. destruct a2 as [ws2 g2]. inv_bind H rest E3. injection H as <-.
    assert (W1 := half_step_ok _ _ _ _ _ Hg Hw E1). assert (W2 := half_step_ok _ _ _ _ _ Hg W1 E2).
    constructor; [|eapply IH; eauto]. apply Forall_forall. intros th Hin. apply in_map_iff in Hin as (w & <- & Hin).
    rewrite Forall_forall in W2. now apply W2.
  Qed.
  Lemma run_mcmc_ok ll pos nd steps g chain : good ll -> Forall gradient_ok pos ->
    run_mcmc X ll pos nd steps g = Ok chain -> Forall (Forall gradient_ok) chain.
  Proof.
    intros Hg Hp H. unfold run_mcmc in H. inv_bind H u1 E1. inv_bind H lps E2. inv_bind H u3 E3. inv_bind H u4 E4. inv_bind H u5 E5.
    eapply run_chain_ok; [exact Hg| |exact H]. apply Forall_forall. intros [th lp] Hin. apply in_combine_l in Hin.
    rewrite Forall_forall in Hp. now apply Hp.
  Qed.
  Lemma py_from_In {T} z (l : list T) y : In y (py_from z l) -> In y l.
  Proof. unfold py_from. intros H. rewrite <- (firstn_skipn (py_bound (length l) z) l). apply in_or_app. now right. Qed.
  Lemma every_In {T} k (l : list T) y : forall c, In y (every k c l) -> In y l.
  Proof.
    induction l as [|x l IH]; intros c H; [destruct H|]. cbn in H. destruct c as [|c].
    - destruct H as [<-|H]; [now left|right; eapply IH; eauto]. - right. eapply IH; eauto.
  Qed.
  Lemma py_stride_In {T} k (l l' : list T) y : py_stride k l = Ok l' -> In y l' -> In y l.
  Proof.
    unfold py_stride. destruct (k =? 0); [discriminate|]. destruct (0 <? k); intros H Hy; injection H as <-.
    - eapply every_In; eauto. - apply every_In in Hy. now apply in_rev.
  Qed.
  Lemma get_chain_In chain discard thin m (th : list R) : get_chain chain discard thin = Ok m -> In th m ->
    exists rows, In rows chain /\ In th rows.
  Proof.
    unfold get_chain. intros H Hin. inv_bind H sub E. injection H as <-. apply in_concat in Hin as (rows & H1 & H2).
    exists rows. split; [|exact H2]. eapply py_from_In, py_stride_In; eauto.
  Qed.
  Lemma column0_ok chain gr : Forall gradient_ok chain -> column 0 chain = Ok gr -> all_ge 0 gr.
  Proof.
    unfold column. intros H. revert gr. induction H as [|th chain Hth _ IH]; intros gr E; [injection E as <-; constructor|].
    destruct Hth as (x & rest & -> & Hx). cbn [mapM] in E.
    change (py_index (x :: rest) 0) with (py_index (x :: rest) (Z.of_nat 0)) in E. rewrite py_index_nat in E. cbn [nth_error opt_res bind] in E.
    inv_bind E t E1. injection E as <-. constructor; [exact Hx|now apply IH].
  Qed.
  Lemma C38_sampler_proof dt n (ld : R) w pos nd steps g chain discard thin m :
    Forall gradient_ok pos -> run_mcmc X (log_likelihood dt n ld w) pos nd steps g = Ok chain ->
    get_chain chain discard thin = Ok m -> Forall gradient_ok m.
  Proof.
    intros Hp H E. assert (K := run_mcmc_ok (log_likelihood dt n ld w) pos nd steps g chain (fun th lp => gradient_cases dt n ld w th lp) Hp H).
    apply Forall_forall. intros th Hin. destruct (get_chain_In _ _ _ _ _ E Hin) as (rows & H1 & H2).
    rewrite Forall_forall in K. specialize (K rows H1). rewrite Forall_forall in K. now apply K.
  Qed.
  Notation starts_positive := (SpecRun.starts_positive X).
  Lemma milli_R : @milli R _ = (1/1000)%R.
  Proof. unfold milli. numR. reflexivity. Qed.
  Lemma initial_ok ml noise : gradient_ok ml ->
    Forall (fun row => length row = length ml /\ Forall (fun z => -1000 <= z)%R row) noise ->
    Forall gradient_ok (initial_positions ml noise).
  Proof.
    intros (m & rest & -> & Hm) Hn. unfold initial_positions. apply Forall_forall. intros th Hin.
    apply in_map_iff in Hin as (row & <- & Hr). rewrite Forall_forall in Hn. destruct (Hn row Hr) as [Hl Hz].
    destruct row as [|z row]; [discriminate|]. inversion Hz; subst.
    unfold zip_with. cbn [combine map fst snd]. eexists _, _. split; [reflexivity|]. rewrite milli_R. numR. nra.
  Qed.
  Lemma C38_gls_proof b p g b' g' : starts_positive -> bootstrap_GLS X b p g = (b', g', Ok tt) ->
    exists gr, b_gradient b' = Some gr /\ all_ge 0 gr.
  Proof.
    intros [Hmin Hrand] H. assert (K := gls_cases X b p g). rewrite H in K.
    inversion K as [| | | |r g0 g1 raw cov chain gr ic F E0 EG ES EC EI]; subst.
    exists gr. split; [reflexivity|]. eapply column0_ok; [|exact EC].
    unfold sample_gls in ES. set (setup := bind _ _) in ES.
    destruct setup as [[ll ml]|e] eqn:Es; [|discriminate]. unfold setup in Es. clear setup.
    inv_bind Es ld E1. inv_bind Es inv E2. inv_bind Es slope E3. inv_bind Es ml' E4. injection Es as <- <-.
    destruct (x_randn X _ _ _) as [noise g2] eqn:En. injection ES as _ ES. inv_bind ES ch E5.
    assert (Hn := Hrand (match l_random_state p with Some rs => x_seed X (x_seed_of X rs) | None => g end)
                        (Z.to_nat (l_n_walkers p)) (length ml')).
    rewrite En in Hn. cbn [fst] in Hn.
    eapply C38_sampler_proof; [|exact E5|exact ES]. apply initial_ok; [eapply Hmin; exact E4|exact Hn].
  Qed.
  Lemma C38_diffusion_proof b p g b' g' : starts_positive -> (0 < b_dims b)%nat -> diffusion X b p g = (b', g', Ok tt) ->
    exists d, b_D b' = Some d /\ all_ge 0 d.
  Proof.
    intros HS Hd H. destruct (diffusion_ok X _ _ _ _ _ H) as (b1 & gr & E & Eg & ->).
    destruct (C38_gls_proof _ _ _ _ _ HS E) as (gr' & Eg' & Hg). rewrite Eg in Eg'. injection Eg' as <-.
    eexists. split; [reflexivity|]. rewrite diffusion_samples_units by exact Hd.
    apply Forall_forall. intros y Hy. apply in_map_iff in Hy as (x & <- & Hx). unfold all_ge in Hg. rewrite Forall_forall in Hg.
    specialize (Hg x Hx). unfold in_cm2_per_s, einstein, angstrom_in_cm, ps_in_s.
    assert (P : (0 < INR (b_dims b))%R) by (now apply lt_0_INR).
    apply Rmult_le_pos; [|lra]. apply Rle_mult_inv_pos; lra.
  Qed.
  Lemma C38_jump_proof b p g b' g' : starts_positive -> (0 < b_dims b)%nat ->
    Forall (fun d => 0 < length (a_rows d))%nat (b_displacements b) -> jump_diffusion X b p g = (b', g', Ok tt) ->
    exists d, b_DJ b' = Some d /\ all_ge 0 d.
  Proof.
    intros HS Hd Ha H. destruct (jump_ok X _ _ _ _ _ H) as (b1 & gr & d0 & E & Eg & E0 & ->).
    destruct (C38_gls_proof _ _ _ _ _ HS E) as (gr' & Eg' & Hg). rewrite Eg in Eg'. injection Eg' as <-.
    assert (Hn : (0 < length (a_rows d0))%nat) by (rewrite Forall_forall in Ha; apply Ha; eapply nth_error_In; eauto).
    eexists. split; [reflexivity|]. rewrite jump_samples_units by assumption.
    apply Forall_forall. intros y Hy. apply in_map_iff in Hy as (x & <- & Hx). unfold all_ge in Hg. rewrite Forall_forall in Hg.
    specialize (Hg x Hx). unfold in_cm2_per_s, einstein, angstrom_in_cm, ps_in_s.
    assert (P : (0 < INR (b_dims b))%R) by (now apply lt_0_INR). assert (Q : (0 < INR (length (a_rows d0)))%R) by (now apply lt_0_INR).
    apply Rle_mult_inv_pos; [|exact Q]. apply Rmult_le_pos; [|lra]. apply Rle_mult_inv_pos; lra.
  Qed.
  Lemma C38_sigma_proof k b p t vol g b' g' : starts_positive -> (0 < b_dims b)%nat ->
    (0 < k_NA k)%R -> (0 < k_R k)%R -> (0 < t)%R -> (0 < vol)%R -> conductivity X k b p t vol g = (b', g', Ok tt) ->
    exists d, b_sigma b' = Some d /\ all_ge 0 d.
  Proof.
    intros HS Hd H1 H2 H3 H4 H. destruct (conductivity_ok X _ _ _ _ _ _ _ _ H) as (b1 & gr & E & Eg & ->).
    destruct (C38_gls_proof _ _ _ _ _ HS E) as (gr' & Eg' & Hg). rewrite Eg in Eg'. injection Eg' as <-.
    eexists. split; [reflexivity|]. rewrite diffusion_samples_units by exact Hd. rewrite map_map.
    apply Forall_forall. intros y Hy. apply in_map_iff in Hy as (x & <- & Hx). unfold all_ge in Hg. rewrite Forall_forall in Hg.
    specialize (Hg x Hx). rewrite conversion_units by lra.
    unfold in_milli, nernst_einstein, in_cm3, in_cm2_per_s, einstein, angstrom_in_cm, ps_in_s.
    assert (P : (0 < INR (b_dims b))%R) by (now apply lt_0_INR).
    apply Rmult_le_pos; [|lra]. apply Rle_mult_inv_pos.
    - apply Rmult_le_pos; [nra|]. apply Rmult_le_pos; [|lra]. apply Rle_mult_inv_pos; lra.
    - apply Rmult_lt_0_compat; [|exact H3]. apply Rmult_lt_0_compat; [lra|]. apply Rdiv_lt_0_compat; assumption.
  Qed.


  Lemma average_between lo hi l : l <> [] -> all_between lo hi l -> (lo <= average l <= hi)%R.
  Proof.
    intros Hne H. assert (L : (0 < INR (length l))%R) by (apply lt_0_INR; destruct l; [congruence|cbn; lia]).
    assert (B : (INR (length l) * lo <= rsum l <= INR (length l) * hi)%R).
    { clear Hne L. induction H as [|x l Hx _ IH]; [unfold rsum; cbn; lra|]. rewrite rsum_cons. cbn [length]. rewrite S_INR. lra. }
    unfold average. split.
    - apply (Rmult_le_reg_r (INR (length l))); [exact L|]. unfold Rdiv. rewrite Rmult_assoc, Rinv_l by lra. lra.
    - apply (Rmult_le_reg_r (INR (length l))); [exact L|]. unfold Rdiv. rewrite Rmult_assoc, Rinv_l by lra. lra.
  Qed.
  Lemma mapM_nth_In {T} (l : list T) ix s : mapM (fun i => opt_res IndexError (nth_error l i)) ix = Ok s ->
    length s = length ix /\ forall y, In y s -> In y l.
  Proof.
    revert s. induction ix as [|i ix IH]; intros s H; cbn in H; [injection H as <-; split; [reflexivity|intros y []]|].
    inv_bind H y E. inv_bind H t Et. injection H as <-. destruct (IH t Et) as [L I].
    split; [cbn; congruence|]. intros z [<-|Hz]; [|now apply I].
    destruct (nth_error l i) as [w|] eqn:Ew; cbn in E; [injection E as <-; eapply nth_error_In; eauto|discriminate].
  Qed.
  Notation draws_enough := (SpecRun.draws_enough X).
  Lemma bootstrap_n_between lo hi l ns k : draws_enough -> all_between lo hi l -> forall g v g', bootstrap_n X g l ns k = Ok (v, g') ->
    length v = k /\ all_between lo hi v.
  Proof.
    intros HD HB. induction k as [|k IH]; intros g v g' H; cbn [bootstrap_n] in H; [injection H as <- <-; split; [reflexivity|constructor]|].
    inv_bind H n En. inv_bind H a Ea. destruct a as [s g1]. inv_bind H c Ec. destruct c as [rest g2]. injection H as <- <-.
    destruct (IH _ _ _ Ec) as [L B]. split; [cbn; congruence|]. constructor; [|exact B].
    unfold resample in Ea. destruct (n <? 1) eqn:E1; [discriminate|]. apply Z.ltb_ge in E1.
    specialize (HD g (length l) (Z.to_nat n)). destruct (x_randints X g (length l) (Z.to_nat n)) as [ix g3].
    cbn [fst] in HD. inv_bind Ea s' Es. injection Ea as <- <-. destruct (mapM_nth_In _ _ _ Es) as [Ls Is].
    change (lo <= nmean s' <= hi)%R; rewrite nmean_average. apply average_between; [destruct s'; cbn in Ls; [lia|discriminate]|].
    apply Forall_forall. intros y Hy. unfold all_between in HB. rewrite Forall_forall in HB. apply HB. now apply Is.
  Qed.
  Lemma resample_loop_between lo hi l ns mr alpha : draws_enough -> all_between lo hi l -> forall fuel g values v w g',
    all_between lo hi values -> resample_loop X fuel g l ns mr alpha values = Some (Ok (v, w, g')) -> all_between lo hi v.
  Proof.
    intros HD HB fuel. induction fuel as [|f IH]; intros g values v w g' Hv H; cbn [resample_loop] in H;
      destruct (_ && _); try discriminate; try (injection H as <- _ _; exact Hv).
    destruct (bootstrap_n X g l ns 100) as [[more g1]|e] eqn:E; [|discriminate].
    eapply IH; [|exact H]. apply Forall_app. split; [exact Hv|]. now apply (bootstrap_n_between lo hi l ns 100 HD HB _ _ _ E).
  Qed.
  Lemma C40_proof lo hi l g ns n_re mr alpha v w g' : draws_enough -> all_between lo hi l ->
    sample_until_normal X g l ns n_re mr alpha = Some (Ok (v, w, g')) -> all_between lo hi v.
  Proof.
    intros HD HB H. unfold sample_until_normal in H.
    destruct (bootstrap_n X g l ns (Z.to_nat n_re)) as [[values g1]|e] eqn:E; [|discriminate].
    eapply resample_loop_between; [exact HD|exact HB| |exact H]. now apply (bootstrap_n_between lo hi l ns _ HD HB _ _ _ E).
  Qed.

  (** ** C39 *)
  Lemma bootstrap_n_length l ns k : forall g v g', bootstrap_n X g l ns k = Ok (v, g') -> length v = k.
  Proof.
    induction k as [|k IH]; intros g v g' H; cbn [bootstrap_n] in H; [injection H as <- <-; reflexivity|].
    inv_bind H n En. inv_bind H a Ea. destruct a as [s g1]. inv_bind H c Ec. destruct c as [rest g2]. injection H as <- <-.
    cbn. f_equal. eapply IH; eauto.
  Qed.
  Notation extended := (SpecRun.extended X).
  Lemma resample_loop_spec l ns mr (alpha : R) : forall fuel g values, mr - Z.of_nat (length values) <= Z.of_nat fuel ->
    exists res, resample_loop X fuel g l ns mr alpha values = Some res
      /\ forall v w g', res = Ok (v, w, g') -> firstn (length values) v = values
         /\ extended alpha mr (length values) v /\ w = (mr <=? Z.of_nat (length v)).
  Proof.
    intros fuel. induction fuel as [|f IH]; intros g values Hf; cbn [resample_loop].
    - numR. destruct (Rltb _ _) eqn:E1; cbn [andb].
      + destruct (Z.of_nat (length values) <? mr) eqn:E2; [apply Z.ltb_lt in E2; lia|]. apply Z.ltb_ge in E2.
        eexists. split; [reflexivity|]. intros v w g' H. injection H as <- <- _. split; [apply firstn_all|]. split; [|reflexivity].
        exists 0%nat. split; [lia|]. split; [intros i Hi; lia|now right].
      + apply Rltb_false in E1. eexists. split; [reflexivity|]. intros v w g' H. injection H as <- <- _.
        split; [apply firstn_all|]. split; [|reflexivity].
        exists 0%nat. split; [lia|]. split; [intros i Hi; lia|now left].
    - numR. destruct (Rltb _ _) eqn:E1; cbn [andb].
      + destruct (Z.of_nat (length values) <? mr) eqn:E2.
        * apply Z.ltb_lt in E2. apply Rltb_true in E1.
          destruct (bootstrap_n X g l ns 100) as [[more g1]|e] eqn:Eb; [|eexists; split; [reflexivity|discriminate]].
          assert (Lm := bootstrap_n_length _ _ _ _ _ _ Eb).
          destruct (IH g1 (values ++ more)%list) as (res & Er & Hr); [rewrite app_length; lia|].
          exists res. split; [exact Er|]. intros v w g' Hv. destruct (Hr v w g' Hv) as (P & (k & K1 & K2 & K3) & Hw).
          rewrite app_length, Lm in P, K1, K2.
          assert (P' : firstn (length values) v = values).
          { rewrite <- (firstn_all values) at 2. replace (length values) with (Nat.min (length values) (length values + 100)) at 1 by lia.
            rewrite <- firstn_firstn, P, firstn_app, Nat.sub_diag, firstn_O, app_nil_r. reflexivity. }
          split; [exact P'|]. split; [|exact Hw]. exists (S k). split; [lia|]. split; [|exact K3].
          intros [|i] Hi; [rewrite Nat.mul_0_r, Nat.add_0_r, P'; now split|].
          specialize (K2 i ltac:(lia)). replace (length values + 100 * S i)%nat with (length values + 100 + 100 * i)%nat by lia. exact K2.
        * apply Z.ltb_ge in E2.
          eexists. split; [reflexivity|]. intros v w g' H. injection H as <- <- _. split; [apply firstn_all|]. split; [|reflexivity].
          exists 0%nat. split; [lia|]. split; [intros i Hi; lia|now right].
      + apply Rltb_false in E1. eexists. split; [reflexivity|]. intros v w g' H. injection H as <- <- _.
        split; [apply firstn_all|]. split; [|reflexivity].
        exists 0%nat. split; [lia|]. split; [intros i Hi; lia|now left].
  Qed.
  Lemma C39_proof g l ns n_re mr (alpha : R) :
    exists res, sample_until_normal X g l ns n_re mr alpha = Some res
      /\ forall v w g', res = Ok (v, w, g') -> extended alpha mr (Z.to_nat n_re) v /\ w = (mr <=? Z.of_nat (length v)).
  Proof.
    unfold sample_until_normal. destruct (bootstrap_n X g l ns (Z.to_nat n_re)) as [[values g1]|e] eqn:E;
      [|eexists; split; [reflexivity|discriminate]].
    assert (L := bootstrap_n_length _ _ _ _ _ _ E).
    destruct (resample_loop_spec l ns mr alpha (Z.to_nat mr) g1 values) as (res & Er & Hr); [lia|].
    exists res. split; [exact Er|]. intros v w g' Hv. destruct (Hr v w g' Hv) as (_ & He & Hw). rewrite L in He. now split.
  Qed.
  Lemma C39_bound_proof g l ns n_re mr (alpha : R) v w g' : 0 <= n_re ->
    sample_until_normal X g l ns n_re mr alpha = Some (Ok (v, w, g')) ->
    (exists k, Z.of_nat (length v) = n_re + 100 * k /\ 0 <= k)
    /\ (Z.of_nat (length v) = n_re \/ Z.of_nat (length v) < mr + 100)
    /\ (w = false -> (alpha <= x_normaltest X v)%R)
    /\ ((x_normaltest X v < alpha)%R -> w = true).
  Proof.
    intros Hn H. destruct (C39_proof g l ns n_re mr alpha) as (res & Er & Hr). rewrite H in Er. injection Er as <-.
    destruct (Hr v w g' eq_refl) as ((k & K1 & K2 & K3) & ->).
    split; [exists (Z.of_nat k); lia|]. split.
    - destruct k as [|k]; [left; lia|right]. destruct (K2 k ltac:(lia)) as [_ B]. lia.
    - split.
      + intros Hw. apply Z.leb_gt in Hw. destruct K3 as [K3|K3]; [exact K3|lia].
      + intros Hw. apply Z.leb_le. destruct K3 as [K3|K3]; [lra|exact K3].
  Qed.

  (** ** C44 *)
  Lemma C44_gls_proof b p g g2 : l_random_state p <> None -> bootstrap_GLS X b p g = bootstrap_GLS X b p g2.
  Proof. intros H. unfold bootstrap_GLS. destruct (l_random_state p); [reflexivity|congruence]. Qed.
  Lemma C44_methods_proof b p g g2 k t vol : l_random_state p <> None ->
    diffusion X b p g = diffusion X b p g2 /\ jump_diffusion X b p g = jump_diffusion X b p g2
    /\ conductivity X k b p t vol g = conductivity X k b p t vol g2.
  Proof.
    intros H. unfold diffusion, jump_diffusion, conductivity. now rewrite (C44_gls_proof b p g g2 H).
  Qed.

  Lemma C44_seed_proof b p g g2 rs rs' : x_seed_of X rs = x_seed_of X rs' ->
    bootstrap_GLS X b (with_state p (Some rs)) g = bootstrap_GLS X b (with_state p (Some rs')) g2.
  Proof. intros H. unfold bootstrap_GLS. cbn [with_state l_random_state]. rewrite H. reflexivity. Qed.
  (** The settings of an earlier fit of the same object do not matter either. *)
  Lemma gls_settings_proof b b' p g : same_statistics b b' -> l_random_state p <> None -> forall g2 c1 h1 o1 c2 h2 o2,
    bootstrap_GLS X b p g = (c1, h1, o1) -> bootstrap_GLS X b' p g2 = (c2, h2, o2) ->
    o1 = o2 /\ h1 = h2 /\ (o1 = Ok tt -> b_gradient c1 = b_gradient c2 /\ b_intercept c1 = b_intercept c2
      /\ b_flatchain c1 = b_flatchain c2 /\ b_covariance c1 = b_covariance c2).
  Proof.
    intros HS Hr g2 c1 h1 o1 c2 h2 o2 E1 E2. rewrite (C44_gls_proof b' p g2 g Hr) in E2.
    unfold same_statistics in HS. assert (B1 : b_dt b' = b_dt b) by tauto. assert (B2 : b_n b' = b_n b) by tauto.
    assert (B3 : b_v b' = b_v b) by tauto. assert (B4 : b_n_o b' = b_n_o b) by tauto. clear HS.
    destruct (find_regime_spec (l_start_dt p) (b_dt b)) as [(r & _ & F)|[_ F]].
    - eapply (C36_suffix_proof X b b' p g r r); [exact F|rewrite B1; exact F| |exact E1|exact E2].
      unfold fit_data. now rewrite B1, B2, B3, B4.
    - destruct (C36_none_proof X b p g F) as (c & h & E & _). destruct (C36_none_proof X b' p g ltac:(rewrite B1; exact F)) as (c' & h' & E' & _).
      rewrite E1 in E. rewrite E2 in E'. injection E as <- <- ->. injection E' as <- <- ->.
      assert (h1 = h2).
      { unfold bootstrap_GLS in E1, E2. change (b_dt (set_settings b p)) with (b_dt b) in E1. change (b_dt (set_settings b' p)) with (b_dt b') in E2.
        rewrite B1 in E2. destruct (find_regime_spec (l_start_dt p) (b_dt b)) as [(r & _ & x & K1 & K2 & _)|[EF _]].
        - apply nth_error_In in K1. specialize (F x K1). lra.
        - rewrite EF in E1, E2. congruence. }
      split; [reflexivity|]. split; [assumption|discriminate].
  Qed.
End Sampling.

(** ** C47 *)
Section Life.
  Context {G Seed RS : Type} (X : Ext R G Seed RS).
  Definition results (b : Boot R) :=
    (b_D b, b_DJ b, b_sigma b, b_intercept b, b_gradient b, b_flatchain b, b_covariance b, b_start_dt b).
  Lemma boot_step_results u q ns n_o i d b g b' g' : boot_step X u q ns n_o i d b g = Ok (b', g') -> results b' = results b.
  Proof.
    unfold boot_step. intros H. inv_bind H ds E1. inv_bind H qq E2. destruct (length qq <=? 1)%nat; [injection H as <- <-; reflexivity|].
    inv_bind H a3 E3. destruct a3 as [bo g1]. inv_bind H a4 E4. destruct a4 as [n v]. inv_bind H vi E5. inv_bind H dt E6.
    injection H as <- <-. reflexivity.
  Qed.
  Lemma boot_loop_results u q ns n_o ds : forall i b g b' g', boot_loop X u q ns n_o i ds b g = Ok (b', g') -> results b' = results b.
  Proof.
    induction ds as [|d ds IH]; intros i b g b' g' H; cbn [boot_loop] in H; [injection H as <- <-; reflexivity|].
    inv_bind H a E. destruct a as [b1 g1]. rewrite (IH _ _ _ _ _ H). eapply boot_step_results; eauto.
  Qed.
  Lemma init_results dts ds no k dim b : bootstrap_init dts ds no k dim = Ok b ->
    results b = (None, None, None, None, None, None, None, None) /\ b_displacements b <> [].
  Proof.
    unfold bootstrap_init. intros H. inv_bind H a1 E1. inv_bind H a2 E2. inv_bind H a3 E3. inv_bind H a4 E4. injection H as <-.
    split; [reflexivity|]. cbn. apply py_index_ok_inv in E3. intros ->. destruct E3.
  Qed.

  Lemma results_none b b0 : results b = results b0 -> results b0 = (None, None, None, None, None, None, None, None) -> not_fitted b.
  Proof. intros H H0. rewrite H0 in H. unfold results in H. injection H as H1 H2 H3 H4 H5 H6 H7 H8. repeat split; assumption. Qed.
  Lemma C47_fresh_msd u dts ds no g b g' : msd_bootstrap X u dts ds no g = Ok (b, g') -> not_fitted b.
  Proof.
    unfold msd_bootstrap. intros H. inv_bind H b0 E0. inv_bind H a E. destruct a as [b1 g1]. injection H as <- <-.
    eapply (results_none _ b0); [|now apply init_results in E0]. change (results (trim_n_o b1)) with (results b1). eapply boot_loop_results; eauto.
  Qed.
  Lemma C47_fresh_mstd u dts ds no g b g' : mstd_bootstrap X u dts ds no g = Ok (b, g') -> not_fitted b.
  Proof.
    unfold mstd_bootstrap. intros H. inv_bind H b0 E0. inv_bind H a E. destruct a as [b1 g1]. injection H as <- <-.
    eapply (results_none _ b0); [|now apply init_results in E0]. change (results (trim_n_o b1)) with (results b1). eapply boot_loop_results; eauto.
  Qed.
  Lemma C47_fresh_mscd u dts ds q no g b g' : mscd_bootstrap X u dts ds q no g = Ok (b, g') -> not_fitted b.
  Proof.
    unfold mscd_bootstrap. intros H. inv_bind H b0 E0. inv_bind H d0 Ed. inv_bind H a E. destruct a as [b1 g1]. injection H as <- <-.
    eapply (results_none _ b0); [|now apply init_results in E0]. change (results (trim_n_o b1)) with (results b1). eapply boot_loop_results; eauto.
  Qed.

  (** The three methods, whatever happens: the statistics are kept. *)
  Lemma C47_statistics_proof k b p t vol g : 
    (forall b' g' o, diffusion X b p g = (b', g', o) -> same_statistics b b')
    /\ (forall b' g' o, jump_diffusion X b p g = (b', g', o) -> same_statistics b b')
    /\ (forall b' g' o, conductivity X k b p t vol g = (b', g', o) -> same_statistics b b').
  Proof.
    unfold diffusion, jump_diffusion, conductivity.
    destruct (bootstrap_GLS X b p g) as [[b1 g1] r] eqn:E. assert (S := gls_statistics X _ _ _ _ _ _ E).
    split; [|split]; intros b' g' o; destruct r as [[]|e]; try (intros H; injection H as <- _ _; exact S);
      destruct (samples_of (b_gradient b1)); try destruct (py_index (b_displacements b1) 0);
      intros H; injection H as <- _ _; exact S.
  Qed.
  (** A failed call. *)
  Lemma C47_failed_proof k b p t vol g e : b_displacements b <> [] ->
    (forall b' g', diffusion X b p g = (b', g', Raise e) -> same_coefficients b b' /\ same_fit b b')
    /\ (forall b' g', jump_diffusion X b p g = (b', g', Raise e) -> same_coefficients b b' /\ same_fit b b')
    /\ (forall b' g', conductivity X k b p t vol g = (b', g', Raise e) -> same_coefficients b b' /\ same_fit b b').
  Proof.
    intros Hne. unfold diffusion, jump_diffusion, conductivity.
    destruct (bootstrap_GLS X b p g) as [[b1 g1] [[]|e1]] eqn:E.
    - destruct (gls_ok_gradient X _ _ _ _ _ E) as (ch & gr & _ & Eg & _). rewrite Eg. cbn [samples_of opt_res].
      assert (S := gls_statistics X _ _ _ _ _ _ E). destruct S as [S _]. rewrite S.
      destruct (b_displacements b) as [|d0 ds]; [congruence|].
      change (py_index (d0 :: ds) 0) with (py_index (d0 :: ds) (Z.of_nat 0)). rewrite py_index_nat. cbn [nth_error opt_res].
      repeat split; discriminate.
    - assert (S := gls_coefficients X _ _ _ _ _ _ E). assert (F := gls_failed X _ _ _ _ _ _ E).
      split; [|split]; intros b' g' H; injection H as <- _ _; now split.
  Qed.
  (** A successful call replaces its own coefficient only. *)
  Lemma C47_others_proof k b p t vol g :
    (forall b' g', diffusion X b p g = (b', g', Ok tt) -> b_D b' <> None /\ b_DJ b' = b_DJ b /\ b_sigma b' = b_sigma b)
    /\ (forall b' g', jump_diffusion X b p g = (b', g', Ok tt) -> b_DJ b' <> None /\ b_D b' = b_D b /\ b_sigma b' = b_sigma b)
    /\ (forall b' g', conductivity X k b p t vol g = (b', g', Ok tt) -> b_sigma b' <> None /\ b_D b' = b_D b /\ b_DJ b' = b_DJ b).
  Proof.
    split; [|split]; intros b' g' H.
    - destruct (diffusion_ok X _ _ _ _ _ H) as (b1 & gr & E & _ & ->). destruct (gls_coefficients X _ _ _ _ _ _ E) as (C1 & C2 & C3).
      cbn. split; [discriminate|auto].
    - destruct (jump_ok X _ _ _ _ _ H) as (b1 & gr & d0 & E & _ & _ & ->). destruct (gls_coefficients X _ _ _ _ _ _ E) as (C1 & C2 & C3).
      cbn. split; [discriminate|auto].
    - destruct (conductivity_ok X _ _ _ _ _ _ _ _ H) as (b1 & gr & E & _ & ->). destruct (gls_coefficients X _ _ _ _ _ _ E) as (C1 & C2 & C3).
      cbn. split; [discriminate|auto].
  Qed.
  Lemma mapM_length {S T} (f : S -> Res T) l l' : mapM f l = Ok l' -> length l' = length l.
  Proof. revert l'. induction l as [|x l IH]; intros l' H; cbn in H; [injection H as <-; reflexivity|]. inv_bind H y E. inv_bind H t Et. injection H as <-. cbn. f_equal. now apply IH. Qed.
  Lemma columns_length chain c0 c1 : column 0 chain = Ok c0 -> column 1 chain = Ok c1 -> @length R c0 = length c1.
  Proof. unfold column. intros H0 H1. now rewrite (mapM_length _ _ _ H0), (mapM_length _ _ _ H1). Qed.
  Lemma mapM_ok_map {S T} (f : S -> Res T) (h : S -> T) l : (forall x, In x l -> f x = Ok (h x)) -> mapM f l = Ok (map h l).
  Proof. induction l as [|x l IH]; intros H; [reflexivity|]. cbn. rewrite (H x (or_introl eq_refl)). cbn [bind]. rewrite IH by (intros; apply H; now right). reflexivity. Qed.
  (** [fitted which b dts coef icpt]: after a call that fits an intercept. *)
  Lemma distribution_ok (a : Analyzer R) gr ic : b_gradient (an_diff a) = Some gr -> b_intercept (an_diff a) = Some ic -> length gr = length ic ->
    distribution a = Ok (map (fun d => map (fun gc => fst gc * d + snd gc)%R (combine gr ic)) (b_dt (an_diff a))).
  Proof.
    intros Hg Hi HL. unfold distribution. rewrite Hg, Hi. cbn [samples_of opt_res bind]. apply mapM_ok_map. intros d _.
    unfold broadcast2. rewrite map_length, HL, Nat.eqb_refl. f_equal. unfold zip_with.
    clear Hg Hi. revert ic HL. induction gr as [|x gr IH]; intros [|y ic] HL; cbn in *; try discriminate; [reflexivity|].
    f_equal. apply IH. lia.
  Qed.
  Lemma C47_after_proof a p g a' g' : l_fit_intercept p = true -> an_diffusion X a p g = (a', g', Ok tt) ->
    exists d gr ic, b_D (an_diff a') = Some d /\ b_gradient (an_diff a') = Some gr /\ b_intercept (an_diff a') = Some ic
      /\ length d = length ic /\ length gr = length ic
      /\ an_flatchain (@b_D R) a' = Ok (combine d ic)
      /\ distribution a' = Ok (map (fun t => map (fun gc => fst gc * t + snd gc)%R (combine gr ic)) (b_dt (an_diff a))).
  Proof.
    intros Hf H. unfold an_diffusion in H. destruct (diffusion X (an_diff a) p g) as [[b' g1] r] eqn:E. injection H as <- <- ->.
    destruct (diffusion_ok X _ _ _ _ _ E) as (b1 & gr & EG & Eg & ->).
    destruct (gls_ok_gradient X _ _ _ _ _ EG) as (ch & gr' & _ & Eg' & C0 & CI & _). rewrite Eg in Eg'. injection Eg' as <-.
    destruct (CI Hf) as (ic & Ei & C1). assert (HL := columns_length _ _ _ C0 C1).
    assert (St := gls_statistics X _ _ _ _ _ _ EG). unfold same_statistics in St. assert (Edt : b_dt b1 = b_dt (an_diff a)) by tauto. clear St.
    exists (diffusion_samples (b_dims (an_diff a)) gr), gr, ic.
    cbn [an_diff set_D b_D b_gradient b_intercept].
    assert (Ld : length (diffusion_samples (b_dims (an_diff a)) gr) = length ic) by (unfold diffusion_samples; now rewrite map_length).
    repeat (split; [reflexivity || assumption|]). split.
    - unfold an_flatchain. cbn [an_diff set_D b_D b_intercept samples_of opt_res bind]. rewrite Ei. cbn [samples_of opt_res bind].
      now rewrite Ld, Nat.eqb_refl.
    - rewrite <- Edt. apply distribution_ok; assumption.
  Qed.
  Lemma C47_no_intercept_proof a p g a' g' : l_fit_intercept p = false -> an_diffusion X a p g = (a', g', Ok tt) ->
    an_flatchain (@b_D R) a' = Raise AttributeError /\ distribution a' = Raise AttributeError
    /\ b_intercept (an_diff a') = None.
  Proof.
    intros Hf H. unfold an_diffusion in H. destruct (diffusion X (an_diff a) p g) as [[b' g1] r] eqn:E. injection H as <- <- ->.
    destruct (diffusion_ok X _ _ _ _ _ E) as (b1 & gr & EG & Eg & ->).
    destruct (gls_ok_gradient X _ _ _ _ _ EG) as (ch & gr' & _ & Eg' & C0 & _ & CI).
    specialize (CI Hf). unfold an_flatchain, distribution. cbn [an_diff set_D b_D b_intercept b_gradient samples_of opt_res bind].
    rewrite CI, Eg. cbn. auto.
  Qed.

  Notation mvn_shape := (SpecRun.mvn_shape X).
  Notation randints_ok := (SpecRun.randints_ok X).
  Notation drawn_block := (SpecRun.drawn_block X).
  Lemma ppd_loop_ok gr ic cov dts n_pred : length gr = length ic -> length cov = length dts ->
    length dts <> 1%nat \/ (n_pred <= 1)%nat ->
    forall draws g, Forall (fun i => i < length gr)%nat draws ->
    exists blocks g', ppd_loop X gr (Some ic) cov dts n_pred draws g = Ok (blocks, g')
      /\ length blocks = length draws /\ Forall (drawn_block gr ic dts cov n_pred) blocks.
  Proof.
    intros HL HC H1 draws. induction draws as [|j draws IH]; intros g Hd.
    - exists [], g. repeat split; constructor.
    - inversion Hd as [|? ? Hj Hd']; subst. cbn [ppd_loop]. rewrite !py_index_nat.
      destruct (nth_error gr j) as [gj|] eqn:Eg; [|apply nth_error_None in Eg; lia].
      destruct (nth_error ic j) as [cj|] eqn:Ec; [|apply nth_error_None in Ec; lia].
      cbn [opt_res bind]. rewrite py_index_nat, Ec. cbn [opt_res bind]. rewrite map_length, HC, Nat.eqb_refl. cbn [guard bind].
      set (mu := map (fun d => nadd (nmul gj d) cj) dts).
      destruct (x_mvn X g mu cov n_pred) as [rows g1] eqn:Em.
      assert (Eb : negb (Nat.eqb (length dts) 1) || Nat.leb n_pred 1 = true).
      { destruct H1 as [H1|H1]; [apply Nat.eqb_neq in H1; now rewrite H1|]. apply Nat.leb_le in H1. rewrite H1. apply Bool.orb_true_r. }
      rewrite Eb. cbn [guard bind]. destruct (IH g1 Hd') as (blocks & g2 & -> & Lb & Fb). cbn [bind].
      exists (rows :: blocks), g2. split; [reflexivity|]. split; [cbn; congruence|]. constructor; [|exact Fb].
      exists j, gj, cj, g. split; [exact Eg|]. split; [exact Ec|]. change (map (fun d => (gj * d + cj)%R) dts) with mu. now rewrite Em.
  Qed.
  Lemma C48_proof b gr ic cov start r n_post n_pred g : randints_ok -> mvn_shape ->
    b_gradient b = Some gr -> b_intercept b = Some ic -> b_covariance b = Some cov -> b_start_dt b = Some start ->
    first_at_least start (b_dt b) r -> length cov = (length (b_dt b) - r)%nat ->
    length gr = length ic -> (0 < length gr)%nat -> (length (b_dt b) - r <> 1 \/ n_pred <= 1)%nat ->
    let k := match n_post with Some k => k | None => length gr end in
    exists rows blocks g', posterior_predictive X b n_post n_pred g = Ok (rows, g')
      /\ length rows = (k * n_pred)%nat
      /\ Forall (fun row => length row = (length (b_dt b) - r)%nat) rows
      /\ rows = List.concat blocks /\ length blocks = k
      /\ Forall (drawn_block gr ic (skipn r (b_dt b)) cov n_pred) blocks.
  Proof.
    intros HR HM Eg Ei Ecov Es Hr Hc HL Hpos H1 k. unfold posterior_predictive.
    assert (Ek : (match n_post with Some k => Ok k | None => let! gr := samples_of (b_gradient b) in Ok (length gr) end) = Ok k).
    { unfold k. destruct n_post; [reflexivity|]. now rewrite Eg. }
    rewrite Ek. cbn [bind]. rewrite Es. cbn [opt_res bind]. rewrite (find_regime_of_first _ _ _ Hr). cbn [bind].
    rewrite Eg. cbn [samples_of opt_res bind].
    assert (E0 : Nat.ltb 0 (length gr) = true) by (now apply Nat.ltb_lt). rewrite E0. cbn [orb guard bind].
    destruct (HR g (length gr) k) as [R1 R2]. destruct (x_randints X g (length gr) k) as [draws g1]. cbn [fst] in R1, R2.
    rewrite Ecov, Ei. cbn [opt_res bind].
    assert (Ls : length (skipn r (b_dt b)) = (length (b_dt b) - r)%nat) by apply skipn_length.
    destruct (ppd_loop_ok gr ic cov (skipn r (b_dt b)) n_pred HL ltac:(congruence) ltac:(rewrite Ls; exact H1) draws g1 (R2 Hpos))
      as (blocks & g2 & -> & Lb & Fb).
    cbn [bind]. exists (concat blocks), blocks, g2. split; [reflexivity|].
    assert (B : Forall (fun bl => length bl = n_pred /\ Forall (fun row => length row = (length (b_dt b) - r)%nat) bl) blocks).
    { eapply Forall_impl; [|exact Fb]. intros bl (j & gj & cj & gg & _ & _ & ->).
      destruct (HM gg (map (fun d => (gj * d + cj)%R) (skipn r (b_dt b))) cov n_pred) as [M1 M2].
      split; [exact M1|]. rewrite map_length, Ls in M2. exact M2. }
    assert (Lk : length blocks = k) by congruence. split; [|split; [|split; [reflexivity|split; [exact Lk|exact Fb]]]].
    - rewrite <- Lk. clear - B. induction B as [|bl bs [Hb _] _ IH]; [reflexivity|]. cbn [concat]. rewrite app_length, IH, Hb. reflexivity.
    - clear - B. induction B as [|bl bs [_ Hb] _ IH]; [constructor|]. cbn [concat]. apply Forall_app. now split.
  Qed.
  Notation matrix_shapes := (SpecRun.matrix_shapes X).
  Lemma cov_length b p r raw cov : matrix_shapes -> length (b_v b) = length (b_dt b) -> length (b_n_o b) = length (b_dt b) ->
    generate_covariance_matrix X b p r = (Some raw, Ok cov) -> length cov = (length (b_dt b) - r)%nat.
  Proof.
    intros [S1 S2] Hv Hn H. unfold generate_covariance_matrix in H. set (raw0 := bind _ _) in H.
    destruct raw0 as [m|e] eqn:E; [|discriminate]. injection H as <- H.
    assert (Lm : length m = (length (b_dt b) - r)%nat).
    { unfold raw0 in E. inv_bind E mv Ev. apply populate_inv in E as [_ ->]. unfold mat_of. rewrite map_length, seq_length.
      destruct (l_model p).
      - inv_bind Ev a Ea. injection Ev as <-. unfold model_variance. rewrite zip_with_length, !skipn_length. lia.
      - injection Ev as <-. rewrite skipn_length. lia. }
    inv_bind H rc Er. apply S2 in H. unfold minimum_eigenvalue_method in Er. inv_bind Er ev Ee. destruct ev as [l v].
    inv_bind Er ne En. injection Er as <-. apply S1 in Ee. unfold vdiagvt in H. rewrite map_length in H. congruence.
  Qed.
  (** After a fit with an intercept. *)
  Lemma C48_fit_proof b p g b' g' r gr n_post n_pred g2 : randints_ok -> mvn_shape -> matrix_shapes ->
    length (b_v b) = length (b_dt b) -> length (b_n_o b) = length (b_dt b) ->
    l_fit_intercept p = true -> diffusion X b p g = (b', g', Ok tt) ->
    first_at_least (l_start_dt p) (b_dt b) r -> b_gradient b' = Some gr -> gr <> [] ->
    (length (b_dt b) - r <> 1 \/ n_pred <= 1)%nat ->
    let k := match n_post with Some k => k | None => length gr end in
    exists ic cov rows blocks g3, b_intercept b' = Some ic /\ b_covariance b' = Some cov
      /\ posterior_predictive X b' n_post n_pred g2 = Ok (rows, g3)
      /\ length rows = (k * n_pred)%nat
      /\ Forall (fun row => length row = (length (b_dt b) - r)%nat) rows
      /\ rows = List.concat blocks /\ length blocks = k
      /\ Forall (drawn_block gr ic (skipn r (b_dt b)) cov n_pred) blocks.
  Proof.
    intros HR HM HS Hv Hn Hf H F Eg Hne H1 k.
    destruct (diffusion_ok X _ _ _ _ _ H) as (b1 & gr' & EG & Eg1 & ->). cbn [set_D b_gradient] in Eg.
    rewrite Eg1 in Eg. injection Eg as ->.
    assert (K := gls_cases X b p g). rewrite EG in K.
    inversion K as [| | | |r' g0 g1 raw cov chain gr0 ic F' E0 EC ES C0 EI]; subst.
    cbn [set_fit b_gradient] in Eg1. injection Eg1 as ->.
    assert (r' = r) by (eapply first_at_least_unique; eauto). subst r'.
    destruct EI as [[_ (c & C1 & ->)]|[EF _]]; [|congruence].
    assert (HL := columns_length _ _ _ C0 C1).
    assert (Lc := cov_length (set_settings b p) p r raw cov HS Hv Hn EC).
    destruct (C48_proof (set_D (set_fit (set_covariance (set_settings b p) cov) chain gr (Some c)) (diffusion_samples (b_dims b) gr))
                gr c cov (l_start_dt p) r n_post n_pred g2 HR HM eq_refl eq_refl eq_refl eq_refl F Lc HL ltac:(destruct gr; [congruence|cbn; lia]) H1)
      as (rows & blocks & g3 & P1 & P2 & P3 & P4 & P5 & P6).
    exists c, cov, rows, blocks, g3. repeat (split; [reflexivity || assumption|]). exact P6.
  Qed.
  Lemma C48_no_intercept_proof b p g b' g' gr r n_pred g2 : (forall g n size, length (fst (x_randints X g n size)) = size) ->
    (forall g n size, (0 < n)%nat -> Forall (fun i => i < n)%nat (fst (x_randints X g n size))) ->
    l_fit_intercept p = false -> diffusion X b p g = (b', g', Ok tt) ->
    first_at_least (l_start_dt p) (b_dt b) r -> b_gradient b' = Some gr -> gr <> [] ->
    posterior_predictive X b' None n_pred g2 = Raise AttributeError.
  Proof.
    intros R1 R2 Hf H F Eg Hne.
    destruct (diffusion_ok X _ _ _ _ _ H) as (b1 & gr' & EG & Eg1 & ->). cbn [set_D b_gradient] in Eg.
    rewrite Eg1 in Eg. injection Eg as ->.
    assert (K := gls_cases X b p g). rewrite EG in K.
    inversion K as [| | | |r' g0 g1 raw cov chain gr0 ic F' E0 EC ES C0 EI]; subst.
    cbn [set_fit b_gradient] in Eg1. injection Eg1 as ->.
    assert (r' = r) by (eapply first_at_least_unique; eauto). subst r'.
    destruct EI as [[EF _]|[_ ->]]; [congruence|].
    assert (P : (0 < length gr)%nat) by (destruct gr; [congruence|cbn; lia]).
    unfold posterior_predictive. cbn [set_D set_fit set_covariance set_settings b_gradient b_start_dt b_dt b_covariance b_intercept samples_of opt_res bind].
    rewrite (find_regime_of_first _ _ _ F). cbn [bind].
    rewrite (proj2 (Nat.ltb_lt _ _) P). cbn [orb guard bind].
    specialize (R1 g2 (length gr) (length gr)). specialize (R2 g2 (length gr) (length gr) P).
    destruct (x_randints X g2 (length gr) (length gr)) as [draws g3]. cbn [fst] in R1, R2. cbn [bind].
    destruct draws as [|j draws]; [cbn in R1; lia|]. cbn [ppd_loop]. rewrite py_index_nat. inversion R2; subst.
    destruct (nth_error gr j) eqn:Ej; [|apply nth_error_None in Ej; lia]. reflexivity.
  Qed.
  (** After a failed refit with another start_dt the covariance matrix no longer matches. *)
  Lemma C48_stale_proof b gr ic cov start r n_pred g : randints_ok ->
    b_gradient b = Some gr -> b_intercept b = Some ic -> b_covariance b = Some cov -> b_start_dt b = Some start ->
    first_at_least start (b_dt b) r -> length cov <> (length (b_dt b) - r)%nat -> length gr = length ic -> gr <> [] ->
    posterior_predictive X b None n_pred g = Raise ValueError.
  Proof.
    intros HR Eg Ei Ec Es F HC HL Hne. assert (P : (0 < length gr)%nat) by (destruct gr; [congruence|cbn; lia]).
    unfold posterior_predictive. rewrite Eg, Es, Ec, Ei. cbn [samples_of opt_res bind]. rewrite (find_regime_of_first _ _ _ F). cbn [bind].
    rewrite (proj2 (Nat.ltb_lt _ _) P). cbn [orb guard bind].
    destruct (HR g (length gr) (length gr)) as [R1 R2]. specialize (R2 P).
    destruct (x_randints X g (length gr) (length gr)) as [draws g3]. cbn [fst] in R1, R2. cbn [bind].
    destruct draws as [|j draws]; [cbn in R1; lia|]. cbn [ppd_loop]. rewrite !py_index_nat. inversion R2; subst.
    destruct (nth_error gr j) eqn:Ej; [|apply nth_error_None in Ej; lia]. cbn [opt_res bind]. rewrite py_index_nat.
    destruct (nth_error ic j) eqn:Ek; [|apply nth_error_None in Ek; lia]. cbn [opt_res bind].
    rewrite map_length, skipn_length. now rewrite (proj2 (Nat.eqb_neq _ _) HC).
  Qed.
  Lemma C48_one_point_proof b gr ic cov start r n_pred g : randints_ok ->
    b_gradient b = Some gr -> b_intercept b = Some ic -> b_covariance b = Some cov -> b_start_dt b = Some start ->
    first_at_least start (b_dt b) r -> length cov = (length (b_dt b) - r)%nat -> length gr = length ic -> gr <> [] ->
    (length (b_dt b) - r = 1)%nat -> (1 < n_pred)%nat ->
    posterior_predictive X b None n_pred g = Raise ValueError.
  Proof.
    intros HR Eg Ei Ec Es F HC HL Hne H1 Hp. assert (P : (0 < length gr)%nat) by (destruct gr; [congruence|cbn; lia]).
    unfold posterior_predictive. rewrite Eg, Es, Ec, Ei. cbn [samples_of opt_res bind]. rewrite (find_regime_of_first _ _ _ F). cbn [bind].
    rewrite (proj2 (Nat.ltb_lt _ _) P). cbn [orb guard bind].
    destruct (HR g (length gr) (length gr)) as [R1 R2]. specialize (R2 P).
    destruct (x_randints X g (length gr) (length gr)) as [draws g3]. cbn [fst] in R1, R2. cbn [bind].
    destruct draws as [|j draws]; [cbn in R1; lia|]. cbn [ppd_loop]. rewrite !py_index_nat. inversion R2; subst.
    destruct (nth_error gr j) eqn:Ej; [|apply nth_error_None in Ej; lia]. cbn [opt_res bind]. rewrite py_index_nat.
    destruct (nth_error ic j) eqn:Ek; [|apply nth_error_None in Ek; lia]. cbn [opt_res bind].
    rewrite map_length, skipn_length, HC, Nat.eqb_refl. cbn [guard bind]. destruct (x_mvn X g3 _ _ _) as [rows g4].
    rewrite H1. cbn [Nat.eqb negb orb]. rewrite (proj2 (Nat.leb_gt _ _) Hp). reflexivity.
  Qed.
End Life.
