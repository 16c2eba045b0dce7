(** * ProofsSampler: number and origin of the posterior samples (C58) *)
From Verif Require Import Base Spec SpecParser SpecStats SpecFit ModelParser ModelDiffusion ModelHdf ModelAnalyzer
  Lemmas ProofsTraj ProofsWindows ProofsBoot ProofsStats ProofsCov ProofsFit ProofsFit2 SpecRun.
From Coq Require Import Reals Lra Lia ZArith Sorted.
Open Scope Z_scope.

Lemma concat_blocks {T} (w : nat) (l : list (list T)) : Forall (fun b => length b = w) l ->
  length (List.concat l) = (length l * w)%nat
  /\ forall j i, (i < w)%nat -> nth_error (List.concat l) (j * w + i) =
       match nth_error l j with Some b => nth_error b i | None => None end.
Proof.
  induction 1 as [|b l Hb _ [IH1 IH2]]; cbn [List.concat].
  - split; [reflexivity|]. intros [|j] i _; cbn; [now destruct i|destruct (w + j * w + i)%nat; reflexivity].
  - split; [rewrite app_length, IH1, Hb; reflexivity|]. intros [|j] i Hi.
    + cbn. rewrite nth_error_app1 by lia. reflexivity.
    + cbn [nth_error]. rewrite nth_error_app2 by (rewrite Hb; nia).
      replace (S j * w + i - length b)%nat with (j * w + i)%nat by (rewrite Hb; nia). now apply IH2.
Qed.
Lemma sub_sample_count {T} k (l a : list T) : (0 < k)%nat -> sub_sample k l a -> length a = ((length l + k - 1) / k)%nat.
Proof.
  intros Hk H.
  assert (G : forall i, (i < length a <-> i * k < length l)%nat).
  { intros i. rewrite <- !nth_error_Some. now rewrite (H i). }
  destruct (Nat.eq_dec (length l) 0) as [E|E].
  - destruct (Nat.eq_dec (length a) 0) as [E2|E2].
    + rewrite E2, E. symmetry. apply Nat.div_small. lia.
    + exfalso. pose proof (proj1 (G 0%nat)). lia.
  - assert (length a <> 0)%nat. { intros E2. pose proof (proj2 (G 0%nat)). lia. }
    pose proof (proj1 (G (length a - 1)%nat) ltac:(lia)) as A.
    assert (B : (length l <= length a * k)%nat). { apply Nat.nlt_ge. intros C. apply G in C. lia. }
    apply Nat.div_unique with (length l + k - 1 - k * length a)%nat; nia.
Qed.

Section Sampler.
  Context {G Seed RS : Type} (X : Ext R G Seed RS).
  Notation run_call := (SpecRun.run_call X).
  Notation noise_rows := (SpecRun.noise_rows X).
  Lemma move_walkers_length ll (ws : list (@walker R)) : forall ps ws', move_walkers ll ws ps = Ok ws' -> length ws' = length ws.
  Proof.
    induction ws as [|w ws IH]; intros [|p ps] ws' H; cbn [move_walkers] in H; try (injection H as <-; reflexivity).
    inv_bind H w1 E1. inv_bind H rest E2. injection H as <-. cbn. f_equal. eapply IH, E2.
  Qed.
  Lemma run_chain_shape ll steps : forall ws g chain, run_chain X ll steps ws g = Ok chain ->
    length chain = steps /\ Forall (fun m => length m = length ws) chain.
  Proof.
    induction steps as [|k IH]; intros ws g chain H; cbn [run_chain] in H.
    - injection H as <-. split; [reflexivity|constructor].
    - inv_bind H r1 E1. destruct r1 as [ws1 g1]. inv_bind H r2 E2. destruct r2 as [ws2 g2]. inv_bind H rest E3. injection H as <-.
      unfold half_step in E1, E2.
      destruct (x_propose X g (map fst ws)) as [p1 h1]. inv_bind E1 w1 F1. injection E1 as -> _.
      destruct (x_propose X g1 (map fst ws1)) as [p2 h2]. inv_bind E2 w2 F2. injection E2 as -> _.
      apply move_walkers_length in F1. apply move_walkers_length in F2.
      destruct (IH _ _ _ E3) as [I1 I2]. split; [cbn; now f_equal|]. constructor.
      + rewrite map_length. etransitivity; [exact F2|exact F1].
      + eapply Forall_impl; [|exact I2]. cbv beta. intros m Hm. rewrite Hm. etransitivity; [exact F2|exact F1].
  Qed.
  (** What a successful sampling run stores: a chain of [n_samples + n_burn] blocks of [n_walkers]
      rows that does not depend on how the total is divided, thinned afterwards. *)
  Lemma sample_inv b p r cov g g1 flat : noise_rows -> sample_gls X b p r cov g = (g1, Ok flat) ->
    exists chain, length chain = Z.to_nat (l_n_samples p + l_n_burn p) /\ 0 < l_n_samples p + l_n_burn p
      /\ Forall (fun m => length m = Z.to_nat (l_n_walkers p)) chain
      /\ get_chain chain (l_n_burn p) (l_thin p) = Ok flat
      /\ forall s d t, s + d = l_n_samples p + l_n_burn p ->
           sample_gls X b (with_lengths p s d t) r cov g = (g1, get_chain chain d t).
  Proof.
    intros Hn H. unfold sample_gls in *. cbn [with_lengths l_n_samples l_n_burn l_n_walkers l_thin l_fit_intercept].
    destruct (bind _ _) as [[ll ml]|e]; [|discriminate].
    pose proof (Hn g (Z.to_nat (l_n_walkers p)) (length ml)) as Hr.
    destruct (x_randn X g _ _) as [noise g'] eqn:En. cbn [fst] in Hr.
    injection H as <- H. inv_bind H chain E. exists chain.
    pose proof E as E0. unfold run_mcmc in E. inv_bind E u1 E1. inv_bind E lps E2. inv_bind E u3 E3. inv_bind E u4 E4. inv_bind E u5 E5.
    destruct u4. apply guard_ok in E4. apply Z.ltb_lt in E4.
    destruct (run_chain_shape _ _ _ _ _ E) as [C1 C2].
    split; [exact C1|]. split; [exact E4|]. split.
    - eapply Forall_impl; [|exact C2]. cbv beta. intros m Hm. etransitivity; [exact Hm|]. etransitivity; [apply combine_length|]. rewrite (mapM_length _ _ _ E2).
      unfold initial_positions. rewrite map_length. lia.
    - split; [exact H|]. intros s d t Hsd. rewrite Hsd, E0. reflexivity.
  Qed.
  (** Which rows survive. *)
  Lemma get_chain_rows (chain : list (list (list R))) s d t w flat : 0 <= s -> 0 <= d -> 1 <= t ->
    length chain = Z.to_nat (s + d) -> Forall (fun m => length m = w) chain ->
    get_chain chain d t = Ok flat ->
    length flat = (w * Z.to_nat (s / t))%nat
    /\ forall j i, (j < Z.to_nat (s / t))%nat -> (i < w)%nat ->
       nth_error flat (j * w + i) = nth_error (List.concat chain) ((Z.to_nat d + (j + 1) * Z.to_nat t - 1) * w + i).
  Proof.
    intros Hs Hd Ht HL HF H. unfold get_chain in H. inv_bind H sub E. injection H as <-. unfold Mat in *.
    replace (d + t - 1) with (Z.of_nat (Z.to_nat d + Z.to_nat t - 1)) in E by lia.
    rewrite py_from_nat in E. apply stride_sub in E; [|lia].
    set (D := Z.to_nat d) in *. set (tt := Z.to_nat t) in *.
    assert (HS : Forall (fun m => length m = w) sub).
    { apply Forall_forall. intros m Hm. apply In_nth_error in Hm as (i & Hm). rewrite (E i) in Hm.
      apply nth_error_In in Hm. rewrite Forall_forall in HF. apply HF. rewrite <- (firstn_skipn (D + tt - 1) chain).
      apply in_or_app. now right. }
    assert (LS : length sub = Z.to_nat (s / t)).
    { rewrite (sub_sample_count tt _ _ ltac:(lia) E), skipn_length, HL.
      replace (Z.to_nat (s / t)) with (Z.to_nat s / tt)%nat by (unfold tt; rewrite Z2Nat.inj_div by lia; reflexivity).
      destruct (Nat.le_gt_cases tt (Z.to_nat s)) as [L|L].
      - f_equal. unfold D. lia.
      - rewrite (Nat.div_small (Z.to_nat s) tt) by exact L. apply Nat.div_small. unfold D. lia. }
    destruct (concat_blocks w sub HS) as [L1 N1]. destruct (concat_blocks w chain HF) as [_ N2].
    split; [rewrite L1, LS; lia|]. intros j i Hj Hi. rewrite N1, N2 by exact Hi. rewrite (E j), nth_error_skipn.
    replace (D + tt - 1 + j * tt)%nat with (D + (j + 1) * tt - 1)%nat by (unfold tt; nia). reflexivity.
  Qed.
  Lemma C58_gls_proof b p g b' g' : noise_rows -> 0 <= l_n_samples p -> 0 <= l_n_burn p -> 1 <= l_thin p ->
    bootstrap_GLS X b p g = (b', g', Ok tt) ->
    exists chain gr, b_flatchain b' = Some chain /\ b_gradient b' = Some gr
      /\ length chain = (Z.to_nat (l_n_walkers p) * Z.to_nat (l_n_samples p / l_thin p))%nat
      /\ column 0 chain = Ok gr
      /\ (l_fit_intercept p = true -> exists ic, b_intercept b' = Some ic /\ column 1 chain = Ok ic).
  Proof.
    intros Hn Hs Hd Ht H. assert (K := gls_cases X b p g). rewrite H in K.
    inversion K as [| | | |r g0 g1 raw cov chain gr ic F E0 EG ES EC EI]; subst.
    exists chain, gr. split; [reflexivity|]. split; [reflexivity|]. split.
    - destruct (sample_inv _ _ _ _ _ _ _ Hn ES) as (ch & L1 & _ & L2 & L3 & _).
      exact (proj1 (get_chain_rows ch _ _ _ _ _ Hs Hd Ht L1 L2 L3)).
    - split; [exact EC|]. intros Hf. destruct EI as [[_ (c & E & ->)]|[E _]]; [exists c; now split|congruence].
  Qed.
  Lemma column_nth (m : list (list R)) c j i x : column (Z.of_nat j) m = Ok c -> nth_error c i = Some x ->
    exists row, nth_error m i = Some row /\ nth_error row j = Some x.
  Proof.
    unfold column. intros H Hx. revert c i H Hx. induction m as [|row m IH]; intros c i H Hx; cbn in H.
    - injection H as <-. destruct i; discriminate.
    - destruct (py_index row (Z.of_nat j)) as [y|e] eqn:E; cbn [bind] in H; [|discriminate].
      destruct (mapM _ m) as [c'|e] eqn:E2; cbn [bind] in H; [|discriminate]. injection H as <-.
      destruct i as [|i].
      + cbn in Hx. injection Hx as ->. exists row. split; [reflexivity|]. rewrite py_index_nat in E.
        destruct (nth_error row j); cbn in E; congruence.
      + cbn in Hx. apply (IH c' i eq_refl Hx).
  Qed.
  Lemma C58_count_proof b g c b' g' : let p := settings c in
    noise_rows -> 0 <= l_n_walkers p -> 0 <= l_n_samples p -> 0 <= l_n_burn p -> 1 <= l_thin p ->
    run_call b g c = (b', g', Ok tt) ->
    exists chain gr d, b_flatchain b' = Some chain /\ b_gradient b' = Some gr /\ coefficient c b' = Some d
      /\ Z.of_nat (length chain) = l_n_walkers p * (l_n_samples p / l_thin p)
      /\ length gr = length chain /\ length d = length chain
      /\ (forall i x, nth_error gr i = Some x -> exists row, nth_error chain i = Some row /\ nth_error row 0 = Some x)
      /\ (l_fit_intercept p = true -> exists ic, b_intercept b' = Some ic /\ length ic = length chain
           /\ forall i x, nth_error ic i = Some x -> exists row, nth_error chain i = Some row /\ nth_error row 1 = Some x).
  Proof.
    intros p Hn Hw Hs Hd Ht H.
    assert (Q : exists b1 gr d, bootstrap_GLS X b p g = (b1, g', Ok tt) /\ b_gradient b1 = Some gr
       /\ coefficient c b' = Some d /\ length d = length gr
       /\ b_gradient b' = b_gradient b1 /\ b_flatchain b' = b_flatchain b1 /\ b_intercept b' = b_intercept b1).
    { destruct c as [q|q|k q t vol]; cbn [SpecRun.run_call settings] in *; unfold p.
      - destruct (diffusion_ok X _ _ _ _ _ H) as (b1 & gr & E1 & E2 & ->). exists b1, gr. eexists.
        split; [exact E1|]. split; [exact E2|]. cbn. split; [reflexivity|]. unfold diffusion_samples. rewrite map_length. auto.
      - destruct (jump_ok X _ _ _ _ _ H) as (b1 & gr & d0 & E1 & E2 & _ & ->). exists b1, gr. eexists.
        split; [exact E1|]. split; [exact E2|]. cbn. split; [reflexivity|]. unfold jump_samples. rewrite map_length. auto.
      - destruct (conductivity_ok X _ _ _ _ _ _ _ _ H) as (b1 & gr & E1 & E2 & ->). exists b1, gr. eexists.
        split; [exact E1|]. split; [exact E2|]. cbn. split; [reflexivity|]. unfold diffusion_samples. rewrite !map_length. auto. }
    destruct Q as (b1 & gr & d & E1 & E2 & E3 & E4 & E5 & E6 & E7).
    destruct (C58_gls_proof _ _ _ _ _ Hn Hs Hd Ht E1) as (chain & gr' & F1 & F2 & F3 & F4 & F5).
    rewrite E2 in F2. injection F2 as <-.
    exists chain, gr, d. rewrite E5, E6, E7. split; [exact F1|]. split; [exact E2|]. split; [exact E3|].
    assert (LG : length gr = length chain) by (exact (mapM_length _ _ _ F4)).
    split. { rewrite F3, Nat2Z.inj_mul, !Z2Nat.id by (try apply Z.div_pos; lia). reflexivity. }
    split; [exact LG|]. split; [congruence|]. split.
    - intros i x Hx. exact (column_nth chain gr 0 i x F4 Hx).
    - intros Hf. destruct (F5 Hf) as (ic & I1 & I2). exists ic. split; [exact I1|]. split; [exact (mapM_length _ _ _ I2)|].
      intros i x Hx. exact (column_nth chain ic 1 i x I2 Hx).
  Qed.
  Lemma gls_with_lengths b p s d t g r raw cov : first_at_least (l_start_dt p) (b_dt b) r ->
    generate_covariance_matrix X (set_settings b p) p r = (Some raw, Ok cov) ->
    forall b1 g1, bootstrap_GLS X b (with_lengths p s d t) g = (b1, g1, Ok tt) ->
    exists flat, b_flatchain b1 = Some flat
      /\ sample_gls X b (with_lengths p s d t) r cov (match l_random_state p with Some rs => x_seed X (x_seed_of X rs) | None => g end) = (g1, Ok flat).
  Proof.
    intros F EG b1 g1 H. assert (K := gls_cases X b (with_lengths p s d t) g). rewrite H in K.
    inversion K as [| | | |r' g0 g1' raw' cov' chain gr ic F' E0 EG' ES EC EI]; subst.
    cbn [with_lengths l_start_dt l_random_state] in *.
    rewrite <- (first_at_least_unique _ _ _ _ F F') in *.
    assert (EG2 : generate_covariance_matrix X (set_settings b (with_lengths p s d t)) (with_lengths p s d t) r
      = generate_covariance_matrix X (set_settings b p) p r) by reflexivity.
    rewrite EG2, EG in EG'. injection EG' as <- <-.
    exists chain. split; [reflexivity|exact ES].
  Qed.
  (** Burn-in and thinning pick rows of the full chain. *)
  Lemma C58_burn_proof b p s d t g b1 g1 b2 g2 : noise_rows -> 0 <= s -> 0 <= d -> 1 <= t ->
    bootstrap_GLS X b (with_lengths p s d t) g = (b1, g1, Ok tt) ->
    bootstrap_GLS X b (with_lengths p (s + d) 0 1) g = (b2, g2, Ok tt) ->
    exists flat full, b_flatchain b1 = Some flat /\ b_flatchain b2 = Some full
      /\ let w := Z.to_nat (l_n_walkers p) in
         length flat = (w * Z.to_nat (s / t))%nat /\ length full = (w * Z.to_nat (s + d))%nat
         /\ forall j i, (j < Z.to_nat (s / t))%nat -> (i < w)%nat ->
            nth_error flat (j * w + i) = nth_error full ((Z.to_nat d + (j + 1) * Z.to_nat t - 1) * w + i).
  Proof.
    intros Hn Hs Hd Ht H1 H2.
    assert (K := gls_cases X b (with_lengths p s d t) g). rewrite H1 in K.
    inversion K as [| | | |r g0 g1' raw cov chain gr ic F E0 EG ES EC EI]; subst.
    change (generate_covariance_matrix X (set_settings b p) p r = (Some raw, Ok cov)) in EG.
    change (first_at_least (l_start_dt p) (b_dt b) r) in F.
    destruct (gls_with_lengths b p (s + d) 0 1 g r raw cov F EG _ _ H2) as (full & B2 & S2).
    exists chain, full. split; [reflexivity|]. split; [exact B2|]. intros w.
    cbn [with_lengths l_random_state] in ES.
    destruct (sample_inv _ _ _ _ _ _ _ Hn ES) as (ch & L1 & _ & L2 & L3 & L4).
    cbn [with_lengths l_n_samples l_n_burn l_n_walkers l_thin] in *.
    specialize (L4 (s + d) 0 1 ltac:(lia)).
    change (with_lengths (with_lengths p s d t) (s + d) 0 1) with (with_lengths p (s + d) 0 1) in L4.
    rewrite S2 in L4. apply (f_equal snd) in L4. cbn [snd] in L4. symmetry in L4. fold w in L2.
    destruct (get_chain_rows ch s d t w chain Hs Hd Ht L1 L2 L3) as [R1 R2].
    destruct (get_chain_rows ch (s + d) 0 1 w full ltac:(lia) ltac:(lia) ltac:(lia) ltac:(rewrite L1; f_equal; lia) L2 L4) as [R3 R4].
    rewrite Z.div_1_r in *.
    split; [exact R1|]. split; [exact R3|]. intros j i Hj Hi. rewrite (R2 j i Hj Hi).
    set (m := (Z.to_nat d + (j + 1) * Z.to_nat t - 1)%nat).
    assert (Hm : (m < Z.to_nat (s + d))%nat).
    { unfold m. assert (Z.of_nat (j + 1) <= s / t) by lia.
      assert (Z.of_nat (j + 1) * t <= s). { pose proof (Z.mul_div_le s t ltac:(lia)). nia. }
      assert (1 <= Z.of_nat (j + 1) * t) by nia. nia. }
    rewrite (R4 m i Hm Hi). do 2 f_equal. change (Z.to_nat 0) with 0%nat. change (Z.to_nat 1) with 1%nat. lia.
  Qed.
End Sampler.

(** Two walkers, one sample kept out of one; with a burn-in of two and thinning by three. *)
Lemma demo_noise pv m0 : noise_rows (demo_ext pv m0).
Proof. intros g r c. cbn. apply repeat_length. Qed.
Lemma demo_long pv m0 s d t g : 0 <= s -> 0 <= d -> 0 < s + d -> 1 <= t ->
  exists b, bootstrap_GLS (demo_ext pv m0) demo_data (with_lengths (demo_fit 1 true) s d t) g = (b, 8%nat, Ok tt).
Proof.
  intros Hs Hd Hsd Ht. pose proof demo_first1 as Hr.
  destruct (demo_cov pv m0 true 1 0 ltac:(lia)) as (raw & cov & EG & Lc).
  unfold bootstrap_GLS. change (b_dt (set_settings demo_data (with_lengths (demo_fit 1 true) s d t))) with [1;2]%R.
  change (l_start_dt (with_lengths (demo_fit 1 true) s d t)) with 1%R.
  rewrite (find_regime_of_first _ _ _ Hr).
  change (generate_covariance_matrix (demo_ext pv m0) (set_settings demo_data (with_lengths (demo_fit 1 true) s d t)) (with_lengths (demo_fit 1 true) s d t) 0)
    with (generate_covariance_matrix (demo_ext pv m0) (set_settings demo_data (demo_fit 1 true)) (demo_fit 1 true) 0).
  rewrite EG.
  unfold sample_gls. cbn [demo_ext x_logdet x_pinvh x_linregress x_minimize bind demo_fit with_lengths l_random_state x_seed x_seed_of l_fit_intercept
    l_n_walkers l_n_samples l_n_burn l_thin x_randn skipn].
  set (dts := b_dt _). set (ns := b_n _). set (ld := nadd _ _).
  change (Z.to_nat 4) with 4%nat. cbn [length].
  pose proof (demo_positions m0 true) as EP. cbv iota in EP. rewrite EP.
  destruct (demo_ll dts ns ld cov m0 true) as (lps & E3 & L3).
  unfold run_mcmc. cbn [demo_ext x_independent guard bind]. rewrite E3. cbn [bind].
  destruct (0 <=? s + d) eqn:B1; [|apply Z.leb_gt in B1; lia]. destruct (0 <? s + d) eqn:B2; [|apply Z.ltb_ge in B2; lia].
  cbn [guard bind].
  assert (E4 : (2 * 2 <=? length (demo_chain m0 true))%nat = true) by reflexivity.
  rewrite E4. cbn [guard bind].
  assert (E5 : forall ws, move_walkers (log_likelihood dts ns ld cov) ws [] = Ok ws) by (now intros [|]).
  assert (E6 : map fst (combine (demo_chain m0 true) lps) = demo_chain m0 true).
  { destruct lps as [|l1 [|l2 [|l3 [|l4 [|]]]]]; try discriminate L3. reflexivity. }
  assert (E8 : forall n g0, run_chain (demo_ext pv m0) (log_likelihood dts ns ld cov) n (combine (demo_chain m0 true) lps) g0
    = Ok (repeat (demo_chain m0 true) n)).
  { induction n as [|n IH]; intros g0; [reflexivity|]. cbn [run_chain]. unfold half_step. cbn [demo_ext x_propose].
    rewrite E5. cbn [bind]. rewrite E5. cbn [bind]. rewrite IH. cbn [bind]. rewrite E6. reflexivity. }
  rewrite E8. cbn [bind].
  set (chain := repeat (demo_chain m0 true) (Z.to_nat (s + d))).
  destruct (get_chain chain d t) as [flat|e] eqn:EC.
  2:{ exfalso. unfold get_chain, py_stride in EC. destruct (t =? 0) eqn:E0; [apply Z.eqb_eq in E0; lia|].
      destruct (0 <? t); discriminate EC. }
  assert (HF : forall row, In row flat -> row = [m0; 0%R]).
  { intros row Hin. destruct (get_chain_In _ _ _ _ _ EC Hin) as (rows & R1 & R2).
    assert (rows = demo_chain m0 true) by (exact (repeat_spec _ _ _ R1)). subst rows.
    exact (repeat_spec _ _ _ R2). }
  assert (C0 : column 0 flat = Ok (map (fun _ => m0) flat)).
  { apply mapM_ok_map. intros row Hin. rewrite (HF row Hin). reflexivity. }
  assert (C1 : column 1 flat = Ok (map (fun _ => 0%R) flat)).
  { apply mapM_ok_map. intros row Hin. rewrite (HF row Hin). reflexivity. }
  rewrite C0, C1. cbn [bind]. eexists. reflexivity.
Qed.
(** Four walkers, six samples after a burn-in of two, every third kept: two blocks of four rows. *)
Lemma C58_example_proof : exists b1 b2 chain,
  bootstrap_GLS (demo_ext 1 1) demo_data (with_lengths (demo_fit 1 true) 6 2 3) 0%nat = (b1, 8%nat, Ok tt)
  /\ bootstrap_GLS (demo_ext 1 1) demo_data (with_lengths (demo_fit 1 true) (6 + 2) 0 1) 0%nat = (b2, 8%nat, Ok tt)
  /\ b_flatchain b1 = Some chain /\ length chain = 8%nat /\ noise_rows (demo_ext 1 1).
Proof.
  destruct (demo_long 1 1 6 2 3 0%nat ltac:(lia) ltac:(lia) ltac:(lia) ltac:(lia)) as (b1 & H1).
  destruct (demo_long 1 1 (6 + 2) 0 1 0%nat ltac:(lia) ltac:(lia) ltac:(lia) ltac:(lia)) as (b2 & H2).
  destruct (C58_gls_proof (demo_ext 1 1) demo_data (with_lengths (demo_fit 1 true) 6 2 3) _ _ _ (demo_noise 1 1) ltac:(cbn; lia) ltac:(cbn; lia) ltac:(cbn; lia) H1) as (chain & gr & F1 & _ & F3 & _).
  exists b1, b2, chain. split; [exact H1|]. split; [exact H2|]. split; [exact F1|]. split; [rewrite F3; reflexivity|].
  apply demo_noise.
Qed.
