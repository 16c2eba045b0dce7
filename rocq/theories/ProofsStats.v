(** * ProofsStats: consequences for the reported statistics (C25-C31) *)
From Verif Require Import Base Spec SpecStats ModelDiffusion Lemmas ProofsBoot SpecRun.
From Coq Require Import Reals Lra Lia Arith Permutation.
Open Scope Z_scope.

(** ** Prefixes *)
Lemma leading_unique {T} (P : T -> Prop) l a b : leading P l a -> leading P l b -> a = b.
Proof.
  intros (r & H1 & H2 & H3) (r' & H1' & H2' & H3'). subst l. revert b H1' H2'.
  induction a as [|x a IH]; intros [|y b] E F; cbn in E.
  - reflexivity.
  - subst r. inversion H3; inversion F; subst. contradiction.
  - subst r'. inversion H3'; inversion H2; subst. contradiction.
  - injection E as -> E. inversion H2; inversion F; subst. f_equal. auto.
Qed.
Lemma leading_map {U T} (f : U -> T) (P : U -> Prop) (Q : T -> Prop) l a b :
  (forall x, In x l -> (P x <-> Q (f x))) -> leading P l a -> leading Q (map f l) b -> b = map f a.
Proof.
  intros H HA HB. eapply leading_unique; [exact HB|]. destruct HA as (r & -> & H2 & H3).
  exists (map f r). split; [apply map_app|]. split.
  - apply Forall_forall. intros y Hy. apply in_map_iff in Hy as (x & <- & Hx).
    rewrite Forall_forall in H2. apply H; [apply in_or_app; auto|]. now apply H2.
  - apply Forall_forall. intros y Hy. apply in_map_iff in Hy as (x & <- & Hx).
    rewrite Forall_forall in H3. intros HQ. apply (H3 x Hx). apply H; [apply in_or_app; auto|exact HQ].
Qed.
Lemma leading_Forall2 {U T} (Rl : U -> T -> Prop) (P : U -> Prop) (Q : T -> Prop) l l' a b :
  Forall2 Rl l l' -> (forall x y, Rl x y -> (P x <-> Q y)) ->
  leading P l a -> leading Q l' b -> Forall2 Rl a b.
Proof.
  intros HF H (r & E & H2 & H3) (r' & E' & H2' & H3'). subst l l'. revert b H2' HF.
  induction a as [|x a IH]; intros [|y b] F HF; cbn in HF.
  - constructor.
  - subst. inversion HF; subst. inversion H3; inversion F; subst. exfalso.
    match goal with h : ~ P ?x |- _ => apply h end. eapply H; eassumption.
  - inversion HF; subst. inversion H3'; inversion H2; subst. exfalso.
    match goal with h : ~ Q ?x |- _ => apply h end. eapply H; eassumption.
  - inversion HF; subst. inversion H2; inversion F; subst. constructor; [assumption|]. now apply IH.
Qed.
Lemma leading_In {T} (P : T -> Prop) l a x : leading P l a -> In x a -> In x l /\ P x.
Proof.
  intros (r & -> & H & _) Hx. split; [apply in_or_app; auto|]. rewrite Forall_forall in H. auto.
Qed.
Lemma leading_all {T} (P : T -> Prop) l a : Forall P l -> leading P l a -> a = l.
Proof.
  intros H HA. eapply leading_unique; [exact HA|]. exists []. split; [now rewrite app_nil_r|]. auto.
Qed.
Lemma leading_iff {T} (P Q : T -> Prop) l a : (forall x, P x <-> Q x) -> leading P l a -> leading Q l a.
Proof.
  intros H (r & E & F1 & F2). exists r. split; [exact E|]. split; eapply Forall_impl; [|exact F1| |exact F2]; cbn.
  - intros x. apply H. - intros x Hx Hq. now apply Hx, H.
Qed.
Lemma leading_length {T} (P : T -> Prop) l a : leading P l a -> (length a <= length l)%nat.
Proof. intros (r & -> & _). rewrite app_length. lia. Qed.
Lemma leading_nth {T} (P : T -> Prop) l a i x : leading P l a -> nth_error a i = Some x -> nth_error l i = Some x.
Proof. intros (r & -> & _) H. now apply nth_app_l. Qed.

Lemma sub_sample_map {U T} (f : U -> T) k l l' r :
  (0 < k)%nat -> sub_sample k l l' -> sub_sample k (map f l) r -> r = map f l'.
Proof.
  intros Hk H1 H2. apply list_ext. intros i. rewrite H2, !nth_error_map. now rewrite H1.
Qed.
Lemma Forall2_nth_intro {U T} (Rl : U -> T -> Prop) l l' :
  (forall i, match nth_error l i, nth_error l' i with Some x, Some y => Rl x y | None, None => True | _, _ => False end) ->
  Forall2 Rl l l'.
Proof.
  revert l'. induction l as [|x l IH]; intros [|y l'] H.
  - constructor. - specialize (H 0%nat). destruct H. - specialize (H 0%nat). destruct H.
  - constructor; [apply (H 0%nat)|]. apply IH. intros i. apply (H (S i)).
Qed.
Lemma Forall2_nth_elim {U T} (Rl : U -> T -> Prop) l l' : Forall2 Rl l l' ->
  (forall i, match nth_error l i, nth_error l' i with Some x, Some y => Rl x y | None, None => True | _, _ => False end).
Proof. induction 1; intros [|i]; cbn; auto. apply IHForall2. Qed.
Lemma sub_sample_Forall2 {U T} (Rl : U -> T -> Prop) k l l' a b :
  Forall2 Rl l l' -> sub_sample k l a -> sub_sample k l' b -> Forall2 Rl a b.
Proof.
  intros H H1 H2. apply Forall2_nth_intro. intros i. rewrite H1, H2. now apply Forall2_nth_elim.
Qed.
Lemma sub_sample_unique {T} k (l a b : list T) : sub_sample k l a -> sub_sample k l b -> a = b.
Proof. intros H1 H2. apply list_ext. intros i. now rewrite H1, H2. Qed.
Lemma sub_sample_one {T} (l a : list T) : sub_sample 1 l a -> a = l.
Proof. intros H. apply list_ext. intros i. rewrite H. f_equal. lia. Qed.

(** ** Averages *)
Lemma average_scale c l : average (map (Rmult c) l) = (c * average l)%R.
Proof. unfold average. rewrite rsum_scale, map_length. unfold Rdiv. ring. Qed.
Lemma average_perm a b : Permutation a b -> average a = average b.
Proof. intros H. unfold average. rewrite (rsum_perm _ _ H), (Permutation_length H). reflexivity. Qed.
Lemma average_nonneg l : Forall (fun x => 0 <= x)%R l -> (0 <= average l)%R.
Proof.
  intros H. unfold average. apply rsum_nonneg in H. destruct l as [|x l]; [cbn; unfold Rdiv; lra|].
  apply Rmult_le_pos; [exact H|]. left. apply Rinv_0_lt_compat. apply (lt_INR 0). cbn; lia.
Qed.
Lemma average_zero l : l <> [] -> Forall (fun x => 0 <= x)%R l ->
  (average l = 0%R <-> Forall (fun x => x = 0%R) l).
Proof.
  intros Hl H. rewrite <- rsum_zero_iff by exact H. unfold average.
  assert (INR (length l) <> 0%R) by (apply not_0_INR; destruct l; cbn; [congruence|lia]).
  split; intros E.
  - unfold Rdiv in E. apply Rmult_integral in E as [E|E]; [exact E|]. exfalso. now apply (Rinv_neq_0_compat (INR (length l))).
  - rewrite E. unfold Rdiv. ring.
Qed.
Lemma sqlen_nonneg axes v : (0 <= sqlen axes v)%R.
Proof.
  unfold sqlen. apply rsum_nonneg. apply Forall_forall. intros x H.
  apply in_map_iff in H as (a & <- & _). apply Rle_0_sqr.
Qed.
Lemma sqlen_zero axes v : sqlen axes v = 0%R <-> forall a, In a axes -> coord v a = 0%R.
Proof.
  unfold sqlen. rewrite rsum_zero_iff.
  - rewrite Forall_forall. split.
    + intros H a Ha. specialize (H _ (in_map (fun a => coord v a * coord v a)%R _ _ Ha)). cbn beta in H.
      apply Rmult_integral in H. lra.
    + intros H x Hx. apply in_map_iff in Hx as (a & <- & Ha). rewrite (H a Ha). ring.
  - apply Forall_forall. intros x H. apply in_map_iff in H as (a & <- & _). apply Rle_0_sqr.
Qed.
Lemma coord_scale c v a : coord (scale3 c v) a = (c * coord v a)%R.
Proof. destruct a; reflexivity. Qed.
Lemma sqlen_scale axes c v : sqlen axes (scale3 c v) = (c * c * sqlen axes v)%R.
Proof.
  unfold sqlen. rewrite <- rsum_map_scale. f_equal. apply map_ext. intros a. rewrite coord_scale. ring.
Qed.
Lemma sqlen_split axes v : sqlen axes v = rsum (map (fun a => sqlen [a] v) axes).
Proof. unfold sqlen. f_equal. apply map_ext. intros a. cbn. ring. Qed.
Lemma entries_scale c d : entries (scale_arr c d) = map (scale3 c) (entries d).
Proof. unfold entries, scale_arr. cbn. now rewrite concat_map. Qed.
Lemma msd_values_scale axes c d : msd_values axes (scale_arr c d) = map (Rmult (c * c)) (msd_values axes d).
Proof. unfold msd_values. rewrite entries_scale, !map_map. apply map_ext. intros v. apply sqlen_scale. Qed.

(** ** C25 *)
Section C25.
  Context {G Seed RS : Type} (X : Ext R G Seed RS).

  Lemma msd_run_means u dts disps n_o g b g' : 0 < u_sub_sample_dt u -> u_block u = false ->
    msd_bootstrap X u dts disps n_o g = Ok (b, g') ->
    exists axes used shown, names (pystr_text (u_dimension u)) axes
      /\ sub_sample (Z.to_nat (u_sub_sample_dt u)) disps used
      /\ leading (fun d => 1 < length (entries d))%nat used shown
      /\ b_n b = map (msd_of axes) shown.
  Proof.
    intros Hk Hb H. destruct (msd_run X u dts disps n_o g b g' Hk H) as (axes & shown & H1 & _ & H2 & _ & _ & HR).
    exists axes, (b_displacements b), shown. split; [exact H1|]. split; [exact H2|]. split.
    - eapply leading_iff; [|exact (br_shown _ _ _ _ _ _ _ _ _ _ HR)]. intros d. cbn beta. unfold msd_values.
      now rewrite map_length.
    - rewrite (br_n _ _ _ _ _ _ _ _ _ _ HR Hb). reflexivity.
  Qed.

  Lemma C25_nonneg_proof u dts disps n_o g b g' : 0 < u_sub_sample_dt u -> u_block u = false ->
    msd_bootstrap X u dts disps n_o g = Ok (b, g') -> Forall (fun x => 0 <= x)%R (b_n b).
  Proof.
    intros Hk Hb H. destruct (msd_run_means _ _ _ _ _ _ _ Hk Hb H) as (axes & used & shown & _ & _ & _ & ->).
    apply Forall_forall. intros x Hx. apply in_map_iff in Hx as (d & <- & _). apply average_nonneg.
    apply Forall_forall. intros y Hy. apply in_map_iff in Hy as (v & <- & _). apply sqlen_nonneg.
  Qed.

  Lemma C25_zero_proof u dts disps n_o g b g' axes i : 0 < u_sub_sample_dt u -> u_block u = false ->
    names (pystr_text (u_dimension u)) axes ->
    msd_bootstrap X u dts disps n_o g = Ok (b, g') -> (i < length (b_n b))%nat ->
    (nth_error (b_n b) i = Some 0%R <->
     exists d, nth_error disps (i * Z.to_nat (u_sub_sample_dt u)) = Some d
       /\ forall v a, In v (entries d) -> In a axes -> coord v a = 0%R).
  Proof.
    intros Hk Hb Hx H Hi. destruct (msd_run_means _ _ _ _ _ _ _ Hk Hb H) as (axes' & used & shown & H1 & H2 & H3 & E).
    assert (axes' = axes) by (eapply names_unique; eauto). subst axes'.
    rewrite E in Hi |- *. rewrite map_length in Hi. apply nth_error_Some in Hi.
    rewrite nth_error_map. destruct (nth_error shown i) as [d|] eqn:Ed; [|congruence]. cbn [option_map].
    assert (Hd := leading_nth _ _ _ _ _ H3 Ed). rewrite H2 in Hd. rewrite Hd.
    assert (Hl : (1 < length (entries d))%nat).
    { apply nth_error_In in Ed. now destruct (leading_In _ _ _ _ H3 Ed). }
    assert (K : msd_of axes d = 0%R <-> forall v a, In v (entries d) -> In a axes -> coord v a = 0%R).
    { unfold msd_of. rewrite average_zero.
      - rewrite Forall_forall. split.
        + intros K v a Hv Ha. specialize (K _ (in_map (sqlen axes) _ _ Hv)). apply (proj1 (sqlen_zero axes v) K a Ha).
        + intros K x Hx'. apply in_map_iff in Hx' as (v & <- & Hv). apply sqlen_zero. auto.
      - destruct (entries d); cbn in *; [lia|congruence].
      - apply Forall_forall. intros y Hy. apply in_map_iff in Hy as (v & <- & _). apply sqlen_nonneg. }
    split.
    - intros [= K0]. exists d. split; [reflexivity|]. now apply K.
    - intros (d' & [= <-] & K'). f_equal. now apply K.
  Qed.

  Lemma C25_scale_proof u dts disps n_o g b g' c g1 b1 g1' : 0 < u_sub_sample_dt u -> u_block u = false ->
    msd_bootstrap X u dts disps n_o g = Ok (b, g') ->
    msd_bootstrap X u dts (map (scale_arr c) disps) n_o g1 = Ok (b1, g1') ->
    b_n b1 = map (fun x => c * c * x)%R (b_n b).
  Proof.
    intros Hk Hb H H'.
    destruct (msd_run_means _ _ _ _ _ _ _ Hk Hb H) as (axes & used & shown & H1 & H2 & H3 & ->).
    destruct (msd_run_means _ _ _ _ _ _ _ Hk Hb H') as (axes' & used' & shown' & H1' & H2' & H3' & ->).
    assert (axes' = axes) by (eapply names_unique; eauto). subst axes'.
    assert (used' = map (scale_arr c) used) by (eapply (sub_sample_map (scale_arr c)); [|exact H2|exact H2']; lia).
    subst used'.
    assert (shown' = map (scale_arr c) shown).
    { eapply (leading_map (scale_arr c)); [|exact H3|exact H3']. intros d _.
      cbn beta. rewrite entries_scale, map_length. reflexivity. }
    subst shown'. rewrite !map_map. apply map_ext. intros d.
    change (msd_of axes (scale_arr c d)) with (average (msd_values axes (scale_arr c d))).
    rewrite msd_values_scale, average_scale. reflexivity.
  Qed.

  Lemma C25_perm_proof u dts disps disps' n_o g b g' g1 b1 g1' : 0 < u_sub_sample_dt u -> u_block u = false ->
    Forall2 (fun d d' => Permutation (entries d) (entries d')) disps disps' ->
    msd_bootstrap X u dts disps n_o g = Ok (b, g') ->
    msd_bootstrap X u dts disps' n_o g1 = Ok (b1, g1') ->
    b_n b1 = b_n b.
  Proof.
    intros Hk Hb HP H H'.
    destruct (msd_run_means _ _ _ _ _ _ _ Hk Hb H) as (axes & used & shown & H1 & H2 & H3 & ->).
    destruct (msd_run_means _ _ _ _ _ _ _ Hk Hb H') as (axes' & used' & shown' & H1' & H2' & H3' & ->).
    assert (axes' = axes) by (eapply names_unique; eauto). subst axes'.
    assert (HS : Forall2 (fun d d' => Permutation (entries d) (entries d')) shown shown').
    { eapply leading_Forall2; [eapply sub_sample_Forall2; eassumption| |eassumption|eassumption].
      intros x y Hxy. cbn beta. pose proof (Permutation_length Hxy); lia. }
    clear -HS. induction HS; [reflexivity|]. cbn. f_equal; [|exact IHHS].
    symmetry. apply average_perm. now apply Permutation_map.
  Qed.

  Lemma msd_of_split axes d : msd_of axes d = rsum (map (fun a => msd_of [a] d) axes).
  Proof.
    unfold msd_of, average. rewrite !map_length.
    rewrite (map_ext (fun a => rsum (map (sqlen [a]) (entries d)) / INR (length (map (sqlen [a]) (entries d))))%R
                     (fun a => / INR (length (entries d)) * rsum (map (sqlen [a]) (entries d)))%R)
      by (intros a; rewrite map_length; unfold Rdiv; ring).
    rewrite rsum_map_scale. unfold Rdiv. rewrite Rmult_comm. f_equal.
    induction (entries d) as [|v l IH].
    - cbn. clear. induction axes; cbn; [reflexivity|]. rewrite <- IHaxes. ring.
    - cbn [map]. rewrite rsum_cons, IH, sqlen_split. rewrite <- rsum_map_plus. reflexivity.
  Qed.
  Lemma names_letter a : forall s, names s [a] -> names s [a]. Proof. auto. Qed.

  Lemma C25_axes_proof u dts disps n_o gx gy gz g bx bY bz b gx' gy' gz' g' :
    0 < u_sub_sample_dt u -> u_block u = false ->
    msd_bootstrap X (with_dimension u "x") dts disps n_o gx = Ok (bx, gx') ->
    msd_bootstrap X (with_dimension u "y") dts disps n_o gy = Ok (bY, gy') ->
    msd_bootstrap X (with_dimension u "z") dts disps n_o gz = Ok (bz, gz') ->
    msd_bootstrap X (with_dimension u "xyz") dts disps n_o g = Ok (b, g') ->
    forall i x y z m, nth_error (b_n bx) i = Some x -> nth_error (b_n bY) i = Some y ->
      nth_error (b_n bz) i = Some z -> nth_error (b_n b) i = Some m -> m = (x + y + z)%R.
  Proof.
    intros Hk Hb Hx Hy Hz H i x y z m Ex Ey Ez Em.
    apply msd_run_means in Hx as (ax & ux & sx & X1 & X2 & X3 & X4); [|exact Hk|exact Hb].
    apply msd_run_means in Hy as (ay & uy & sy & Y1 & Y2 & Y3 & Y4); [|exact Hk|exact Hb].
    apply msd_run_means in Hz as (az & uz & sz & Z1 & Z2 & Z3 & Z4); [|exact Hk|exact Hb].
    apply msd_run_means in H as (am & um & sm & M1 & M2 & M3 & M4); [|exact Hk|exact Hb].
    cbn [u_sub_sample_dt with_dimension u_dimension pystr_text] in *.
    assert (ux = um) by (eapply sub_sample_unique; eauto). assert (uy = um) by (eapply sub_sample_unique; eauto).
    assert (uz = um) by (eapply sub_sample_unique; eauto). subst ux uy uz.
    assert (sx = sm) by (eapply leading_unique; eauto). assert (sy = sm) by (eapply leading_unique; eauto).
    assert (sz = sm) by (eapply leading_unique; eauto). subst sx sy sz.
    assert (ax = [AX]) by (eapply names_unique; [exact X1|]; repeat split; congruence).
    assert (ay = [AY]) by (eapply names_unique; [exact Y1|]; repeat split; congruence).
    assert (az = [AZ]) by (eapply names_unique; [exact Z1|]; repeat split; congruence).
    assert (am = [AX;AY;AZ]) by (eapply names_unique; [exact M1|]; repeat split; cbn; try congruence; lia).
    subst. rewrite X4 in Ex. rewrite Y4 in Ey. rewrite Z4 in Ez. rewrite M4 in Em.
    rewrite nth_error_map in *. destruct (nth_error sm i) as [d|]; [|discriminate].
    injection Ex as <-. injection Ey as <-. injection Ez as <-. injection Em as <-.
    rewrite (msd_of_split [AX;AY;AZ]). cbn [map rsum]. ring.
  Qed.

  (** ** C27 *)
  Lemma sample_variance_nonneg l : (1 < length l)%nat -> (0 <= sample_variance l)%R.
  Proof.
    intros H. unfold sample_variance. apply Rmult_le_pos.
    - apply rsum_nonneg. apply Forall_forall. intros y Hy. apply in_map_iff in Hy as (v & <- & _). apply Rle_0_sqr.
    - left. apply Rinv_0_lt_compat. apply lt_INR in H. cbn in H. lra.
  Qed.
  Lemma firstn_min_length {T} n (l : list T) : (n <= length l)%nat -> length (firstn n l) = n.
  Proof. intros. rewrite firstn_length. lia. Qed.

  Lemma C27_proof u dts disps n_o g b g' :
    u_sub_sample_dt u = 1 -> (forall x, x_sqrt X x = sqrt x) -> u_block u = false ->
    length dts = length disps -> length n_o = length disps -> Forall (fun x => 0 < x)%R n_o ->
    msd_bootstrap X u dts disps n_o g = Ok (b, g') ->
    exists axes shown, names (pystr_text (u_dimension u)) axes
      /\ leading (fun d => 1 < length (entries d))%nat disps shown
      /\ b_dt b = firstn (length shown) dts /\ b_n_o b = firstn (length shown) n_o
      /\ length (b_dt b) = length shown /\ length (b_n_o b) = length shown
      /\ b_n b = map (msd_of axes) shown
      /\ b_ngp b = map (fun d => non_gaussian (map (sqlen axes) (entries d))) shown
      /\ b_euclidian b = map (fun d => map (fun v => sqrt (sqlen axes v)) (entries d)) shown
      /\ length (b_v b) = length shown /\ length (b_s b) = length shown
      /\ forall i d, nth_error shown i = Some d -> exists no v s, nth_error n_o i = Some no
           /\ nth_error (b_v b) i = Some v /\ v = (sample_variance (map (sqlen axes) (entries d)) / no)%R
           /\ nth_error (b_s b) i = Some s /\ (0 <= s)%R /\ (s * s)%R = v.
  Proof.
    intros Hk Hsq Hb Hd Hn Hp H.
    destruct (msd_run X u dts disps n_o g b g' ltac:(lia) H) as (axes & shown & H1 & _ & H2 & H2' & H3 & HR).
    rewrite Hk in H2, H2'. apply sub_sample_one in H2. apply sub_sample_one in H2'. rewrite H2, H2' in HR.
    assert (HL : leading (fun d => 1 < length (entries d))%nat disps shown).
    { eapply leading_iff; [|exact (br_shown _ _ _ _ _ _ _ _ _ _ HR)]. intros d. cbn beta. unfold msd_values.
      now rewrite map_length. }
    assert (Hlen := leading_length _ _ _ HL).
    exists axes, shown. split; [exact H1|]. split; [exact HL|].
    split; [exact (br_dt _ _ _ _ _ _ _ _ _ _ HR)|]. split; [exact H3|].
    split; [exact (br_dt_len _ _ _ _ _ _ _ _ _ _ HR)|].
    split; [rewrite H3; apply firstn_min_length; lia|].
    split; [exact (br_n _ _ _ _ _ _ _ _ _ _ HR Hb)|].
    split; [exact (br_ngp _ _ _ _ _ _ _ _ _ _ HR)|].
    split. { rewrite (br_eucl _ _ _ _ _ _ _ _ _ _ HR). apply map_ext. intros d. apply map_ext. intros v. apply Hsq. }
    split; [exact (br_v_len _ _ _ _ _ _ _ _ _ _ HR)|].
    split; [rewrite (br_s _ _ _ _ _ _ _ _ _ _ HR), map_length; exact (br_v_len _ _ _ _ _ _ _ _ _ _ HR)|].
    intros i d Hi. destruct (br_v _ _ _ _ _ _ _ _ _ _ HR Hb i d Hi) as (no & N1 & N2).
    exists no, (sample_variance (msd_values axes d) / no)%R, (sqrt (sample_variance (msd_values axes d) / no))%R.
    split; [exact N1|]. split; [exact N2|]. split; [reflexivity|].
    split. { rewrite (br_s _ _ _ _ _ _ _ _ _ _ HR), nth_error_map, N2. cbn. now rewrite Hsq. }
    split; [apply sqrt_pos|]. apply sqrt_sqrt.
    apply Rmult_le_pos.
    - apply sample_variance_nonneg. unfold msd_values. rewrite map_length.
      apply nth_error_In in Hi. now destruct (leading_In _ _ _ _ HL Hi).
    - left. apply Rinv_0_lt_compat. rewrite Forall_forall in Hp. apply Hp. eapply nth_error_In; eauto.
  Qed.

  (** ** C28 *)
  Lemma C28_general_proof u dts disps n_o g b g' : 0 < u_sub_sample_dt u -> u_block u = false ->
    msd_bootstrap X u dts disps n_o g = Ok (b, g') ->
    forall i v, nth_error (b_v b) i = Some v -> exists axes d no, names (pystr_text (u_dimension u)) axes
      /\ nth_error disps (i * Z.to_nat (u_sub_sample_dt u)) = Some d /\ nth_error n_o i = Some no
      /\ v = (sample_variance (map (sqlen axes) (entries d)) / no)%R.
  Proof.
    intros Hk Hb H i v Hv.
    destruct (msd_run X u dts disps n_o g b g' Hk H) as (axes & shown & H1 & _ & H2 & _ & H3 & HR).
    assert (Hi : (i < length shown)%nat).
    { rewrite <- (br_v_len _ _ _ _ _ _ _ _ _ _ HR). apply nth_error_Some. congruence. }
    apply nth_error_Some in Hi. destruct (nth_error shown i) as [d|] eqn:E; [|congruence].
    destruct (br_v _ _ _ _ _ _ _ _ _ _ HR Hb i d E) as (no & N1 & N2).
    exists axes, d, no. split; [exact H1|].
    split. { apply (leading_nth _ _ _ _ _ (br_shown _ _ _ _ _ _ _ _ _ _ HR)) in E. now rewrite H2 in E. }
    split; [exact N1|]. rewrite N2 in Hv. now injection Hv as <-.
  Qed.
End C25.

(** ** When the constructors succeed *)
Section Total.
  Context {G Seed RS : Type} (X : Ext R G Seed RS).
  Lemma boot_loop_total u quantity n_samples n_o dts sl Qf axes (g : G) : slice_axes sl axes -> u_bootstrap u = false ->
    forall rest i b, b_delta_t b = dts -> b_slice b = sl -> length (b_v b) = i ->
    (forall d, In d rest -> quantity d (map (map (fun v => map (coord v) axes)) (a_rows d)) = Ok (Qf d) /\ (1 < length (Qf d))%nat) ->
    (i + length rest <= length dts)%nat -> (i + length rest <= length n_o)%nat ->
    exists b', boot_loop X u quantity n_samples n_o i rest b g = Ok (b', g).
  Proof.
    intros Hsl Hbs. induction rest as [|d rest IH]; intros i b Hd Hs Hv HQ L1 L2; [eexists; reflexivity|].
    cbn [length] in L1, L2. cbn [boot_loop].
    destruct (HQ d (or_introl eq_refl)) as [Q1 Q2].
    assert (E : exists b', boot_step X u quantity n_samples n_o i d b g = Ok (b', g)
                  /\ b_delta_t b' = dts /\ b_slice b' = sl /\ length (b_v b') = S i).
    { unfold boot_step. rewrite Hs, (disp_slice_axes sl axes d Hsl). cbn [bind]. rewrite Q1. cbn [bind].
      destruct (length (Qf d) <=? 1)%nat eqn:E; [apply Nat.leb_le in E; lia|]. rewrite Hbs. cbn [bind].
      assert (N : exists no, nth_error n_o i = Some no).
      { destruct (nth_error n_o i) eqn:En; [eauto|]. apply nth_error_None in En. lia. }
      destruct N as (no & N).
      assert (M : exists dt, nth_error dts i = Some dt).
      { destruct (nth_error dts i) eqn:En; [eauto|]. apply nth_error_None in En. lia. }
      destruct M as (dt & M).
      destruct (u_block u).
      - destruct (x_reblock X (Qf d)) as [mn se]. cbn [bind]. rewrite !py_index_nat.
        rewrite nth_app_end' by congruence. cbn [opt_res bind]. rewrite Hd, M. cbn [opt_res bind].
        eexists. split; [reflexivity|]. cbn. rewrite app_length. cbn. split; [exact Hd|]. split; [exact Hs|]. lia.
      - rewrite !py_index_nat, N. cbn [opt_res bind].
        rewrite py_index_nat, nth_app_end' by congruence. cbn [opt_res bind]. rewrite Hd, M. cbn [opt_res bind].
        eexists. split; [reflexivity|]. cbn. rewrite app_length. cbn. split; [exact Hd|]. split; [exact Hs|]. lia. }
    destruct E as (b' & E & D1 & D2 & D3). rewrite E. cbn [bind].
    apply (IH (S i) b' D1 D2 D3); [|lia|lia]. intros d' Hd'. apply HQ. now right.
  Qed.
  Lemma bootstrap_init_total dts (disps : list (Arr R)) n_o k dim axes : 0 < k -> disps <> [] ->
    names (pystr_text dim) axes -> exists b, bootstrap_init dts disps n_o k dim = Ok b.
  Proof.
    intros Hk Hd Hn. unfold bootstrap_init, py_stride. destruct (k =? 0) eqn:E1; [apply Z.eqb_eq in E1; lia|].
    destruct (0 <? k) eqn:E2; [|apply Z.ltb_ge in E2; lia]. cbn [bind].
    destruct disps as [|d disps]; [congruence|]. cbn [every].
    assert (E3 : forall l : list (Arr R), py_index (d :: l) 0 = Ok d) by (intros l; exact (py_index_nat (d :: l) 0)).
    rewrite E3. cbn [bind].
    destruct (dimension_lookup dim) as [(axes' & sl & _ & -> & _)|[H _]]; [|now apply H in Hn].
    cbn [bind]. eauto.
  Qed.
  Lemma sub_sample_le {U T} k (l a : list U) (l' b : list T) :
    (length l <= length l')%nat -> sub_sample k l a -> sub_sample k l' b -> (length a <= length b)%nat.
  Proof.
    intros H H1 H2. destruct (Nat.le_gt_cases (length a) (length b)) as [|Hlt]; [assumption|].
    destruct (nth_error a (length b)) eqn:E; [|apply nth_error_None in E; lia].
    rewrite H1 in E. assert (E2 : nth_error b (length b) = None) by (apply nth_error_None; lia).
    rewrite H2 in E2. apply nth_error_None in E2.
    assert (length b * k < length l)%nat by (apply nth_error_Some; congruence). lia.
  Qed.
  Lemma sub_sample_length {T} k (l a : list T) : (0 < k)%nat -> sub_sample k l a -> (length a <= length l)%nat.
  Proof.
    intros Hk H. destruct (Nat.le_gt_cases (length a) (length l)) as [|Hlt]; [assumption|].
    destruct (nth_error a (length l)) eqn:E; [|apply nth_error_None in E; lia].
    rewrite H in E. assert (length l * k < length l)%nat by (apply nth_error_Some; congruence). nia.
  Qed.
  Lemma msd_total u dts disps n_o axes (g : G) : 0 < u_sub_sample_dt u -> u_bootstrap u = false ->
    names (pystr_text (u_dimension u)) axes -> disps <> [] ->
    Forall (fun d => 1 < length (entries d))%nat disps ->
    (length disps <= length dts)%nat -> (length disps <= length n_o)%nat ->
    exists b, msd_bootstrap X u dts disps n_o g = Ok (b, g).
  Proof.
    intros Hk Hb Hn Hd HF L1 L2.
    destruct (bootstrap_init_total dts disps n_o _ _ axes Hk Hd Hn) as (b0 & E0).
    destruct (bootstrap_init_ok _ _ _ _ _ _ E0) as (axes' & N1 & N2 & N3 & N4 & N5 & N6 & _).
    assert (axes' = axes) by (eapply names_unique; eauto). subst axes'.
    assert (S1 := stride_sub _ _ _ Hk N4). assert (S2 := stride_sub _ _ _ Hk N5).
    assert (LL := sub_sample_length (Z.to_nat (u_sub_sample_dt u)) _ _ ltac:(lia) S1). assert (LM := sub_sample_le _ _ _ _ _ L1 S1 S2).
    destruct (boot_loop_total u (fun _ ds => Ok (d_squared ds)) (fun no _ => no) n_o (b_delta_t b0) (b_slice b0)
                (msd_values axes) axes g N2 Hb (b_displacements b0) 0%nat b0 eq_refl eq_refl) as (b1 & E1).
    - rewrite N6. reflexivity.
    - intros d Hin. rewrite d_squared_axes. split; [reflexivity|]. unfold msd_values. rewrite map_length.
      rewrite Forall_forall in HF. apply HF. eapply sub_sample_In; eauto.
    - lia.
    - lia.
    - unfold msd_bootstrap. rewrite E0. cbn [bind]. rewrite E1. cbn [bind]. eauto.
  Qed.
End Total.

(** ** C29, C30 *)
Lemma leading_firstn {T} (P : T -> Prop) l a k : leading P l a -> leading P (firstn k l) (firstn k a).
Proof.
  intros (r & -> & H1 & H2). exists (firstn (k - length a) r). split; [apply firstn_app|]. split.
  - apply Forall_forall. intros x Hx. rewrite Forall_forall in H1. apply H1.
    rewrite <- (firstn_skipn k a). apply in_or_app. now left.
  - apply Forall_forall. intros x Hx. rewrite Forall_forall in H2. apply H2.
    rewrite <- (firstn_skipn (k - length a) r). apply in_or_app. now left.
Qed.
Lemma tab_length {T} n (f : nat -> T) : length (tab n f) = n.
Proof. unfold tab. now rewrite map_length, seq_length. Qed.
Lemma average_msd_values axes d : average (msd_values axes d) = msd_of axes d.
Proof. reflexivity. Qed.

Section Collective.
  Context {G Seed RS : Type} (X : Ext R G Seed RS).

  Lemma C29_proof u dts disps n_o g b g' : 0 < u_sub_sample_dt u -> u_block u = false -> Forall arr_wf disps ->
    mstd_bootstrap X u dts disps n_o g = Ok (b, g') ->
    exists axes used shown, names (pystr_text (u_dimension u)) axes
      /\ sub_sample (Z.to_nat (u_sub_sample_dt u)) disps used
      /\ leading (fun d => 1 < a_obs d)%nat (firstn (Nat.div (length used) 2) used) shown
      /\ b_n b = map (mstd_of axes) shown.
  Proof.
    intros Hk Hb Hwf H. destruct (mstd_run X u dts disps n_o g b g' Hk Hwf H) as (axes & shown & H1 & _ & H2 & _ & _ & HR).
    exists axes, (b_displacements b), shown. split; [exact H1|]. split; [exact H2|]. split.
    - eapply leading_iff; [|exact (br_shown _ _ _ _ _ _ _ _ _ _ HR)]. intros d. cbn beta. unfold mstd_values.
      now rewrite tab_length.
    - rewrite (br_n _ _ _ _ _ _ _ _ _ _ HR Hb). reflexivity.
  Qed.

  Lemma one_row axes (d : Arr R) row : a_rows d = [row] -> length row = a_obs d ->
    mstd_of axes d = msd_of axes d.
  Proof.
    intros Hr Hl. unfold mstd_of, msd_of, entries. rewrite Hr. cbn [List.concat]. rewrite app_nil_r. f_equal.
    apply list_map_ext; [rewrite tab_length; lia|]. intros i v Hv. unfold tab.
    assert (Hi : (i < a_obs d)%nat) by (rewrite <- Hl; apply nth_error_Some; congruence).
    rewrite nth_error_map_seq by exact Hi. unfold at_time. rewrite Hr. cbn [flat_map]. rewrite Hv. cbn [app]. f_equal.
    unfold sqlen. f_equal. apply map_ext. intros a. destruct a; cbn; ring.
  Qed.
  Lemma C29_single_proof u dts disps n_o n_o' g g1 b b1 g' g1' :
    0 < u_sub_sample_dt u -> u_block u = false -> Forall arr_wf disps ->
    Forall (fun d => length (a_rows d) = 1%nat) disps ->
    msd_bootstrap X u dts disps n_o g = Ok (b, g') ->
    mstd_bootstrap X u dts disps n_o' g1 = Ok (b1, g1') ->
    b_n b1 = firstn (Nat.div (length (b_displacements b)) 2) (b_n b).
  Proof.
    intros Hk Hb Hwf H1 H H'.
    destruct (msd_run X u dts disps n_o g b g' Hk H) as (axes & shown & A1 & _ & A2 & _ & _ & HR).
    destruct (mstd_run X u dts disps n_o' g1 b1 g1' Hk Hwf H') as (axes' & shown' & A1' & _ & A2' & _ & _ & HR').
    assert (axes' = axes) by (eapply names_unique; eauto). subst axes'.
    assert (EU : b_displacements b1 = b_displacements b) by (eapply sub_sample_unique; eauto). rewrite EU in HR'.
    rewrite (br_n _ _ _ _ _ _ _ _ _ _ HR Hb), (br_n _ _ _ _ _ _ _ _ _ _ HR' Hb).
    assert (K : forall d, In d disps -> exists row, a_rows d = [row] /\ length row = a_obs d).
    { intros d Hd. rewrite Forall_forall in H1, Hwf. specialize (H1 d Hd). specialize (Hwf d Hd). unfold arr_wf in Hwf.
      destruct (a_rows d) as [|row [|]]; cbn in H1; try lia. exists row. split; [reflexivity|]. now inversion Hwf. }
    assert (S1 := br_shown _ _ _ _ _ _ _ _ _ _ HR). assert (S2 := br_shown _ _ _ _ _ _ _ _ _ _ HR').
    set (k := Nat.div (length (b_displacements b)) 2) in *.
    assert (Hin : forall d, In d (firstn k (b_displacements b)) -> In d disps).
    { intros d Hd. eapply sub_sample_In; [exact A2|]. rewrite <- (firstn_skipn k). apply in_or_app. now left. }
    assert (shown' = firstn k shown).
    { rewrite <- (map_id (firstn k shown)). eapply (leading_map (fun d => d)); [|exact (leading_firstn _ _ _ k S1)|].
      2:{ rewrite map_id. exact S2. }
      intros d Hd. destruct (K d (Hin d Hd)) as (row & R1 & R2). cbn beta. unfold msd_values, mstd_values.
      rewrite tab_length, map_length. unfold entries. rewrite R1. cbn [List.concat]. rewrite app_nil_r. lia. }
    subst shown'. rewrite firstn_map. apply map_ext_in. intros d Hd.
    destruct (K d) as (row & R1 & R2).
    { apply Hin. now destruct (leading_In _ _ _ _ (leading_firstn _ _ _ k S1) Hd). }
    exact (one_row axes d row R1 R2).
  Qed.

  Lemma C30_proof u dts disps q n_o g b g' natoms : 0 < u_sub_sample_dt u -> u_block u = false -> Forall arr_wf disps ->
    Forall (fun d => length (a_rows d) = natoms) disps ->
    (forall l, q = QArray l -> length l = natoms) ->
    mscd_bootstrap X u dts disps q n_o g = Ok (b, g') ->
    exists used shown, sub_sample (Z.to_nat (u_sub_sample_dt u)) disps used
      /\ leading (fun d => 1 < a_obs d)%nat (firstn (Nat.div (length used) 2) used) shown
      /\ b_n b = map (mscd_of all_axes (charges q natoms)) shown.
  Proof.
    intros Hk Hb Hwf Hn Hq H.
    destruct (mscd_run X u dts disps q n_o g b g' natoms Hk Hwf Hn Hq H) as (axes & shown & H1 & _ & H2 & _ & _ & HR).
    exists (b_displacements b), shown. split; [exact H2|]. split.
    - eapply leading_iff; [|exact (br_shown _ _ _ _ _ _ _ _ _ _ HR)]. intros d. cbn beta. unfold mscd_values.
      now rewrite tab_length.
    - rewrite (br_n _ _ _ _ _ _ _ _ _ _ HR Hb). reflexivity.
  Qed.

  Lemma C30_scalar_proof u dts disps c n_o g natoms : 0 < u_sub_sample_dt u ->
    Forall (fun d => length (a_rows d) = natoms) disps ->
    mscd_bootstrap X u dts disps (QScalar c) n_o g = mscd_bootstrap X u dts disps (QArray (repeat c natoms)) n_o g.
  Proof.
    intros Hk Hn. unfold mscd_bootstrap.
    destruct (bootstrap_init dts disps n_o (u_sub_sample_dt u) (u_dimension u)) as [b0|] eqn:E1; [|reflexivity].
    cbn [bind]. destruct (py_index (b_displacements b0) 0) as [d0|] eqn:E2; [|reflexivity]. cbn [bind].
    destruct (bootstrap_init_ok _ _ _ _ _ _ E1) as (axes & N1 & N2 & N3 & N4 & N5 & N6 & _).
    assert (S1 := stride_sub _ _ _ Hk N4).
    assert (Hd0 : length (a_rows d0) = natoms).
    { rewrite Forall_forall in Hn. apply Hn. apply py_index_ok_inv in E2. eapply sub_sample_In; eauto. }
    rewrite !charge_array_R, Hd0. reflexivity.
  Qed.
  Lemma scale3_mult a b v : scale3 (a * b)%R v = scale3 a (scale3 b v).
  Proof. unfold scale3. cbn. apply V3_eq; cbn; ring. Qed.
  Lemma sum3_scale c l : sum3 (map (scale3 c) l) = scale3 c (sum3 l).
  Proof.
    unfold sum3, scale3. cbn. rewrite !map_map. cbn. apply V3_eq; cbn; rewrite rsum_map_scale; reflexivity.
  Qed.
  Lemma mscd_of_scale axes c q d : mscd_of axes (map (Rmult c) q) d = (c * c * mscd_of axes q d)%R.
  Proof.
    unfold mscd_of. rewrite <- average_scale. f_equal. unfold tab. rewrite map_map. apply map_ext. intros t.
    rewrite <- sqlen_scale. f_equal. rewrite <- sum3_scale. f_equal. rewrite map_map.
    assert (E : forall (q : list R) l, map (fun p => scale3 (fst p) (snd p)) (combine (map (Rmult c) q) l)
                  = map (fun p => scale3 c (scale3 (fst p) (snd p))) (combine q l)).
    { induction q0 as [|x q0 IH]; intros [|v l]; cbn; try reflexivity. rewrite IH. f_equal. apply scale3_mult. }
    apply E.
  Qed.

  Lemma charges_scale c q n : charges (scale_charge c q) n = map (Rmult c) (charges q n).
  Proof. destruct q; cbn; [|reflexivity]. induction n; cbn; [reflexivity|]. now rewrite IHn. Qed.
  Lemma C30_scale_proof u dts disps q c n_o g b g' g1 b1 g1' natoms :
    0 < u_sub_sample_dt u -> u_block u = false -> Forall arr_wf disps ->
    Forall (fun d => length (a_rows d) = natoms) disps ->
    (forall l, q = QArray l -> length l = natoms) ->
    mscd_bootstrap X u dts disps q n_o g = Ok (b, g') ->
    mscd_bootstrap X u dts disps (scale_charge c q) n_o g1 = Ok (b1, g1') ->
    b_n b1 = map (fun x => c * c * x)%R (b_n b).
  Proof.
    intros Hk Hb Hwf Hn Hq H H'.
    assert (Hq' : forall l, scale_charge c q = QArray l -> length l = natoms).
    { destruct q as [x|l0]; cbn; [discriminate|]. intros l [= <-]. rewrite map_length. now apply Hq. }
    destruct (C30_proof _ _ _ _ _ _ _ _ natoms Hk Hb Hwf Hn Hq H) as (used & shown & A1 & A2 & ->).
    destruct (C30_proof _ _ _ _ _ _ _ _ natoms Hk Hb Hwf Hn Hq' H') as (used' & shown' & A1' & A2' & ->).
    assert (used' = used) by (eapply sub_sample_unique; eauto). subst used'.
    assert (shown' = shown) by (eapply leading_unique; eauto). subst shown'.
    rewrite map_map. apply map_ext. intros d. rewrite charges_scale. apply mscd_of_scale.
  Qed.
  Lemma combine_ones (q : list R) (l : list (V3 R)) : length q = length l -> Forall (fun x => x = 1%R) q ->
    map (fun p => scale3 (fst p) (snd p)) (combine q l) = l.
  Proof.
    revert l. induction q as [|x q IH]; intros [|v l] H F; try discriminate; [reflexivity|].
    inversion F; subst. cbn. rewrite IH by (cbn in H; auto; lia). f_equal. unfold scale3. apply V3_eq; cbn; ring.
  Qed.
  Lemma at_time_length (d : Arr R) t : arr_wf d -> (t < a_obs d)%nat -> length (at_time d t) = length (a_rows d).
  Proof. intros H Ht. rewrite at_time_wf by assumption. apply map_length. Qed.
  Lemma mscd_unit axes q d : arr_wf d -> length q = length (a_rows d) -> Forall (fun x => x = 1%R) q ->
    mscd_of axes q d = mstd_of axes d.
  Proof.
    intros Hwf Hq H1. unfold mscd_of, mstd_of. f_equal. unfold tab. apply map_seq_ext. intros t Ht.
    rewrite combine_ones; [reflexivity| |exact H1]. now rewrite at_time_length.
  Qed.
  Lemma C30_unit_proof u dts disps q n_o g b g' g1 b1 g1' natoms :
    0 < u_sub_sample_dt u -> u_block u = false -> Forall arr_wf disps ->
    Forall (fun d => length (a_rows d) = natoms) disps ->
    (forall l, q = QArray l -> length l = natoms) -> Forall (fun x => x = 1%R) (charges q natoms) ->
    names (pystr_text (u_dimension u)) all_axes ->
    mstd_bootstrap X u dts disps n_o g = Ok (b, g') ->
    mscd_bootstrap X u dts disps q n_o g1 = Ok (b1, g1') ->
    b_n b1 = b_n b.
  Proof.
    intros Hk Hb Hwf Hn Hq H1 Hall H H'.
    destruct (C29_proof _ _ _ _ _ _ _ Hk Hb Hwf H) as (axes & used & shown & A0 & A1 & A2 & ->).
    assert (axes = all_axes) by (eapply names_unique; eauto). subst axes.
    destruct (C30_proof _ _ _ _ _ _ _ _ natoms Hk Hb Hwf Hn Hq H') as (used' & shown' & A1' & A2' & ->).
    assert (used' = used) by (eapply sub_sample_unique; eauto). subst used'.
    assert (shown' = shown) by (eapply leading_unique; eauto). subst shown'.
    apply map_ext_in. intros d Hd. destruct (leading_In _ _ _ _ A2 Hd) as [Hd' _].
    assert (Hin : In d disps).
    { eapply sub_sample_In; [exact A1|]. rewrite <- (firstn_skipn (Nat.div (length used) 2) used). apply in_or_app. now left. }
    rewrite Forall_forall in Hwf, Hn. apply mscd_unit; [now apply Hwf| |exact H1].
    rewrite (Hn d Hin). destruct q as [c|l]; cbn; [apply repeat_length|]. now apply Hq.
  Qed.

  (** Success of the other two constructors. *)
  Lemma first_half_length {T} (l : list T) : (length (first_half l) <= length l)%nat.
  Proof. unfold first_half. rewrite firstn_length. lia. Qed.
  Lemma mstd_total u dts disps n_o axes (g : G) : 0 < u_sub_sample_dt u -> u_bootstrap u = false ->
    names (pystr_text (u_dimension u)) axes -> disps <> [] -> Forall arr_wf disps ->
    Forall (fun d => 1 < a_obs d)%nat disps ->
    (length disps <= length dts)%nat -> (length disps <= length n_o)%nat ->
    exists b, mstd_bootstrap X u dts disps n_o g = Ok (b, g).
  Proof.
    intros Hk Hb Hn Hd Hwf HF L1 L2.
    destruct (bootstrap_init_total dts disps n_o _ _ axes Hk Hd Hn) as (b0 & E0).
    destruct (bootstrap_init_ok _ _ _ _ _ _ E0) as (axes' & N1 & N2 & N3 & N4 & N5 & N6 & _).
    assert (axes' = axes) by (eapply names_unique; eauto). subst axes'.
    assert (S1 := stride_sub _ _ _ Hk N4). assert (S2 := stride_sub _ _ _ Hk N5).
    assert (LL := sub_sample_length (Z.to_nat (u_sub_sample_dt u)) _ _ ltac:(lia) S1). assert (LM := sub_sample_le _ _ _ _ _ L1 S1 S2).
    assert (LH := first_half_length (b_displacements b0)).
    destruct (boot_loop_total X u (fun d ds => Ok (coll_motion (a_obs d) (b_dims b0) ds)) (fun no n => ndiv no (nofnat n)) n_o
                (b_delta_t b0) (b_slice b0)
                (mstd_values axes) axes g N2 Hb (first_half (b_displacements b0)) 0%nat b0 eq_refl eq_refl) as (b1 & E1).
    - rewrite N6. reflexivity.
    - intros d Hin. assert (In d disps) by (eapply sub_sample_In; eauto using first_half_In).
      rewrite Forall_forall in Hwf, HF. rewrite N3, coll_motion_axes by now apply Hwf. split; [reflexivity|].
      change (mstd_values axes d) with (tab (a_obs d) (fun t => sqlen axes (sum3 (at_time d t)))); rewrite tab_length. now apply HF.
    - lia.
    - lia.
    - unfold mstd_bootstrap. rewrite E0. cbn [bind]. rewrite E1. cbn [bind]. eauto.
  Qed.
  Lemma mscd_total u dts disps q n_o axes natoms (g : G) : 0 < u_sub_sample_dt u -> u_bootstrap u = false ->
    names (pystr_text (u_dimension u)) axes -> disps <> [] -> Forall arr_wf disps ->
    Forall (fun d => length (a_rows d) = natoms) disps ->
    (forall l, q = QArray l -> length l = natoms) ->
    Forall (fun d => 1 < a_obs d)%nat disps ->
    (length disps <= length dts)%nat -> (length disps <= length n_o)%nat ->
    exists b, mscd_bootstrap X u dts disps q n_o g = Ok (b, g).
  Proof.
    intros Hk Hb Hn Hd Hwf Hna Hq HF L1 L2.
    destruct (bootstrap_init_total dts disps n_o _ _ axes Hk Hd Hn) as (b0 & E0).
    destruct (bootstrap_init_ok _ _ _ _ _ _ E0) as (axes' & N1 & N2 & N3 & N4 & N5 & N6 & d0 & N7 & _).
    assert (axes' = axes) by (eapply names_unique; eauto). subst axes'.
    assert (S1 := stride_sub _ _ _ Hk N4). assert (S2 := stride_sub _ _ _ Hk N5).
    assert (LL := sub_sample_length (Z.to_nat (u_sub_sample_dt u)) _ _ ltac:(lia) S1). assert (LM := sub_sample_le _ _ _ _ _ L1 S1 S2).
    assert (LH := first_half_length (b_displacements b0)).
    destruct (boot_loop_total X u (fun d (_ : list (list (list R))) => sq_chg_motion (charges q natoms) d) (fun no n => ndiv no (nofnat n)) n_o
                (b_delta_t b0) (b_slice b0)
                (mscd_values (charges q natoms)) axes g N2 Hb (first_half (b_displacements b0)) 0%nat b0 eq_refl eq_refl) as (b1 & E1).
    - rewrite N6. reflexivity.
    - intros d Hin. assert (In d disps) by (eapply sub_sample_In; eauto using first_half_In).
      rewrite Forall_forall in Hwf, HF, Hna. rewrite sq_chg_motion_axes; [|rewrite (Hna d) by assumption|now apply Hwf].
      + split; [reflexivity|]. unfold mscd_values. rewrite tab_length. now apply HF.
      + destruct q as [c|l]; cbn; [apply repeat_length|]. now apply Hq.
    - lia.
    - lia.
    - unfold mscd_bootstrap. rewrite E0. cbn [bind]. change 0 with (Z.of_nat 0). rewrite py_index_nat, N7. cbn [opt_res bind].
      rewrite charge_array_R. assert (Hd0 : length (a_rows d0) = natoms).
      { rewrite Forall_forall in Hna. apply Hna. eapply sub_sample_In; [exact S1|]. eapply nth_error_In; eauto. }
      rewrite Hd0, E1. cbn [bind]. eauto.
  Qed.
End Collective.

(** ** C31 *)
Lemma rsum_sq_dev (l : list R) (m : R) :
  rsum (map (fun x => (x - m) * (x - m))%R l) = (rsum (map (fun x => x * x)%R l) - 2 * m * rsum l + INR (length l) * (m * m))%R.
Proof.
  induction l as [|x l IH]; [cbn; ring|]. cbn [map]. rewrite !rsum_cons, IH.
  change (length (x :: l)) with (S (length l)). rewrite S_INR. ring.
Qed.
Lemma mean_square_dev l : l <> [] ->
  average (map (fun x => x * x)%R l) = (average l * average l + average (map (fun x => (x - average l) * (x - average l))%R l))%R.
Proof.
  intros Hl. assert (INR (length l) <> 0%R) by (apply not_0_INR; destruct l; cbn; [congruence|lia]).
  rewrite (average_map (fun x => (x - average l) * (x - average l))%R). rewrite rsum_sq_dev.
  rewrite average_map. unfold average. field. assumption.
Qed.
Lemma non_gaussian_dev l : l <> [] -> average l <> 0%R ->
  non_gaussian l = (-2/5 + 3/5 * (average (map (fun x => (x - average l) * (x - average l)) l) / (average l * average l)))%R.
Proof. intros Hl Ha. unfold non_gaussian. rewrite mean_square_dev by exact Hl. field. exact Ha. Qed.
Lemma C31_bound l : l <> [] -> average l <> 0%R -> (-2/5 <= non_gaussian l)%R.
Proof.
  intros Hl Ha. rewrite non_gaussian_dev by assumption.
  assert (0 <= average (map (fun x => (x - average l) * (x - average l)) l))%R.
  { apply average_nonneg. apply Forall_forall. intros y Hy. apply in_map_iff in Hy as (v & <- & _). apply Rle_0_sqr. }
  assert (0 < average l * average l)%R by nra.
  assert (0 <= average (map (fun x => (x - average l) * (x - average l)) l) / (average l * average l))%R.
  { apply Rmult_le_pos; [assumption|]. left. now apply Rinv_0_lt_compat. }
  lra.
Qed.
Lemma C31_equality l : l <> [] -> average l <> 0%R ->
  (non_gaussian l = (-2/5)%R <-> forall x y, In x l -> In y l -> x = y).
Proof.
  intros Hl Ha. rewrite non_gaussian_dev by assumption.
  set (D := map (fun x => (x - average l) * (x - average l))%R l).
  assert (HD : Forall (fun x => 0 <= x)%R D).
  { apply Forall_forall. intros y Hy. apply in_map_iff in Hy as (v & <- & _). apply Rle_0_sqr. }
  assert (HDn : D <> []) by (unfold D; destruct l; cbn; congruence).
  assert (H0 : average D = 0%R <-> Forall (fun x => x = 0%R) D) by now apply average_zero.
  assert (0 < average l * average l)%R by nra.
  split.
  - intros E. assert (E2 : average D = 0%R).
    { assert (E1 : (average D / (average l * average l) = 0)%R) by lra. unfold Rdiv in E1.
      apply Rmult_integral in E1 as [E1|E1]; [exact E1|]. exfalso.
      assert (0 < / (average l * average l))%R by now apply Rinv_0_lt_compat. lra. }
    apply H0 in E2. rewrite Forall_forall in E2.
    assert (K : forall x, In x l -> x = average l).
    { intros x Hx. specialize (E2 _ (in_map (fun x => (x - average l) * (x - average l))%R _ _ Hx)). cbn beta in E2.
      apply Rmult_integral in E2. lra. }
    intros x y Hx Hy. rewrite (K x Hx), (K y Hy). reflexivity.
  - intros K. destruct l as [|a l]; [congruence|].
    assert (Ea : average (a :: l) = a).
    { unfold average. assert (E1 : rsum (a :: l) = rsum (map (fun _ => a) (a :: l))).
      { f_equal. rewrite <- (map_id (a :: l)) at 1. apply map_ext_in. intros x Hx. apply K; [exact Hx|now left]. }
      rewrite E1, rsum_const. field. apply not_0_INR. cbn; lia. }
    assert (E2 : average D = 0%R).
    { apply H0. apply Forall_forall. intros y Hy. unfold D in Hy. apply in_map_iff in Hy as (x & <- & Hx).
      rewrite Ea. rewrite (K x a Hx (or_introl eq_refl)). ring. }
    rewrite E2. unfold Rdiv. ring.
Qed.
Lemma non_gaussian_scale c l : c <> 0%R -> average l <> 0%R -> non_gaussian (map (Rmult c) l) = non_gaussian l.
Proof.
  intros Hc E. unfold non_gaussian. rewrite average_scale, map_map.
  rewrite (map_ext (fun x => c * x * (c * x))%R (fun x => (c * c) * (x * x))%R) by (intros; ring).
  rewrite <- (map_map (fun x => x * x)%R (Rmult (c * c))), average_scale. field. split; assumption.
Qed.

Section C31.
  Context {G Seed RS : Type} (X : Ext R G Seed RS).
  Lemma msd_run_ngp u dts disps n_o g b g' : 0 < u_sub_sample_dt u ->
    msd_bootstrap X u dts disps n_o g = Ok (b, g') ->
    exists axes used shown, names (pystr_text (u_dimension u)) axes
      /\ sub_sample (Z.to_nat (u_sub_sample_dt u)) disps used
      /\ leading (fun d => 1 < length (entries d))%nat used shown
      /\ b_ngp b = map (fun d => non_gaussian (map (sqlen axes) (entries d))) shown.
  Proof.
    intros Hk H. destruct (msd_run X u dts disps n_o g b g' Hk H) as (axes & shown & H1 & _ & H2 & _ & _ & HR).
    exists axes, (b_displacements b), shown. split; [exact H1|]. split; [exact H2|]. split.
    - eapply leading_iff; [|exact (br_shown _ _ _ _ _ _ _ _ _ _ HR)]. intros d. cbn beta. unfold msd_values.
      now rewrite map_length.
    - exact (br_ngp _ _ _ _ _ _ _ _ _ _ HR).
  Qed.
  Lemma C31_proof u dts disps n_o g b g' axes i x : 0 < u_sub_sample_dt u ->
    names (pystr_text (u_dimension u)) axes ->
    msd_bootstrap X u dts disps n_o g = Ok (b, g') -> nth_error (b_ngp b) i = Some x ->
    exists d, nth_error disps (i * Z.to_nat (u_sub_sample_dt u)) = Some d
      /\ x = non_gaussian (map (sqlen axes) (entries d))
      /\ (msd_of axes d <> 0%R -> (-2/5 <= x)%R /\
           (x = (-2/5)%R <-> forall v w, In v (entries d) -> In w (entries d) -> sqlen axes v = sqlen axes w)).
  Proof.
    intros Hk Hn H Hx. destruct (msd_run_ngp _ _ _ _ _ _ _ Hk H) as (axes' & used & shown & H1 & H2 & H3 & E).
    assert (axes' = axes) by (eapply names_unique; eauto). subst axes'.
    rewrite E, nth_error_map in Hx. destruct (nth_error shown i) as [d|] eqn:Ed; [|discriminate].
    injection Hx as <-. exists d. split.
    { apply (leading_nth _ _ _ _ _ H3) in Ed. now rewrite H2 in Ed. }
    split; [reflexivity|]. intros Hm.
    assert (Hl : map (sqlen axes) (entries d) <> []).
    { apply nth_error_In in Ed. destruct (leading_In _ _ _ _ H3 Ed) as [_ Hl]. cbn beta in Hl.
      destruct (entries d); cbn in *; [lia|congruence]. }
    split; [now apply C31_bound|]. rewrite C31_equality by assumption. split.
    - intros K v w Hv Hw. apply K; now apply in_map.
    - intros K y z Hy Hz. apply in_map_iff in Hy as (v & <- & Hv). apply in_map_iff in Hz as (w & <- & Hw). auto.
  Qed.
  Lemma C31_scale_proof u dts disps n_o g b g' axes c g1 b1 g1' : 0 < u_sub_sample_dt u -> c <> 0%R ->
    names (pystr_text (u_dimension u)) axes ->
    (forall d, In d disps -> (1 < length (entries d))%nat -> msd_of axes d <> 0%R) ->
    msd_bootstrap X u dts disps n_o g = Ok (b, g') ->
    msd_bootstrap X u dts (map (scale_arr c) disps) n_o g1 = Ok (b1, g1') ->
    b_ngp b1 = b_ngp b.
  Proof.
    intros Hk Hc Hnm Hnz H H'.
    destruct (msd_run_ngp _ _ _ _ _ _ _ Hk H) as (axes0 & used & shown & H1 & H2 & H3 & ->).
    destruct (msd_run_ngp _ _ _ _ _ _ _ Hk H') as (axes' & used' & shown' & H1' & H2' & H3' & ->).
    assert (axes' = axes) by (eapply names_unique; eauto). subst axes'.
    assert (axes0 = axes) by (eapply names_unique; eauto). subst axes0.
    assert (used' = map (scale_arr c) used) by (eapply (sub_sample_map (scale_arr c)); [|exact H2|exact H2']; lia).
    subst used'.
    assert (shown' = map (scale_arr c) shown).
    { eapply (leading_map (scale_arr c)); [|exact H3|exact H3']. intros d _.
      cbn beta. rewrite entries_scale, map_length. reflexivity. }
    subst shown'. rewrite map_map. apply map_ext_in. intros d Hd.
    change (map (sqlen axes) (entries (scale_arr c d))) with (msd_values axes (scale_arr c d)).
    rewrite msd_values_scale, non_gaussian_scale; [reflexivity|nra|].
    destruct (leading_In _ _ _ _ H3 Hd) as [Hd1 Hd2]. apply Hnz; [|exact Hd2]. eapply sub_sample_In; eauto.
  Qed.
End C31.

(** ** C26 *)
Section C26.
  Context {G Seed RS : Type} (X : Ext R G Seed RS).
  Lemma C26_reject_init dts (disps : list (Arr R)) n_o k dim : 0 < k -> disps <> [] ->
    ~ nameable (pystr_text dim) -> bootstrap_init dts disps n_o k dim = Raise KeyError.
  Proof.
    intros Hk Hd Hn. unfold bootstrap_init.
    destruct (dimension_lookup dim) as [(axes & sl & H & _)|[_ H]]; [exfalso; apply Hn; now exists axes|].
    unfold py_stride. destruct (k =? 0) eqn:E1; [apply Z.eqb_eq in E1; lia|].
    destruct (0 <? k) eqn:E2; [|apply Z.ltb_ge in E2; lia]. cbn [bind].
    destruct disps as [|d disps]; [congruence|]. cbn [every].
    assert (E3 : forall l : list (Arr R), py_index (d :: l) 0 = Ok d) by (intros l; exact (py_index_nat (d :: l) 0)).
    rewrite E3. cbn [bind]. now rewrite H.
  Qed.
  Lemma C26_reject_proof u dts disps q n_o (g : G) : 0 < u_sub_sample_dt u -> disps <> [] ->
    ~ nameable (pystr_text (u_dimension u)) ->
    msd_bootstrap X u dts disps n_o g = Raise KeyError
    /\ mstd_bootstrap X u dts disps n_o g = Raise KeyError
    /\ mscd_bootstrap X u dts disps q n_o g = Raise KeyError.
  Proof.
    intros Hk Hd Hn. assert (E := C26_reject_init dts disps n_o _ _ Hk Hd Hn).
    unfold msd_bootstrap, mstd_bootstrap, mscd_bootstrap. rewrite E. auto.
  Qed.
End C26.


(** ** Demonstration data *)
Definition demo_boot (k : Z) (dim : string) : BootParams R := mkBootParams k false false 10 10 (PyStr dim) 0%R.
Definition demo_pair : Arr R := (mkArr 2 [[mkV 1 0 0; mkV 0 2 0]; [mkV 0 0 0; mkV 1 1 1]])%R.
Definition demo_pair' : Arr R := (mkArr 2 [[mkV 2 0 0; mkV 0 2 0]; [mkV 0 0 2; mkV (-2) 0 0]])%R.
Definition demo_disps : list (Arr R) := [demo_pair; demo_pair'].
Lemma demo_wf : Forall arr_wf demo_disps.
Proof. repeat constructor. Qed.
Lemma demo_obs : Forall (fun d => 1 < a_obs d)%nat demo_disps.
Proof. repeat constructor. Qed.
Lemma demo_atoms : Forall (fun d => length (a_rows d) = 2)%nat demo_disps.
Proof. repeat constructor. Qed.
Lemma demo_names dim axes : names dim axes -> names (pystr_text (u_dimension (demo_boot 1 dim))) axes.
Proof. auto. Qed.
Lemma names_xyz : names "xyz" all_axes.
Proof. unfold all_axes. repeat split; cbn; try congruence; lia. Qed.
Lemma names_x : names "x" [AX].
Proof. repeat split; cbn; try congruence; lia. Qed.

Section Demo.
  Context {G Seed RS : Type} (X : Ext R G Seed RS) (g : G).
  Lemma demo_leading1 : leading (fun d : Arr R => 1 < length (entries d))%nat demo_disps demo_disps.
  Proof. exists []. split; [now rewrite app_nil_r|]. split; repeat constructor. Qed.
  Lemma demo_sub : sub_sample 1 demo_disps demo_disps.
  Proof. intros i. now rewrite Nat.mul_1_r. Qed.
  Lemma demo_msd : exists b, msd_bootstrap X (demo_boot 1 "xyz") [1;2]%R demo_disps [4;3]%R g = Ok (b, g)
    /\ b_n b = [2; 4]%R /\ b_dims b = 3%nat /\ b_ngp b = [-1/40; -2/5]%R.
  Proof.
    destruct (msd_total X (demo_boot 1 "xyz") [1;2]%R demo_disps [4;3]%R all_axes g) as (b & E).
    1:{ cbn; lia. } 1:{ reflexivity. } 1:{ exact names_xyz. } 1:{ discriminate. }
    1:{ repeat constructor. } 1:{ cbn; lia. } 1:{ cbn; lia. }
    exists b. split; [exact E|].
    destruct (msd_run X (demo_boot 1 "xyz") _ _ _ _ _ _ eq_refl E) as (axes & shown & H1 & H2 & H3 & _ & _ & HR).
    assert (axes = all_axes) by (eapply names_unique; [exact H1|exact names_xyz]). subst axes.
    cbn [demo_boot u_sub_sample_dt] in H3. change (Z.to_nat 1) with 1%nat in H3.
    assert (EU : b_displacements b = demo_disps) by (eapply sub_sample_unique; [exact H3|exact demo_sub]).
    assert (ES : shown = demo_disps).
    { eapply leading_unique; [exact (br_shown _ _ _ _ _ _ _ _ _ _ HR)|]. rewrite EU.
      eapply leading_iff; [|exact demo_leading1]. intros d. cbn beta. unfold msd_values. now rewrite map_length. }
    rewrite ES in HR. split.
    - rewrite (br_n _ _ _ _ _ _ _ _ _ _ HR eq_refl). cbn. unfold average, rsum. cbn.
      unfold sqlen; cbn. f_equal; [field|f_equal; field].
    - split; [exact H2|]. rewrite (br_ngp _ _ _ _ _ _ _ _ _ _ HR). cbn. unfold non_gaussian, average, rsum. cbn.
      unfold sqlen; cbn. f_equal; [field|f_equal; field].
  Qed.
  Lemma demo_mstd : exists b, mstd_bootstrap X (demo_boot 1 "xyz") [1;2]%R demo_disps [4;3]%R g = Ok (b, g)
    /\ b_n b = [6]%R.
  Proof.
    destruct (mstd_total X (demo_boot 1 "xyz") [1;2]%R demo_disps [4;3]%R all_axes g) as (b & E).
    1:{ cbn; lia. } 1:{ reflexivity. } 1:{ exact names_xyz. } 1:{ discriminate. } 1:{ exact demo_wf. }
    1:{ repeat constructor. } 1:{ cbn; lia. } 1:{ cbn; lia. }
    exists b. split; [exact E|].
    destruct (C29_proof X (demo_boot 1 "xyz") _ _ _ _ _ _ eq_refl eq_refl demo_wf E) as (axes & used & shown & H1 & H2 & H3 & ->).
    assert (axes = all_axes) by (eapply names_unique; [exact H1|exact names_xyz]). subst axes.
    cbn [demo_boot u_sub_sample_dt] in H2. change (Z.to_nat 1) with 1%nat in H2.
    assert (EU : used = demo_disps) by (eapply sub_sample_unique; [exact H2|exact demo_sub]). subst used.
    assert (ES : shown = [demo_pair]).
    { eapply leading_all; [|exact H3]. repeat constructor. }
    rewrite ES. cbn. unfold mstd_of, average, rsum. cbn. unfold sqlen; cbn. f_equal; field.
  Qed.
End Demo.
