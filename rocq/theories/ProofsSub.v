(** * ProofsSub: C34 with sub_sample_dt larger than one *)
From Verif Require Import Base Spec SpecParser SpecStats SpecFit ModelParser ModelDiffusion ModelHdf ModelAnalyzer
  Lemmas ProofsIntervals ProofsGeom ProofsWindows ProofsParser ProofsBoot ProofsStats ProofsCov ProofsFit ProofsFit2 SpecRun.
From Coq Require Import Reals Lra Lia ZArith Sorted.
Open Scope Z_scope.

(** ** Every k-th point of a linear grid *)
Lemma div_scale (k x q : Z) : 0 < k -> 0 < q -> (k * x) / q <= k * (x / q) + k - 1.
Proof.
  intros Hk Hq. pose proof (Z.div_mod x q ltac:(lia)). pose proof (Z.mod_pos_bound x q Hq).
  assert (k * x / q < k * (x / q) + k); [|lia].
  apply Z.div_lt_upper_bound; nia.
Qed.
Lemma div_add_scale (a k d q : Z) : 0 <= k -> 0 < q -> a / q + k * (d / q) <= (a + k * d) / q.
Proof.
  intros Hk Hq. apply Z.div_le_lower_bound; [exact Hq|].
  pose proof (Z.mul_div_le a q Hq). pose proof (Z.mul_div_le d q Hq). nia.
Qed.
Lemma div_add_one (a d q : Z) : 0 < q -> (a + d) / q <= a / q + d / q + 1.
Proof.
  intros Hq. assert ((a + d) / q < a / q + d / q + 2); [|lia].
  pose proof (Z.div_mod a q ltac:(lia)). pose proof (Z.mod_pos_bound a q Hq).
  pose proof (Z.div_mod d q ltac:(lia)). pose proof (Z.mod_pos_bound d q Hq).
  apply Z.div_lt_upper_bound; nia.
Qed.
Lemma lin_sub_step lo hi m k i : 1 <= lo -> lo <= hi -> Z.of_nat m - 1 <= hi - lo -> (0 < k)%nat -> (S i * k < m)%nat ->
  let f := lin lo hi m in
  f (i * k)%nat * f (i * k)%nat * f (S i) <= f (S i * k)%nat * f (S i * k)%nat * f i.
Proof.
  intros Hlo Hhi Hm Hk Hi f. unfold f, lin. set (q := Z.max 1 (Z.of_nat m - 1)). set (d := hi - lo) in *.
  assert (Hq : 0 < q) by lia.
  assert (D : 1 <= d / q). { apply Z.div_le_lower_bound; nia. }
  set (kz := Z.of_nat k). assert (Hkz : 0 < kz) by lia.
  replace (Z.of_nat (i * k) * d) with (kz * (Z.of_nat i * d)) by (unfold kz; nia).
  replace (Z.of_nat (S i * k) * d) with (kz * (Z.of_nat i * d) + kz * d) by (unfold kz; nia).
  replace (Z.of_nat (S i) * d) with (Z.of_nat i * d + d) by nia.
  pose proof (div_scale kz (Z.of_nat i * d) q Hkz Hq) as A1.
  pose proof (div_add_scale (kz * (Z.of_nat i * d)) kz d q ltac:(lia) Hq) as A2.
  pose proof (div_add_one (Z.of_nat i * d) d q Hq) as A3.
  assert (A4 : 0 <= Z.of_nat i * d / q) by (apply Z.div_pos; nia).
  assert (A5 : 0 <= kz * (Z.of_nat i * d) / q) by (apply Z.div_pos; nia).
  set (e := d / q) in *. set (x := Z.of_nat i * d / q) in *. set (y := kz * (Z.of_nat i * d) / q) in *.
  set (z := (kz * (Z.of_nat i * d) + kz * d) / q) in *. set (w := (Z.of_nat i * d + d) / q) in *.
  clearbody e x y z w kz q. clear - Hlo D Hkz A1 A2 A3 A4 A5.
  set (M := lo + y). set (a := lo + x).
  assert (HM : M <= kz * a) by (unfold M, a; nia).
  assert (Ha : 1 <= a) by (unfold a; lia). assert (HM1 : 1 <= M) by (unfold M; lia).
  assert (HJ : M + kz * e <= lo + z) by (unfold M; lia). assert (Hj : lo + w <= a + e + 1) by (unfold a; lia).
  apply Z.le_trans with (M * M * (a + e + 1)); [apply Z.mul_le_mono_nonneg_l; nia|].
  apply Z.le_trans with ((M + kz * e) * (M + kz * e) * a).
  - assert (M * M * (e + 1) <= 2 * (M * (kz * a) * e)).
    { assert (M * M <= M * (kz * a)) by nia. assert (0 <= M * M) by nia. nia. }
    assert (0 <= kz * e * (kz * e) * a) by nia. nia.
  - apply Z.mul_le_mono_nonneg_r; [lia|]. apply Z.mul_le_mono_nonneg; nia.
Qed.

Lemma zip_with_nth {A B C} (f : A -> B -> C) l m i a b c : length l = length m -> (i < length l)%nat ->
  nth i (zip_with f l m) c = f (nth i l a) (nth i m b).
Proof.
  intros HL Hi. apply nth_error_nth. apply nth_error_zip_with; apply nth_error_nth'; lia.
Qed.
Lemma nth_firstn_lt {A} (l : list A) k i d : (i < k)%nat -> nth i (firstn k l) d = nth i l d.
Proof. revert l i. induction k; intros [|x l] [|i] H; cbn; try reflexivity; try lia. apply IHk. lia. Qed.
Lemma nth_error_seq_lt s n i : (i < n)%nat -> nth_error (seq s n) i = Some (s + i)%nat.
Proof. intros H. rewrite (nth_error_nth' _ 0%nat) by (rewrite seq_length; exact H). now rewrite seq_nth. Qed.

(** ** Different intervals behind dt and n_o *)
Definition ratio_grows (ms ns : list nat) : Prop :=
  forall i j, (i <= j < length ms)%nat ->
    (nth i ms 0 * nth i ms 0 * nth j ns 0 <= nth j ms 0 * nth j ms 0 * nth i ns 0)%nat.
Lemma ratio_steps ms ns : length ms = length ns -> Forall (fun m => 0 < m)%nat ns ->
  (forall i, (S i < length ms)%nat ->
    (nth i ms 0 * nth i ms 0 * nth (S i) ns 0 <= nth (S i) ms 0 * nth (S i) ms 0 * nth i ns 0)%nat) -> ratio_grows ms ns.
Proof.
  intros HL Hp H i j [Hij Hj]. induction Hij as [|j Hij IH]; [lia|].
  specialize (IH ltac:(lia)). specialize (H j Hj).
  assert (P : forall l, (l < length ms)%nat -> (0 < nth l ns 0)%nat).
  { intros l Hl. rewrite Forall_forall in Hp. apply Hp, nth_In. lia. }
  pose proof (P j ltac:(lia)) as Pj.
  set (a := (nth i ms 0 * nth i ms 0)%nat) in *. set (b := (nth j ms 0 * nth j ms 0)%nat) in *.
  set (c := (nth (S j) ms 0 * nth (S j) ms 0)%nat) in *. clearbody a b c.
  apply (Nat.mul_le_mono_pos_r _ _ (nth j ns 0%nat) Pj).
  transitivity (b * nth i ns 0 * nth (S j) ns 0)%nat; nia.
Qed.
Lemma walk_sub_psd (K c a : R) ms ns m : (0 < K)%R -> (0 <= a)%R -> length ms = length ns ->
  Forall (fun m => 0 < m)%nat ns -> ratio_grows ms ns ->
  populate_covariance_matrix (model_variance (map (fun m => K / INR m)%R ns) (map (fun m => INR m * c)%R ms) a)
    (map (fun m => K / INR m)%R ns) = Ok m -> positive_semidefinite m.
Proof.
  intros HK Ha HL Hns Hs H.
  set (v := model_variance _ _ a) in *.
  assert (Lv : length v = length ns) by (unfold v, model_variance; rewrite zip_with_length, !map_length; lia).
  assert (Hn : Forall (fun x => 0 < x)%R (map (fun m => K / INR m)%R ns)).
  { apply Forall_forall. intros x Hx. apply in_map_iff in Hx as (k & <- & Hk). rewrite Forall_forall in Hns.
    apply Rdiv_lt_0_compat; [exact HK|]. apply lt_0_INR. now apply Hns. }
  assert (P : forall i, (i < length ns)%nat -> (0 < INR (nth i ns 0%nat))%R).
  { intros i Hi. apply lt_0_INR. rewrite Forall_forall in Hns. apply Hns, nth_In, Hi. }
  assert (E : forall i, (i < length ns)%nat ->
    vec_entry (square_counts v (map (fun m => K / INR m)%R ns)) i
    = (a * K * (c * c) * (INR (nth i ms 0%nat) * INR (nth i ms 0%nat) / INR (nth i ns 0%nat)))%R).
  { intros i Hi. rewrite square_counts_nth by lia. specialize (P i Hi).
    unfold vec_entry, v, model_variance.
    rewrite (zip_with_nth _ _ _ _ 0%R 0%R 0%R) by (rewrite !map_length; lia).
    rewrite !nth_map_nat by lia. unfold nsq. numR. field. lra. }
  apply (C34_proof v _ m H Hn). rewrite Lv. assert (0 <= a * K * (c * c))%R.
  { apply Rmult_le_pos; [|nra]. apply Rmult_le_pos; lra. }
  split.
  - intros i Hi. rewrite E by exact Hi. apply Rmult_le_pos; [assumption|]. specialize (P i Hi).
    apply Rmult_le_pos; [nra|]. left. now apply Rinv_0_lt_compat.
  - intros i j Hij. rewrite square_counts_length, Lv in Hij. rewrite !E by lia.
    apply Rmult_le_compat_l; [assumption|]. pose proof (P i ltac:(lia)) as Pi. pose proof (P j ltac:(lia)) as Pj.
    specialize (Hs i j ltac:(lia)). apply le_INR in Hs. rewrite !mult_INR in Hs.
    apply (Rmult_le_reg_r (INR (nth i ns 0%nat) * INR (nth j ns 0%nat))); [nra|].
    match goal with |- (?l <= ?r)%R => replace l with (INR (nth i ms 0%nat) * INR (nth i ms 0%nat) * INR (nth j ns 0%nat))%R by (field; lra);
      replace r with (INR (nth j ms 0%nat) * INR (nth j ms 0%nat) * INR (nth i ns 0%nat))%R by (field; lra) end.
    exact Hs.
Qed.
Lemma ratio_skipn ms ns k : ratio_grows ms ns -> ratio_grows (skipn k ms) (skipn k ns).
Proof. intros H i j Hij. rewrite !nth_skipn'. apply H. rewrite skipn_length in Hij. lia. Qed.
Lemma sub_walk_proof {G Seed RS} (X : Ext R G Seed RS) (b : Boot R) (p : GLSParams R RS) dr raw r K c ms ns :
  (0 < K)%R -> length ms = length ns -> Forall (fun m => 0 < m)%nat ns -> ratio_grows ms ns ->
  b_dt b = map (fun m => INR m * c)%R ms -> b_n_o b = map (fun m => K / INR m)%R ns ->
  l_model p = true -> (forall x y z a, x_curve_fit X x y z = Ok a -> (0 <= a)%R) ->
  generate_covariance_matrix X b p dr = (Some raw, r) -> positive_semidefinite raw.
Proof.
  intros HK HL Hns Hs E1 E2 Hm Hc H. unfold generate_covariance_matrix in H. rewrite Hm in H.
  destruct (x_curve_fit X (skipn dr (b_dt b)) (skipn dr (b_v b)) (skipn dr (b_n_o b))) as [a|e] eqn:Ea; cbn [bind] in H; [|discriminate].
  destruct (populate_covariance_matrix _ _) as [m|e] eqn:Em; [|discriminate]. injection H as -> _.
  rewrite E1, E2, !skipn_map in Em.
  eapply (walk_sub_psd K c a (skipn dr ms) (skipn dr ns)); [exact HK|eapply Hc; exact Ea| | | |exact Em].
  - rewrite !skipn_length. lia.
  - apply Forall_forall. intros x Hx. rewrite Forall_forall in Hns. apply Hns.
    rewrite <- (firstn_skipn dr ns). apply in_or_app. now right.
  - now apply ratio_skipn.
Qed.

(** ** Parser and bootstrap *)
Lemma parsed_lin N T (x : nat -> nat -> V3 R) idx drift (ts : R) ss o p :
  Forall (valid_site N) drift -> sensible T (IZR ss * ts) o -> o_spacing o = "linear"%string ->
  parser_init geomspace_R (table N T x) idx drift ts ss o = Ok p ->
  exists lo hi m, 1 <= lo /\ lo <= hi /\ p_intervals p = tab m (lin lo hi m).
Proof.
  intros Hd HS Hl Hp. pose proof (sens_unit _ _ _ HS) as Hu.
  assert (Hlt := accepted N T x idx drift ts ss o Hd HS p Hp).
  destruct (sensible_range T _ o HS Hlt) as (H1 & _ & H2).
  rewrite parser_init_unfold in Hp; [|exact Hd|lra].
  destruct (_ <=? _) eqn:E in Hp; [discriminate|]. rewrite Hl in Hp.
  assert (Hn : 0 <= steps_used T (IZR ss * ts) o).
  { unfold steps_used. pose proof (sens_steps _ _ _ HS). destruct (_ <? _); lia. }
  rewrite get_time_intervals_linear in Hp by (exact Hn || lra). cbn [bind] in Hp.
  destruct (get_disps _ _ _ _ _ _ _ _) as [r|e]; [|discriminate]. cbn [bind] in Hp. injection Hp as <-.
  cbn [p_intervals]. do 3 eexists. split; [|split; [|reflexivity]]; lia.
Qed.
Lemma parsed_counts_intervals N T (x : nat -> nat -> V3 R) idx drift (ts : R) ss o p :
  Forall (valid_site N) idx -> Forall (valid_site N) drift -> sensible T (IZR ss * ts) o -> idx <> [] ->
  o_sampling o = "multi-origin"%string \/ o_sampling o = "single-origin"%string ->
  parser_init geomspace_R (table N T x) idx drift ts ss o = Ok p ->
  exists K c tis k, (0 < K)%R /\ Forall (fun m => 0 < m)%nat tis /\ p_intervals p = map Z.of_nat tis
    /\ p_delta_t p = map (fun m => INR m * c)%R tis /\ p_n_o p = map (fun m => K / INR m)%R (firstn k tis)
    /\ length (p_disp_3d p) = length (p_n_o p).
Proof.
  intros Hi Hd HS Hne Hs Hp.
  assert (Hlen : length (p_disp_3d p) = length (p_n_o p)).
  { destruct Hs as [Hs|Hs].
    - now destruct (C09_multi_proof _ _ _ _ _ _ _ _ _ Hi Hd HS Hs Hp) as (-> & _).
    - now destruct (C09_single_proof _ _ _ _ _ _ _ _ _ Hi Hd HS Hs Hp) as (-> & _). }
  assert (H : exists tis k, Forall (fun n => (0 < n <= T)%nat) tis /\ StronglySorted le tis
    /\ p_intervals p = map Z.of_nat tis
    /\ p_delta_t p = delta_ts ts ss tis
    /\ p_n_o p = map (obs_count (length idx) (last_interval tis)) (firstn k tis)).
  { destruct Hs as [Hs|Hs].
    - destruct (run_multi N T x idx drift ts ss o Hi Hd HS p Hs Hp) as (tis & F1 & F2 & Ef & Em & ->).
      eexists tis, _. repeat (split; [eassumption || reflexivity|]). reflexivity.
    - destruct (run_single N T x idx drift ts ss o Hi Hd HS p Hs Hp) as (tis & F1 & F2 & Em & ->).
      eexists tis, _. repeat (split; [eassumption || reflexivity|]). reflexivity. }
  destruct H as (tis & k & F1 & F2 & E0 & E1 & E2).
  assert (F1' : Forall (fun m => 0 < m)%nat tis) by (eapply Forall_impl; [|exact F1]; cbn; lia).
  destruct tis as [|m0 rest] eqn:Et.
  - exists 1%R, 0%R, [], k. rewrite E1, E2. split; [lra|]. split; [constructor|]. split; [exact E0|].
    split; [reflexivity|]. split; [now destruct k|congruence].
  - rewrite <- Et in *. exists (INR (length idx) * IZR (last_interval tis))%R, (ts * IZR ss)%R, tis, k.
    split; [|split; [exact F1'|split; [exact E0|]]].
    + apply Rmult_lt_0_compat.
      * apply lt_0_INR. destruct idx; [congruence|cbn; lia].
      * apply IZR_lt. unfold last_interval.
        assert (m0 <= last tis 0)%nat by (apply sorted_last_max; [exact F2|rewrite Et; now left]).
        rewrite Et in F1'. inversion F1'; subst. lia.
    + split; [|split; [|congruence]].
      * rewrite E1. unfold delta_ts. apply map_ext. intros m. ring.
      * rewrite E2. reflexivity.
Qed.
Lemma nodup_lin lo hi m : lo <= hi -> NoDup (tab m (lin lo hi m)) -> Z.of_nat m - 1 <= hi - lo.
Proof.
  intros Hh Hn. destruct (Nat.le_gt_cases m 1) as [L|L]; [lia|].
  assert (G : forall i, (i < m)%nat -> lo + Z.of_nat i <= lin lo hi m i).
  { induction i as [|i IH]; intros Hi; [rewrite lin_first; lia|]. specialize (IH ltac:(lia)).
    pose proof (lin_mono lo hi m i (S i) Hh ltac:(lia)) as M.
    assert (lin lo hi m i <> lin lo hi m (S i)); [|lia].
    intros E. rewrite (NoDup_nth _ 0) in Hn. specialize (Hn i (S i)).
    unfold tab in Hn. rewrite map_length, seq_length in Hn. rewrite !nth_tab in Hn by lia.
    specialize (Hn ltac:(lia) Hi E). lia. }
  specialize (G (m - 1)%nat ltac:(lia)). rewrite lin_last in G by exact L. lia.
Qed.

Lemma parsed_step N T (x : nat -> nat -> V3 R) idx drift (ts : R) ss o p :
  Forall (valid_site N) drift -> sensible T (IZR ss * ts) o ->
  parser_init geomspace_R (table N T x) idx drift ts ss o = Ok p -> NoDup (p_intervals p) ->
  let f i := nth i (p_intervals p) 0 in
  forall k i, (0 < k)%nat -> (S i * k < length (p_intervals p))%nat ->
  f (i * k)%nat * f (i * k)%nat * f (S i) <= f (S i * k)%nat * f (S i * k)%nat * f i.
Proof.
  intros Hd HS Hp Hnd f k i Hk Hi. unfold f.
  destruct (string_dec (o_spacing o) "linear") as [Hl|Hl].
  - destruct (parsed_lin N T x idx drift ts ss o p Hd HS Hl Hp) as (lo & hi & m & L1 & L2 & L3).
    rewrite L3 in *. assert (L4 : Z.of_nat m - 1 <= hi - lo) by (now apply nodup_lin).
    unfold tab in *. rewrite map_length, seq_length in Hi. rewrite !nth_tab by nia. now apply lin_sub_step.
  - pose proof (sens_unit _ _ _ HS) as Hu.
    assert (Hlt := accepted N T x idx drift ts ss o Hd HS p Hp).
    destruct (sensible_range T _ o HS Hlt) as (H1 & _ & H2).
    rewrite parser_init_unfold in Hp; [|exact Hd|lra].
    destruct (_ <=? _) eqn:E in Hp; [discriminate|].
    destruct (string_dec (o_spacing o) "logarithmic") as [Hg|Hg].
    + rewrite Hg, get_time_intervals_log in Hp by lra.
      destruct (geomspace_R _ _ _) as [g|e] eqn:Eg in Hp; [|discriminate]. cbn [bind] in Hp.
      destruct (get_disps _ _ _ _ _ _ _ _) as [r|e]; [|discriminate]. cbn [bind] in Hp. injection Hp as <-.
      cbn [p_intervals] in *. eapply unique_geom_sub_step; [|exact Eg|exact Hk|exact Hi]. lia.
    + rewrite get_time_intervals_other in Hp by (lra || assumption). discriminate.
Qed.

Section SubSample.
  Context {G Seed RS : Type} (X : Ext R G Seed RS).
  Context (N T : nat) (x : nat -> nat -> V3 R) (idx drift : list Z) (ts : R) (ss : Z) (o : Options R) (p : Parsed R)
    (Hi : Forall (valid_site N) idx) (Hd : Forall (valid_site N) drift) (HS : sensible T (IZR ss * ts) o) (Hne : idx <> [])
    (Hs : o_sampling o = "multi-origin"%string \/ o_sampling o = "single-origin"%string)
    (Hp : parser_init geomspace_R (table N T x) idx drift ts ss o = Ok p)
    (Hnd : NoDup (p_intervals p))
    (l : GLSParams R RS) (Hm : l_model l = true)
    (Hc : forall x y z a, x_curve_fit X x y z = Ok a -> (0 <= a)%R).
  Lemma sub_end_to_end (b : Boot R) dr raw r u n_samples axes Qf used shown dsk dts k : (0 < k)%nat ->
    sub_sample k (p_disp_3d p) dsk -> (length used <= length dsk)%nat ->
    sub_sample k (p_delta_t p) dts ->
    boot_report X u n_samples (p_n_o p) dts axes Qf used shown b ->
    b_n_o b = firstn (length shown) (p_n_o p) ->
    generate_covariance_matrix X b l dr = (Some raw, r) -> positive_semidefinite raw.
  Proof.
    intros Hk Sd Hu St HR Hn H.
    destruct (parsed_counts_intervals N T x idx drift ts ss o p Hi Hd HS Hne Hs Hp)
      as (K & c & tis & kk & HK & F1 & E0 & E1 & E2 & E3).
    pose proof (parsed_step N T x idx drift ts ss o p Hd HS Hp Hnd) as Step.
    assert (Et : forall i, (i < length tis)%nat -> Z.of_nat (nth i tis 0%nat) = nth i (p_intervals p) 0).
    { intros i Hi'. rewrite E0. rewrite (nth_indep _ 0 (Z.of_nat 0)) by (now rewrite map_length). now rewrite map_nth. }
    assert (Hm' : length tis = length (p_intervals p)) by (rewrite E0; now rewrite map_length).
    set (s := length shown) in *.
    assert (Hs1 : (s <= length dsk)%nat).
    { destruct (br_shown _ _ _ _ _ _ _ _ _ _ HR) as (rest & E & _). rewrite E, app_length in Hu. unfold s. lia. }
    assert (Hs2 : forall i, (i < s)%nat -> (i * k < length (p_n_o p))%nat).
    { intros i Hi'. rewrite <- E3. apply nth_error_Some. rewrite <- (Sd i). apply nth_error_Some. lia. }
    assert (Hno : (length (p_n_o p) <= length tis)%nat) by (rewrite E2, map_length, firstn_length; lia).
    assert (Hs3 : (s <= length (p_n_o p))%nat).
    { destruct s; [lia|]. specialize (Hs2 s ltac:(lia)). nia. }
    eapply (sub_walk_proof X b l dr raw r K c (tab s (fun i => nth (i * k) tis 0%nat)) (firstn s tis)); try eassumption.
    - unfold tab. rewrite map_length, seq_length, firstn_length. lia.
    - apply Forall_forall. intros y Hin. rewrite Forall_forall in F1. apply F1.
      rewrite <- (firstn_skipn s tis). apply in_or_app. now left.
    - apply ratio_steps.
      + unfold tab. rewrite map_length, seq_length, firstn_length. lia.
      + apply Forall_forall. intros y Hin. rewrite Forall_forall in F1. apply F1.
        rewrite <- (firstn_skipn s tis). apply in_or_app. now left.
      + unfold tab. rewrite map_length, seq_length. intros i Hi'. rewrite !nth_tab by lia.
        rewrite !nth_firstn_lt by lia. pose proof (Hs2 (S i) Hi') as B.
        apply Nat2Z.inj_le. rewrite !Nat2Z.inj_mul, !Et by nia.
        apply Step; [exact Hk|]. lia.
    - rewrite (br_dt _ _ _ _ _ _ _ _ _ _ HR). fold s. apply list_ext. intros i.
      destruct (Nat.lt_ge_cases i s) as [Li|Li].
      + rewrite nth_error_firstn by exact Li. rewrite St, E1. unfold tab. rewrite map_map.
        rewrite !nth_error_map, nth_error_seq_lt by exact Li. cbn [option_map Nat.add].
        rewrite (nth_error_nth' tis 0%nat) by (specialize (Hs2 i Li); lia). reflexivity.
      + rewrite !(proj2 (nth_error_None _ _)); [reflexivity| |].
        * unfold tab. rewrite !map_length, seq_length. exact Li.
        * rewrite firstn_length. lia.
    - rewrite Hn, E2, firstn_map', firstn_firstn. f_equal. f_equal.
      rewrite E2, map_length, firstn_length in Hs3. lia.
  Qed.
  Context (u : BootParams R) (Hk : 0 < u_sub_sample_dt u).
  Lemma C34_msd_sub_proof g b g' dr raw r : msd_bootstrap X u (p_delta_t p) (p_disp_3d p) (p_n_o p) g = Ok (b, g') ->
    generate_covariance_matrix X b l dr = (Some raw, r) -> positive_semidefinite raw.
  Proof.
    intros E. destruct (msd_run X u _ _ _ g b g' Hk E) as (axes & shown & _ & _ & H3 & H4 & H5 & HR).
    eapply sub_end_to_end; [|exact H3| |exact H4|exact HR|exact H5]; lia.
  Qed.
  Lemma C34_mscd_sub_proof q g b g' dr raw r : (forall l, q = QArray l -> length l = length idx) ->
    mscd_bootstrap X u (p_delta_t p) (p_disp_3d p) q (p_n_o p) g = Ok (b, g') ->
    generate_covariance_matrix X b l dr = (Some raw, r) -> positive_semidefinite raw.
  Proof.
    intros Hq E.
    assert (W := parsed_wf N T x idx drift ts ss o p Hi Hd HS Hs Hp). assert (A := parsed_atoms N T x idx drift ts ss o p Hi Hd HS Hs Hp).
    destruct (mscd_run X u _ _ q _ g b g' (length idx) Hk W A Hq E) as (axes & shown & _ & _ & H3 & H4 & H5 & HR).
    eapply sub_end_to_end; [|exact H3| |exact H4|exact HR|exact H5]; [lia|rewrite firstn_length; lia].
  Qed.
  Lemma C34_mstd_sub_proof g b g' dr raw r :
    mstd_bootstrap X u (p_delta_t p) (p_disp_3d p) (p_n_o p) g = Ok (b, g') ->
    generate_covariance_matrix X b l dr = (Some raw, r) -> positive_semidefinite raw.
  Proof.
    intros E. assert (W := parsed_wf N T x idx drift ts ss o p Hi Hd HS Hs Hp).
    destruct (mstd_run X u _ _ _ g b g' Hk W E) as (axes & shown & _ & _ & H3 & H4 & H5 & HR).
    eapply sub_end_to_end; [|exact H3| |exact H4|exact HR|exact H5]; [lia|rewrite firstn_length; lia].
  Qed.
End SubSample.

(** ** A run whose covariance matrix is not positive semi-definite *)
Definition tight_options : Options R := (mkOptions (Some 1) (Some 4) 10 "linear" "multi-origin" 8 8)%R.
Definition walk_fit : GLSParams R nat := mkGLSParams 0%R 10%R true false 1 4 0 1 None.
Lemma tight_parsed (x : nat -> nat -> V3 R) : exists p,
  parser_init geomspace_R (table 1 10 x) [0] [] 1%R 1 tight_options = Ok p
  /\ p_intervals p = [1;1;1;2;2;2;3;3;3;4] /\ p_delta_t p = [1;1;1;2;2;2;3;3;3;4]%R
  /\ p_n_o p = [4;4;4;2;2;2;4/3;4/3;4/3;1]%R
  /\ length (p_disp_3d p) = 10%nat /\ Forall (fun d => 1 < length (entries d))%nat (p_disp_3d p).
Proof.
  unfold tight_options.
  rewrite (parser_init_ints geomspace_R 1 10 _ [0] [] 1 4 10 "multi-origin" 8 8) by (first [exact (Forall_nil _) | lia]).
  change (tab _ (lin _ 4 _)) with (map Z.of_nat [1;1;1;2;2;2;3;3;3;4]%nat).
  rewrite get_disps_multi' by (repeat constructor; cbn; lia).
  assert (E : Rltb 8 (in_gigabytes (fold_right Z.add 0 (map (estimate (length [0]) 10 8) [1;1;1;2;2;2;3;3;3;4]%nat))) = false).
  { apply Rltb_false. unfold in_gigabytes. cbn. lra. }
  rewrite E. cbn [bind].
  change (filter (enough (length [0]) 10) [1;1;1;2;2;2;3;3;3;4]%nat) with [1;1;1;2;2;2;3;3;3;4]%nat.
  eexists. split; [reflexivity|]. split; [reflexivity|]. cbn [p_delta_t p_n_o p_disp_3d fst snd].
  split; [unfold delta_ts; cbn; repeat f_equal; ring|].
  split; [unfold obs_count; cbn; repeat f_equal; field|].
  split; [reflexivity|]. repeat constructor; cbn; lia.
Qed.
Lemma C34_sub_refuted_proof : exists (x : nat -> nat -> V3 R) p (b : Boot R) raw r,
  sensible 10 (IZR 1 * 1) tight_options
  /\ parser_init geomspace_R (table 1 10 x) [0] [] 1%R 1 tight_options = Ok p
  /\ msd_bootstrap (demo_ext 1 1) (demo_boot 3 "xyz") (p_delta_t p) (p_disp_3d p) (p_n_o p) 0%nat = Ok (b, 0%nat)
  /\ b_dt b = [1;2;3;4]%R /\ b_n_o b = [4;4;4;2]%R
  /\ generate_covariance_matrix (demo_ext 1 1) b walk_fit 0 = (Some raw, r) /\ ~ positive_semidefinite raw.
Proof.
  exists (fun _ t => mkV (INR t) 0 0)%R.
  destruct (tight_parsed (fun _ t => mkV (INR t) 0 0)%R) as (p & P & _ & D & O & L & F). exists p.
  destruct (msd_total (demo_ext 1 1) (demo_boot 3 "xyz") (p_delta_t p) (p_disp_3d p) (p_n_o p) all_axes 0%nat) as (b & B).
  1:{ cbn; lia. } 1:{ reflexivity. } 1:{ exact names_xyz. } 1:{ intros E. rewrite E in L. discriminate. }
  1:{ exact F. } 1:{ rewrite L, D. cbn; lia. } 1:{ rewrite L, O. cbn; lia. }
  exists b.
  destruct (msd_run (demo_ext 1 1) (demo_boot 3 "xyz") _ _ _ _ _ _ eq_refl B) as (axes & shown & _ & _ & H3 & H4 & H5 & HR).
  cbn [demo_boot u_sub_sample_dt] in H3, H4. change (Z.to_nat 3) with 3%nat in *.
  assert (ED : b_delta_t b = [1;2;3;4]%R).
  { apply list_ext. intros i. rewrite (H4 i), D. destruct i as [|[|[|[|i]]]]; try reflexivity.
    rewrite !(proj2 (nth_error_None _ _)); [reflexivity| |]; cbn; lia. }
  assert (LS : length (b_displacements b) = 4%nat).
  { apply Nat.le_antisymm.
    - apply nth_error_None. rewrite (H3 4%nat). apply nth_error_None. rewrite L. lia.
    - apply Nat.lt_nge. intros C. destruct (nth_error (b_displacements b) 3) eqn:E.
      + assert (nth_error (b_displacements b) 3 <> None) by congruence. apply nth_error_Some in H. lia.
      + rewrite (H3 3%nat) in E. apply nth_error_None in E. rewrite L in E. lia. }
  assert (ES : length shown = 4%nat).
  { rewrite <- LS. f_equal. eapply leading_all; [|exact (br_shown _ _ _ _ _ _ _ _ _ _ HR)].
    apply Forall_forall. intros d Hd. apply In_nth_error in Hd as (i & Hd). rewrite (H3 i) in Hd. apply nth_error_In in Hd.
    rewrite Forall_forall in F. unfold msd_values. rewrite map_length. now apply F. }
  assert (E1 : b_dt b = [1;2;3;4]%R) by (rewrite (br_dt _ _ _ _ _ _ _ _ _ _ HR), ES, ED; reflexivity).
  assert (E2 : b_n_o b = [4;4;4;2]%R) by (rewrite H5, ES, O; reflexivity).
  unfold generate_covariance_matrix. cbn [walk_fit l_model skipn demo_ext x_curve_fit bind]. rewrite E1, E2.
  destruct (populate_covariance_matrix (model_variance [4;4;4;2]%R [1;2;3;4]%R 1%R) [4;4;4;2]%R) as [m|e] eqn:Em.
  2:{ exfalso. vm_compute in Em. discriminate. }
  exists m. eexists. split.
  { constructor; cbn; unfold min_time, max_time; cbn; try lra; try lia. now left. }
  split; [exact P|]. split; [exact B|]. split; [reflexivity|]. split; [reflexivity|]. split; [reflexivity|].
  intros C. apply (C34_proof _ _ _ Em) in C; [|repeat constructor; lra].
  destruct C as [_ C]. specialize (C 2%nat 3%nat). rewrite square_counts_length in C.
  cbn in C. unfold nsq in C. numR. specialize (C ltac:(lia)). unfold vec_entry, square_counts in C. cbn in C. lra.
Qed.
Definition plain_options : Options R := (mkOptions (Some 1) (Some 10) 100 "linear" "multi-origin" 8 8)%R.
Lemma C34_sub_example_proof : exists (x : nat -> nat -> V3 R) p (b : Boot R) raw r,
  sensible 10 (IZR 1 * 1) plain_options /\ NoDup (p_intervals p)
  /\ parser_init geomspace_R (table 2 10 x) [0;1] [] 1%R 1 plain_options = Ok p
  /\ msd_bootstrap (demo_ext 1 1) (demo_boot 3 "xyz") (p_delta_t p) (p_disp_3d p) (p_n_o p) 0%nat = Ok (b, 0%nat)
  /\ generate_covariance_matrix (demo_ext 1 1) b walk_fit 0 = (Some raw, r) /\ length raw = 4%nat.
Proof.
  exists (fun _ t => mkV (INR t) 0 0)%R.
  assert (Q : exists p, parser_init geomspace_R (table 2 10 (fun _ t => mkV (INR t) 0 0)%R) [0;1] [] 1%R 1 plain_options = Ok p
    /\ p_intervals p = [1;2;3;4;5;6;7;8;9;10] /\ p_delta_t p = [1;2;3;4;5;6;7;8;9;10]%R
    /\ length (p_disp_3d p) = 10%nat /\ length (p_n_o p) = 10%nat /\ Forall (fun d => 1 < length (entries d))%nat (p_disp_3d p)).
  { unfold plain_options.
    rewrite (parser_init_ints geomspace_R 2 10 _ [0;1] [] 1 10 100 "multi-origin" 8 8) by (first [exact (Forall_nil _) | lia]).
    change (tab _ (lin _ 10 _)) with (map Z.of_nat [1;2;3;4;5;6;7;8;9;10]%nat).
    rewrite get_disps_multi' by (repeat constructor; cbn; lia).
    assert (E : Rltb 8 (in_gigabytes (fold_right Z.add 0 (map (estimate (length [0;1]) 10 8) [1;2;3;4;5;6;7;8;9;10]%nat))) = false).
    { apply Rltb_false. unfold in_gigabytes. cbn. lra. }
    rewrite E. cbn [bind].
    change (filter (enough (length [0;1]) 10) [1;2;3;4;5;6;7;8;9;10]%nat) with [1;2;3;4;5;6;7;8;9;10]%nat.
    eexists. split; [reflexivity|]. split; [reflexivity|]. cbn [p_delta_t p_n_o p_disp_3d fst snd].
    split; [unfold delta_ts; cbn; repeat f_equal; ring|].
    split; [reflexivity|]. split; [reflexivity|]. repeat constructor; cbn; lia. }
  destruct Q as (p & P & I & D & L & O & F). exists p.
  destruct (msd_total (demo_ext 1 1) (demo_boot 3 "xyz") (p_delta_t p) (p_disp_3d p) (p_n_o p) all_axes 0%nat) as (b & B).
  1:{ cbn; lia. } 1:{ reflexivity. } 1:{ exact names_xyz. } 1:{ intros E. rewrite E in L. discriminate. }
  1:{ exact F. } 1:{ rewrite L, D. cbn; lia. } 1:{ rewrite L, O. cbn; lia. }
  exists b.
  destruct (msd_run (demo_ext 1 1) (demo_boot 3 "xyz") _ _ _ _ _ _ eq_refl B) as (axes & shown & _ & _ & H3 & H4 & H5 & HR).
  cbn [demo_boot u_sub_sample_dt] in H3, H4. change (Z.to_nat 3) with 3%nat in *.
  assert (LS : length (b_displacements b) = 4%nat).
  { apply Nat.le_antisymm.
    - apply nth_error_None. rewrite (H3 4%nat). apply nth_error_None. rewrite L. lia.
    - apply Nat.lt_nge. intros C. destruct (nth_error (b_displacements b) 3) eqn:E.
      + assert (nth_error (b_displacements b) 3 <> None) by congruence. apply nth_error_Some in H. lia.
      + rewrite (H3 3%nat) in E. apply nth_error_None in E. rewrite L in E. lia. }
  assert (ES : length shown = 4%nat).
  { rewrite <- LS. f_equal. eapply leading_all; [|exact (br_shown _ _ _ _ _ _ _ _ _ _ HR)].
    apply Forall_forall. intros d Hd. apply In_nth_error in Hd as (i & Hd). rewrite (H3 i) in Hd. apply nth_error_In in Hd.
    rewrite Forall_forall in F. unfold msd_values. rewrite map_length. now apply F. }
  assert (ED : b_delta_t b = [1;4;7;10]%R).
  { apply list_ext. intros i. rewrite (H4 i), D. destruct i as [|[|[|[|i]]]]; try reflexivity.
    rewrite !(proj2 (nth_error_None _ _)); [reflexivity| |]; cbn; lia. }
  assert (E1 : b_dt b = [1;4;7;10]%R) by (rewrite (br_dt _ _ _ _ _ _ _ _ _ _ HR), ES, ED; reflexivity).
  assert (E2 : exists a c d e, b_n_o b = [a;c;d;e]).
  { rewrite H5, ES. destruct (p_n_o p) as [|a [|c [|d [|e ?]]]]; try discriminate O. now exists a, c, d, e. }
  destruct E2 as (n1 & n2 & n3 & n4 & E2).
  unfold generate_covariance_matrix. cbn [walk_fit l_model skipn demo_ext x_curve_fit bind]. rewrite E1, E2.
  destruct (populate_covariance_matrix (model_variance [n1;n2;n3;n4]%R [1;4;7;10]%R 1%R) [n1;n2;n3;n4]%R) as [m|e] eqn:Em.
  2:{ exfalso. vm_compute in Em. discriminate. }
  exists m. eexists. split.
  { constructor; cbn; unfold min_time, max_time; cbn; try lra; try lia. now left. }
  split; [rewrite I; repeat constructor; cbn; lia|].
  split; [exact P|]. split; [exact B|]. split; [reflexivity|].
  destruct (proj1 (C33_proof _ _ _ Em)) as [W _]. rewrite W. reflexivity.
Qed.
