(** * ProofsTwice: indices named more than once (C118) *)
From Verif Require Import ProofsOrder Base Spec SpecParser SpecStats SpecRun SpecPool SpecTrue SpecLive SpecColl SpecOrder SpecTwice
  ModelParser ModelDiffusion ModelHdf ModelAnalyzer Lemmas ProofsDisp ProofsParser ProofsWindows ProofsStats ProofsStats2 ProofsTraj ProofsAnalyzer ProofsBoot ProofsGrid ProofsCollective ProofsPool ProofsTrue ProofsColl ProofsLive.
From Coq Require Import Reals Lra Lia Permutation Sorting.Sorted.
Open Scope nat_scope.

(** ** Copies of a list *)
Definition times {T} (c : nat) (l : list T) : list T := List.concat (repeat l c).
Lemma count_times c l z : count_occ Z.eq_dec (times c l) z = c * count_occ Z.eq_dec l z.
Proof. induction c as [|c IH]; [reflexivity|]. unfold times in *. cbn [repeat List.concat]. rewrite count_occ_app, IH. lia. Qed.
Lemma named_perm c l l' : named_again c l l' <-> Permutation l' (times c l).
Proof.
  split.
  - intros H. apply (Permutation_count_occ Z.eq_dec). intros z. now rewrite H, count_times.
  - intros H z. rewrite <- count_times. now apply (Permutation_count_occ Z.eq_dec).
Qed.
Lemma times_length {T} c (l : list T) : length (times c l) = c * length l.
Proof. induction c as [|c IH]; [reflexivity|]. unfold times in *. cbn [repeat List.concat]. rewrite app_length, IH. lia. Qed.
Lemma times_in {T} c (l : list T) x : 0 < c -> In x (times c l) <-> In x l.
Proof.
  intros Hc. unfold times. rewrite in_concat. split.
  - intros (k & Hk & Hx). apply repeat_spec in Hk. now subst k.
  - intros Hx. exists l. split; [|exact Hx]. destruct c; [lia|]. now left.
Qed.
Lemma times_map {S T} (f : S -> T) c l : map f (times c l) = times c (map f l).
Proof. unfold times. rewrite concat_map. f_equal. induction c as [|c IH]; [reflexivity|]. cbn [repeat map]. now rewrite IH. Qed.
Lemma times_rsum c l : rsum (times c l) = (INR c * rsum l)%R.
Proof. induction c as [|c IH]; [cbn; lra|]. unfold times in *. cbn [repeat List.concat]. rewrite rsum_app, IH, S_INR. ring. Qed.
Lemma times_concat {T} c (rows : list (list T)) : List.concat (times c rows) = times c (List.concat rows).
Proof. induction c as [|c IH]; [reflexivity|]. change (times (S c) rows) with (rows ++ times c rows)%list. now rewrite List.concat_app, IH. Qed.
Lemma times_average c l : 0 < c -> l <> [] -> average (times c l) = average l.
Proof.
  intros Hc Hl. unfold average. rewrite times_rsum, times_length, mult_INR. field. split; apply not_0_INR; [|lia]. destruct l; [congruence|cbn; lia].
Qed.
Lemma times_variance c l : 0 < c -> 1 < length l ->
  sample_variance (times c l) = (INR c * (INR (length l) - 1) / (INR c * INR (length l) - 1) * sample_variance l)%R.
Proof.
  intros Hc Hl. unfold sample_variance. rewrite times_average by (first [exact Hc | destruct l; [cbn in Hl; lia|discriminate]]). rewrite times_map, times_rsum, times_length, mult_INR.
  assert (A : (1 <= INR c)%R) by (replace 1%R with (INR 1) by reflexivity; apply le_INR; lia). assert (B : (2 <= INR (length l))%R) by (replace 2%R with (INR 2) by (cbn; lra); apply le_INR; lia).
  assert (C : (2 <= INR c * INR (length l))%R) by (replace 2%R with (1 * 2)%R by lra; apply Rmult_le_compat; lra). field. split; lra.
Qed.
Lemma variance_perm l l' : Permutation l l' -> sample_variance l = sample_variance l'.
Proof.
  intros P. unfold sample_variance. rewrite (average_perm _ _ P), (Permutation_length P). f_equal. apply rsum_perm. now apply Permutation_map.
Qed.
Lemma sum3_perm l l' : Permutation l l' -> sum3 l = sum3 l'.
Proof. intros P. unfold sum3. f_equal; apply rsum_perm; now apply Permutation_map. Qed.
Lemma sum3_times c l : sum3 (times c l) = scale3 (INR c) (sum3 l).
Proof. unfold sum3, scale3. rewrite !times_map, !times_rsum. reflexivity. Qed.

Lemma rsum_map_scale_id k l : rsum (map (Rmult k) l) = (k * rsum l)%R.
Proof. induction l as [|y l IH]; cbn [map]; [cbn; ring|]. rewrite !rsum_cons, IH. ring. Qed.
(** ** The values *)
Section Values.
  Context (N T : nat) (x : nat -> nat -> V3 R) (c : nat) (l l' : list Z) (m : nat).
  Hypothesis Hc : 0 < c.
  Hypothesis P : Permutation l' (times c l).
  Lemma msd_again axes : Permutation (msd_values axes (multi_window N T x l' m)) (times c (msd_values axes (multi_window N T x l m))).
  Proof.
    unfold msd_values, entries. cbn [multi_window a_rows]. rewrite <- times_map. apply Permutation_map.
    assert (Q : Permutation (map (fun i => tab (T - m + 1) (window_obs (x (site N i)) m)) l') (times c (map (fun i => tab (T - m + 1) (window_obs (x (site N i)) m)) l))).
    { rewrite <- times_map. now apply Permutation_map. }
    eapply Permutation_trans; [apply ProofsOrder.concat_perm; exact Q|]. apply Permutation_refl', times_concat.
  Qed.
  Lemma at_again t : t < T - m + 1 -> Permutation (at_time (multi_window N T x l' m) t) (times c (at_time (multi_window N T x l m) t)).
  Proof. intros Ht. rewrite !multi_at by exact Ht. rewrite <- times_map. now apply Permutation_map. Qed.
  Lemma mstd_again axes : mstd_values axes (multi_window N T x l' m) = map (Rmult (INR c * INR c)) (mstd_values axes (multi_window N T x l m)).
  Proof.
    unfold mstd_values. cbn [multi_window a_obs]. fold (multi_window N T x l m). fold (multi_window N T x l' m). unfold tab. rewrite map_map. apply map_ext_in. intros t Ht. apply in_seq in Ht.
    rewrite (sum3_perm _ _ (at_again t ltac:(lia))), sum3_times. apply sqlen_scale.
  Qed.
  Lemma scalar_charges (q : R) n (vs : list (V3 R)) : length vs = n -> sum3 (map (fun p => scale3 (fst p) (snd p)) (combine (charges (QScalar q) n) vs)) = scale3 q (sum3 vs).
  Proof.
    intros <-. cbn [charges]. rewrite <- sum3_scale. f_equal. induction vs as [|v vs IH]; [reflexivity|]. cbn [length repeat combine map fst snd]. now rewrite IH.
  Qed.
  Lemma mscd_again q : mscd_values (charges (QScalar q) (length l')) (multi_window N T x l' m) = map (Rmult (INR c * INR c)) (mscd_values (charges (QScalar q) (length l)) (multi_window N T x l m)).
  Proof.
    unfold mscd_values. cbn [multi_window a_obs]. fold (multi_window N T x l m). fold (multi_window N T x l' m). unfold tab. rewrite map_map. apply map_ext_in. intros t Ht. apply in_seq in Ht.
    rewrite !scalar_charges by (rewrite multi_at by lia; apply map_length). rewrite (sum3_perm _ _ (at_again t ltac:(lia))), sum3_times, <- sqlen_scale. f_equal. unfold scale3. cbn [vx vy vz]. f_equal; ring.
  Qed.
End Values.

(** ** Two readings *)
Lemma flat_live i frames types a l : documented i frames types a -> a_specie a = None -> a_specie_indices a = SIFlat l -> exists N x vol,
  l <> [] /\ Forall (valid_site N) l /\ (forall types', types_read i types types' a -> length types' = N)
  /\ forall l', l' <> [] -> parser_by i geomspace_R circular_mean_R frames (with_indices a l')
     = let! p := parser_init geomspace_R (table N (kept (length frames) (Z.to_nat (a_sub_sample_traj a))) x) l' (complement N l') (pynum_val (a_time_step a)) (steps_by i a) (a_opts a) in
       Ok (finished i vol p).
Proof.
  intros [Hf Ha Ht Hs (types' & St & Hsel & Hm) Hti _ _] Hsp Hl.
  destruct Hsel as [sp name Hs' _ _ _|l0 _ Hi Hl0 Hv HF|l0 len _ Hi _ _ _ _ _]; [congruence| |congruence]. assert (l0 = l) by congruence. subst l0.
  assert (R : exists st coords latt, readable types' (kept (length frames) (Z.to_nat (a_sub_sample_traj a))) st coords latt
    /\ forall l', parser_by i geomspace_R circular_mean_R frames (with_indices a l') = let! p := finish_parse geomspace_R circular_mean_R st coords latt (with_indices a l') (steps_by i a) in
         Ok (match i with Pymatgen => set_delta_t p (map (fun d => d * (n1 / nofZ 1000))%num (p_delta_t p)) | _ => p end)).
  { destruct i; cbn [parser_by steps_by atom_stride] in *.
    - change (Z.to_nat 1) with 1%nat in St. apply sub_sample_one in St. subst types'.
      destruct (read_plain frames types _ Hf Ht Ha) as (st & coords & latt & E & RD). exists st, coords, latt. split; [exact RD|]. intros l'.
      unfold ase_parser. cbn [with_indices a_sub_sample_traj a_step_skip]. rewrite E. cbn [bind]. destruct (finish_parse _ _ _ _ _ _ _); reflexivity.
    - change (Z.to_nat 1) with 1%nat in St. apply sub_sample_one in St. subst types'.
      destruct (read_plain frames types _ Hf Ht Ha) as (st & coords & latt & E & RD). exists st, coords, latt. split; [exact RD|]. intros l'.
      unfold pymatgen_parser. cbn [with_indices a_sub_sample_traj a_step_skip a_time_step]. rewrite E. cbn [bind]. destruct (Hti eq_refl) as (t & Ett). destruct (finish_parse _ _ _ _ _ _ _); [|reflexivity]. cbn [bind]. now rewrite Ett.
    - destruct (read_mda frames types types' _ _ Hf Ht Hs St Ha) as (st & coords & latt & E & RD). exists st, coords, latt. split; [exact RD|]. intros l'.
      unfold mda_parser. cbn [with_indices a_sub_sample_traj a_step_skip a_sub_sample_atoms a_specie_indices]. rewrite E.
      rewrite Hm by (auto; rewrite Hl; discriminate). change (1 =? 1)%Z with true. cbn [orb guard bind]. destruct (finish_parse _ _ _ _ _ _ _); reflexivity. }
  destruct R as (st & coords & latt & (Et & Lc & LL & Fc & V) & E). destruct (get_disp_live coords latt (length types') _ Lc LL Fc V) as (x & Ex).
  exists (length types'), x, (s_volume st). split; [exact Hl0|]. split; [exact Hv|]. split; [intros t2 S2; now rewrite (sub_sample_same _ _ _ _ S2 St)|].
  intros l' Hl'. rewrite E. unfold finish_parse, choose_atoms. cbn [with_indices a_specie a_specie_indices a_framework a_time_step a_opts]. rewrite Hsp. destruct l' as [|z l']; [congruence|].
  unfold get_framework. rewrite Et.
  assert (C : match a_framework a with PyList l0 => match complement (length types') (z :: l') with [] => Ok (z :: l', map (fun z => z - 1)%Z l0) | _ :: _ => Raise AttributeError end
              | _ => Ok (z :: l', complement (length types') (z :: l')) end = Ok (z :: l', complement (length types') (z :: l'))).
  { destruct (a_framework a) as [|f|]; try reflexivity. now specialize (HF f). }
  rewrite C. cbn [bind fst snd]. rewrite Ex. cbn [bind]. destruct (parser_init _ _ _ _ _ _ _); [|reflexivity]. cbn [bind]. destruct i; reflexivity.
Qed.
Lemma with_same a l : a_specie_indices a = SIFlat l -> with_indices a l = a.
Proof. intros H. destruct a. cbn in *. now subst. Qed.
Lemma same_intervals (disp : Arr R) I I' D ts ss o p p' : parser_init geomspace_R disp I D ts ss o = Ok p -> parser_init geomspace_R disp I' D ts ss o = Ok p' ->
  p_intervals p' = p_intervals p.
Proof.
  unfold parser_init. intros H H'. inv_bind H dc E1. rewrite ?E1 in H'. cbn [bind] in H'. inv_bind H q E2. rewrite ?E2 in H'. cbn [bind] in H'. inv_bind H mi E3. rewrite ?E3 in H'. cbn [bind] in H'.
  destruct (_ <=? _)%Z; [discriminate|]. inv_bind H tis E4. rewrite ?E4 in H'. cbn [bind] in H'. inv_bind H r E5. inv_bind H' r' E6. injection H as <-. injection H' as <-. reflexivity.
Qed.
Lemma complement_members n l l' : (forall z, In z l <-> In z l') -> complement n l = complement n l'.
Proof.
  intros H. unfold complement. apply filter_ext. intros z. f_equal. apply Bool.eq_iff_eq_true. rewrite !existsb_exists. split; intros (y & Hy & E); exists y; split; auto; now apply H.
Qed.
Record pair_read (T N : nat) (x : nat -> nat -> V3 R) (tis : list nat) (l : list Z) (p : Parsed R) : Prop := {
  pr_range : Forall (fun n => 0 < n <= T) tis;
  pr_sorted : StronglySorted le tis;
  pr_intervals : p_intervals p = map Z.of_nat tis;
  pr_disp : p_disp_3d p = map (multi_window N T x l) (filter (enough (length l) T) tis);
  pr_n_o : p_n_o p = map (obs_count (length l) (Z.of_nat (last tis 0%nat))) (filter (enough (length l) T) tis) }.
Lemma two_readings i frames types a l l' p p' : documented i frames types a -> a_specie a = None -> a_specie_indices a = SIFlat l -> o_sampling (a_opts a) = "multi-origin"%string ->
  (forall z, In z l <-> In z l') -> parser_by i geomspace_R circular_mean_R frames a = Ok p -> parser_by i geomspace_R circular_mean_R frames (with_indices a l') = Ok p' ->
  p_delta_t p' = p_delta_t p /\ exists N x tis, let T := kept (length frames) (Z.to_nat (a_sub_sample_traj a)) in pair_read T N x tis l p /\ pair_read T N x tis l' p'.
Proof.
  intros Hd Hsp Hl Em HM H H'. destruct (flat_live _ _ _ _ _ Hd Hsp Hl) as (N & x & vol & Ne & V & _ & E).
  assert (Ne' : l' <> []). { destruct l as [|z l]; [congruence|]. intros ->. destruct (HM z) as [K _]. apply K. now left. }
  assert (V' : Forall (valid_site N) l'). { rewrite Forall_forall in *. intros z Hz. apply V. now apply HM. }
  rewrite <- (with_same a l Hl), E in H by exact Ne. rewrite E in H' by exact Ne'. rewrite <- (complement_members N l l' HM) in H'.
  destruct Hd as [_ _ _ _ _ _ _ (S & S1 & Hlt)]. set (T := kept _ _) in *.
  inv_bind H q Q. inv_bind H' q' Q'. injection H as <-. injection H' as <-. pose proof (same_intervals _ _ _ _ _ _ _ _ _ Q Q') as SI.
  destruct (parser_init_sensible N T x l (complement N l) _ _ (a_opts a) V (complement_valid N l) S Hlt) as (tis & F1 & F2 & (F3 & F4) & E1). rewrite E1 in Q. clear E1.
  destruct (parser_init_sensible N T x l' (complement N l) _ _ (a_opts a) V' (complement_valid N l) S Hlt) as (tis' & G1 & G2 & (G3 & G4) & E2). rewrite E2 in Q'. clear E2.
  rewrite Em in Q, Q'. rewrite get_disps_multi' in Q, Q' by assumption.
  destruct (Rltb _ _) in Q; [discriminate|]. destruct (Rltb _ _) in Q'; [discriminate|]. cbn [bind fst snd] in Q, Q'. injection Q as <-. injection Q' as <-.
  cbn [p_intervals] in SI. assert (tis' = tis). { revert SI. clear. revert tis. induction tis' as [|n t IH]; intros [|n' t']; cbn; intros H; try discriminate; [reflexivity|]. injection H as A B. apply Nat2Z.inj in A. subst. f_equal. now apply IH. }
  subst tis'. split; [destruct i; reflexivity|]. exists N, (corrected N x (complement N l)), tis. cbv zeta. split; split; try assumption; destruct i; reflexivity.
Qed.

(** ** Reports *)
Section Reports.
  Context {G Seed RS : Type} (X : Ext R G Seed RS).
  Lemma read_entry T N x tis l p axes s ns Qf b j t : pair_read T N x tis l p -> entry_of X axes (of_parsed p) s ns Qf b -> nth_error (b_dt b) j = Some t ->
    exists m m', nth_error tis (j * s) = Some m /\ 0 < m <= T /\ nth_error (p_delta_t p) (j * s) = Some t /\ enough (length l) T m = true
      /\ nth_error (b_n b) j = Some (average (Qf (multi_window N T x l m)))
      /\ nth_error tis j = Some m' /\ 0 < m' <= T
      /\ nth_error (b_v b) j = Some (sample_variance (Qf (multi_window N T x l m)) / ns (obs_count (length l) (Z.of_nat (last tis 0%nat)) m') (length l))%R.
  Proof.
    intros [F1 F2 EI EP EN] E Ht. destruct (E j t Ht) as (d & no & E1 & E2 & E3 & _ & _ & E4 & E5). cbn [of_parsed an_disp_3d an_delta_t an_n_o] in *.
    rewrite Forall_forall in F1. assert (FP : Forall (fun n => 0 < n) tis) by (apply Forall_forall; intros n Hn; specialize (F1 n Hn); lia).
    rewrite EP, nth_error_map in E1. destruct (nth_error (filter _ tis) (j * s)) as [m|] eqn:Em; [|discriminate]. injection E1 as <-.
    rewrite EN, nth_error_map in E4. destruct (nth_error (filter _ tis) j) as [m'|] eqn:Em'; [|discriminate]. injection E4 as <-.
    pose proof (nth_error_In _ _ Em) as I1. apply filter_In in I1 as [I1 I2]. pose proof (nth_error_In _ _ Em') as I3. apply filter_In in I3 as [I3 _].
    rewrite (enough_prefix _ _ _ F2 FP) in Em, Em'. apply ProofsStats2.firstn_nth_error in Em. apply ProofsStats2.firstn_nth_error in Em'.
    exists m, m'. split; [exact Em|]. split; [now apply F1|]. split; [exact E2|]. split; [exact I2|]. split; [exact E3|]. split; [exact Em'|]. split; [now apply F1|].
    rewrite E5. cbn [multi_window a_rows]. now rewrite map_length.
  Qed.

  Lemma members c (l l' : list Z) : 0 < c -> Permutation l' (times c l) -> forall z, In z l <-> In z l'.
  Proof. intros Hc P z. rewrite <- (times_in c l z Hc). split; intros H; [apply (Permutation_in _ (Permutation_sym P) H)|apply (Permutation_in _ P H)]. Qed.
  Lemma enough_more n n' T m : n <= n' -> enough n T m = true -> enough n' T m = true.
  Proof. unfold enough. rewrite !Nat.ltb_lt. nia. Qed.
  Lemma enough_entries axes N T x l m : 0 < m <= T -> enough (length l) T m = true -> 1 < length (msd_values axes (multi_window N T x l m)) /\ length (msd_values axes (multi_window N T x l m)) = length l * (T - m + 1).
  Proof.
    intros Hm. unfold enough. rewrite Nat.ltb_lt. intros H. assert (L : length (msd_values axes (multi_window N T x l m)) = length l * (T - m + 1)).
    { unfold msd_values. rewrite map_length. change (T - m + 1) with (a_obs (multi_window N T x l m)). apply (length_entries _ (length l)); [apply multi_wf|]. cbn [multi_window a_rows]. apply map_length. }
    split; [|exact L]. rewrite L. assert (K : kept (T - m + 1) m <= T - m + 1). { destruct (Nat.le_gt_cases (kept (T - m + 1) m) (T - m + 1)) as [K|K]; [exact K|]. apply kept_spec in K; nia. } nia.
  Qed.
  Section Pair.
    Context (i : interface) (frames : list (Frame R)) (types : list string) (a : ModelParser.Params R) (c : nat) (l l' : list Z) (p p' : Parsed R).
    Hypothesis Hd : documented i frames types a.
    Hypothesis Hsp : a_specie a = None.
    Hypothesis Hl : a_specie_indices a = SIFlat l.
    Hypothesis Em : o_sampling (a_opts a) = "multi-origin"%string.
    Hypothesis Hc : 0 < c.
    Hypothesis HN : named_again c l l'.
    Hypothesis H : parser_by i geomspace_R circular_mean_R frames a = Ok p.
    Hypothesis H' : parser_by i geomspace_R circular_mean_R frames (with_indices a l') = Ok p'.
    Let T := kept (length frames) (Z.to_nat (a_sub_sample_traj a)).
    Lemma C118_read_proof : p_intervals p' = p_intervals p /\ p_delta_t p' = p_delta_t p /\ p_drift_indices p' = p_drift_indices p
      /\ length (p_disp_3d p) <= length (p_disp_3d p')
      /\ (2 <= length l -> length (p_disp_3d p') = length (p_disp_3d p) /\ p_n_o p' = map (Rmult (INR c)) (p_n_o p)).
    Proof.
      pose proof (proj1 (named_perm _ _ _) HN) as P. destruct (two_readings _ _ _ _ _ _ _ _ Hd Hsp Hl Em (members _ _ _ Hc P) H H') as (ED & N & x & tis & [F1 F2 EI EP EN] & [_ _ EI' EP' EN']).
      assert (LL : length l' = c * length l) by (rewrite (Permutation_length P); apply times_length).
      split; [now rewrite EI, EI'|]. split; [exact ED|]. split; [|split].
      - destruct (flat_live _ _ _ _ _ Hd Hsp Hl) as (N0 & x0 & vol & Ne & V & _ & E). pose proof H as K. pose proof H' as K'. rewrite <- (with_same a l Hl), E in K by exact Ne.
        assert (Ne' : l' <> []). { destruct l as [|z l0]; [congruence|]. intros ->. destruct (members _ _ _ Hc P z) as [M _]. apply M. now left. }
        rewrite E in K' by exact Ne'. rewrite <- (complement_members N0 l l' (members _ _ _ Hc P)) in K'. inv_bind K q Q. inv_bind K' q' Q'. injection K as <-. injection K' as <-.
        assert (D : forall (d : Arr R) I D ts ss o r, parser_init geomspace_R d I D ts ss o = Ok r -> p_drift_indices r = D).
        { clear. intros d I D ts ss o r. unfold parser_init. intros H. inv_bind H e1 E1. inv_bind H e2 E2. inv_bind H e3 E3. destruct (_ <=? _)%Z; [discriminate|]. inv_bind H e4 E4. inv_bind H e5 E5. now injection H as <-. }
        apply D in Q. apply D in Q'. destruct i; cbn; congruence.
      - rewrite EP, EP', !map_length. clear - LL Hc. induction tis as [|m tis IH]; [cbn; lia|]. cbn [filter]. destruct (enough (length l) _ m) eqn:E.
        + rewrite (enough_more (length l) (length l') _ _ ltac:(rewrite LL; nia) E). cbn [length]. lia.
        + destruct (enough (length l') _ m); cbn [length]; lia.
      - intros L2. assert (E : forall n, 2 <= n -> filter (enough n T) tis = tis).
        { intros n Hn. fold T in F1. clearbody T. clear - F1 Hn. induction F1 as [|m tis Hm _ IH]; [reflexivity|]. cbn [filter]. rewrite (enough_two n _ m Hm Hn). now rewrite IH. }
        fold T in EP, EP', EN, EN'. rewrite E in EP, EP', EN, EN' by (rewrite ?LL; nia). rewrite EP, EP', EN, EN', !map_length. split; [reflexivity|]. rewrite map_map. apply map_ext. intros m. unfold obs_count. rewrite LL, mult_INR. unfold Rdiv. ring.
    Qed.
    Context (u : BootParams R) (g g' h h' : G) (an an' : Analyzer R) (j m : nat) (t t' : R).
    Hypothesis Hk : (0 < u_sub_sample_dt u)%Z.
    Hypothesis Hb : u_block u = false.
    Hypothesis Hm : nth_error (p_intervals p) (j * Z.to_nat (u_sub_sample_dt u)) = Some (Z.of_nat m).
    Hypothesis Ht : nth_error (b_dt (an_diff an)) j = Some t.
    Hypothesis Ht' : nth_error (b_dt (an_diff an')) j = Some t'.
    Lemma pair_entries axes axes' ns Qf Qf' (f h0 : R) : entry_of X axes (of_parsed p) (Z.to_nat (u_sub_sample_dt u)) ns Qf (an_diff an) -> entry_of X axes' (of_parsed p') (Z.to_nat (u_sub_sample_dt u)) ns Qf' (an_diff an') ->
      (forall N x tis k, let d := multi_window N T x l m in let d' := multi_window N T x l' m in let lst := Z.of_nat (last tis 0%nat) in 0 < m <= T -> 0 < k -> pair_read T N x tis l p -> enough (length l) T m = true -> tis <> [] ->
         average (Qf' d') = (f * average (Qf d))%R
         /\ (sample_variance (Qf' d') / ns (obs_count (length l') lst k) (length l') = h0 * (sample_variance (Qf d) / ns (obs_count (length l) lst k) (length l)))%R) ->
      multiplied (an_diff an) (an_diff an') j f h0.
    Proof.
      intros E E' K. pose proof (proj1 (named_perm _ _ _) HN) as P. destruct (two_readings _ _ _ _ _ _ _ _ Hd Hsp Hl Em (members _ _ _ Hc P) H H') as (ED & N & x & tis & PR & PR').
      fold T in PR, PR'. destruct (read_entry _ _ _ _ _ _ _ _ _ _ _ _ _ PR E Ht) as (m1 & k & A1 & A2 & A3 & A4 & A5 & A6 & A7 & A8).
      destruct (read_entry _ _ _ _ _ _ _ _ _ _ _ _ _ PR' E' Ht') as (m2 & k2 & B1 & B2 & B3 & B4 & B5 & B6 & B7 & B8).
      assert (m2 = m1) by congruence. assert (k2 = k) by congruence. subst m2 k2. rewrite ED in B3. assert (t' = t) by congruence.
      rewrite (pr_intervals _ _ _ _ _ _ PR), nth_error_map, A1 in Hm. injection Hm as Hm1. apply Nat2Z.inj in Hm1. subst m1.
      destruct (K N x tis k A2 ltac:(lia) PR A4) as [K1 K2]. { intros ->. destruct k, j; discriminate. }
      exists t, (average (Qf (multi_window N T x l m))), (average (Qf' (multi_window N T x l' m))). do 2 eexists. subst t'. split; [exact Ht|]. split; [exact Ht'|]. split; [exact A5|]. split; [exact B5|]. split; [exact A8|]. split; [exact B8|]. split; [exact K1|exact K2].
    Qed.
    Lemma C118_msd_proof : diffusion_analyzer X (of_parsed p) u g = Ok (an, g') -> diffusion_analyzer X (of_parsed p') u h = Ok (an', h') ->
      let M := INR (length l * (T - m + 1)) in multiplied (an_diff an) (an_diff an') j 1 ((M - 1) / (INR c * M - 1)).
    Proof.
      intros A A'. pose proof (proj1 (named_perm _ _ _) HN) as P. destruct (diffusion_entry X _ _ _ _ _ Hk Hb A) as (axes & N1 & E). destruct (diffusion_entry X _ _ _ _ _ Hk Hb A') as (axes' & N2 & E').
      rewrite (names_unique _ _ _ N2 N1) in E'. apply (pair_entries _ _ _ _ _ _ _ E E'). intros N x tis k d d' lst Hmm Hkk PR EN NE.
      destruct (enough_entries axes N T x l m Hmm EN) as [M1 M2]. assert (MN : msd_values axes d <> []) by (intros C; unfold d in C; rewrite C in M1; cbn in M1; lia).
      assert (Hc1 : (INR c <> 0)%R) by (apply not_0_INR; lia).
      split.
      - unfold d, d'. rewrite (average_perm _ _ (msd_again N T x c l l' m P axes)), times_average by assumption. ring.
      - unfold d, d'. rewrite (variance_perm _ _ (msd_again N T x c l l' m P axes)), times_variance by assumption. rewrite M2.
        assert (LL : length l' = c * length l) by (rewrite (Permutation_length P); apply times_length). unfold bare, obs_count. rewrite LL, (mult_INR c).
        assert (L0 : (INR (length l) <> 0)%R) by (apply not_0_INR; intros C; rewrite C in M2; rewrite M2 in M1; cbn in M1; lia).
        assert (K0 : (INR k <> 0)%R) by (apply not_0_INR; lia).
        assert (T0 : (IZR lst <> 0)%R). { apply not_0_IZR. unfold lst. pose proof (pr_range _ _ _ _ _ _ PR) as F. assert (I : In (last tis 0%nat) tis). { rewrite (app_removelast_last 0%nat NE) at 2. apply in_or_app. right. now left. } rewrite Forall_forall in F. specialize (F _ I). lia. }
        assert (B : (2 <= INR (length l * (T - m + 1)))%R) by (replace 2%R with (INR 2) by (cbn; lra); apply le_INR; lia).
        assert (C1 : (1 <= INR c)%R) by (replace 1%R with (INR 1) by reflexivity; apply le_INR; lia).
        assert (C2 : (2 <= INR c * INR (length l * (T - m + 1)))%R) by (replace 2%R with (1 * 2)%R by lra; apply Rmult_le_compat; lra).
        fold d. revert C2 B. generalize (INR (length l * (T - m + 1))). intros M C2 B. field. repeat split; lra || assumption.
    Qed.
    Lemma scaled_entry N x tis k Qf Qf' : 0 < m <= T -> 0 < k -> pair_read T N x tis l p -> tis <> [] -> l <> [] ->
      Qf' (multi_window N T x l' m) = map (Rmult (INR c * INR c)) (Qf (multi_window N T x l m)) ->
      average (Qf' (multi_window N T x l' m)) = (INR c * INR c * average (Qf (multi_window N T x l m)))%R
      /\ (sample_variance (Qf' (multi_window N T x l' m)) / per_atom (obs_count (length l') (Z.of_nat (last tis 0%nat)) k) (length l')
         = INR c * INR c * (INR c * INR c) * (sample_variance (Qf (multi_window N T x l m)) / per_atom (obs_count (length l) (Z.of_nat (last tis 0%nat)) k) (length l)))%R.
    Proof.
      intros Hmm Hkk PR NE NL ->. pose proof (proj1 (named_perm _ _ _) HN) as P. assert (LL : length l' = c * length l) by (rewrite (Permutation_length P); apply times_length).
      split.
      - unfold average. rewrite map_length, rsum_map_scale_id. unfold Rdiv. ring.
      - rewrite ProofsSym.sample_variance_scale. unfold per_atom, obs_count. rewrite LL, mult_INR.
        assert (Hc1 : (INR c <> 0)%R) by (apply not_0_INR; lia).
        assert (L0 : (INR (length l) <> 0)%R) by (apply not_0_INR; destruct l; [congruence|cbn; lia]).
        assert (K0 : (INR k <> 0)%R) by (apply not_0_INR; lia).
        assert (T0 : (IZR (Z.of_nat (last tis 0%nat)) <> 0)%R). { apply not_0_IZR. pose proof (pr_range _ _ _ _ _ _ PR) as F. assert (I : In (last tis 0%nat) tis). { rewrite (app_removelast_last 0%nat NE) at 2. apply in_or_app. right. now left. } rewrite Forall_forall in F. specialize (F _ I). lia. }
        field. repeat split; assumption.
    Qed.
    Lemma pair_shape q (pp : Parsed R) N x tis : pair_read T N x tis q pp -> Forall arr_wf (p_disp_3d pp) /\ Forall (fun d => length (a_rows d) = length q) (p_disp_3d pp).
    Proof.
      intros [_ _ _ -> _]. split; apply Forall_forall; intros d Hin; apply in_map_iff in Hin as (n & <- & _); [apply multi_wf|apply map_length].
    Qed.
    Lemma C118_mstd_proof : jump_diffusion_analyzer X (of_parsed p) u g = Ok (an, g') -> jump_diffusion_analyzer X (of_parsed p') u h = Ok (an', h') ->
      multiplied (an_diff an) (an_diff an') j (INR c * INR c) (INR c * INR c * (INR c * INR c)).
    Proof.
      intros A A'. pose proof (proj1 (named_perm _ _ _) HN) as P. destruct (two_readings _ _ _ _ _ _ _ _ Hd Hsp Hl Em (members _ _ _ Hc P) H H') as (_ & N0 & x0 & tis0 & PR & PR').
      destruct (pair_shape _ _ _ _ _ PR) as [W _]. destruct (pair_shape _ _ _ _ _ PR') as [W' _].
      destruct (jump_entry X (of_parsed p) _ _ _ _ Hk Hb W A) as (axes & N1 & E). destruct (jump_entry X (of_parsed p') _ _ _ _ Hk Hb W' A') as (axes' & N2 & E').
      rewrite (names_unique _ _ _ N2 N1) in E'. apply (pair_entries _ _ _ _ _ _ _ E E'). intros N x tis k d d' lst Hmm Hkk PRx EN NE.
      destruct (flat_live _ _ _ _ _ Hd Hsp Hl) as (_ & _ & _ & NL & _). apply scaled_entry; try assumption. now apply mstd_again.
    Qed.
    Lemma C118_mscd_proof q : conductivity_analyzer X (of_parsed p) (QScalar q) u g = Ok (an, g') -> conductivity_analyzer X (of_parsed p') (QScalar q) u h = Ok (an', h') ->
      multiplied (an_diff an) (an_diff an') j (INR c * INR c) (INR c * INR c * (INR c * INR c)).
    Proof.
      intros A A'. pose proof (proj1 (named_perm _ _ _) HN) as P. destruct (two_readings _ _ _ _ _ _ _ _ Hd Hsp Hl Em (members _ _ _ Hc P) H H') as (_ & N0 & x0 & tis0 & PR & PR').
      destruct (pair_shape _ _ _ _ _ PR) as [W L]. destruct (pair_shape _ _ _ _ _ PR') as [W' L'].
      destruct (conductivity_entry X (of_parsed p) (QScalar q) u g an g' (length l) Hk Hb W L ltac:(discriminate) A) as (axes & N1 & E).
      destruct (conductivity_entry X (of_parsed p') (QScalar q) u h an' h' (length l') Hk Hb W' L' ltac:(discriminate) A') as (axes' & N2 & E').
      apply (pair_entries _ _ _ _ _ _ _ E E'). intros N x tis k d d' lst Hmm Hkk PRx EN NE.
      destruct (flat_live _ _ _ _ _ Hd Hsp Hl) as (_ & _ & _ & NL & _). apply (scaled_entry N x tis k (mscd_values (charges (QScalar q) (length l))) (mscd_values (charges (QScalar q) (length l')))); try assumption. now apply mscd_again.
    Qed.
  End Pair.
End Reports.

(** ** A run *)
Definition flat_params (l : list Z) : ModelParser.Params R := mkParams None (PyFloat 1%R) 1 1 1 (upto 2 2) (SIFlat l) None PyNone.
Definition pair_frames (y : nat -> nat -> V3 R) : list (Frame R) := frames_of ["Li"; "O"]%string 1%R 4 2 y (fun _ => unit_cell).
Lemma flat_documented y l : l <> [] -> Forall (valid_site 2) l -> documented Ase (pair_frames y) ["Li"; "O"]%string (flat_params l).
Proof.
  intros Hl Hv. split; cbn [flat_params a_sub_sample_traj a_sub_sample_atoms a_specie_indices a_time_step a_opts o_sampling a_step_skip pynum_val].
  - discriminate.
  - apply Forall_forall. intros f Hf. unfold pair_frames, frames_of, tab in Hf. apply in_map_iff in Hf as (j & <- & _). cbn [f_types f_pos f_cell].
    split; [reflexivity|]. split; [reflexivity|]. exact unit_cell_volume.
  - lia.
  - lia.
  - exists ["Li"; "O"]%string. split; [|split].
    + unfold types_read. intros j; cbn [atom_stride]; change (Z.to_nat 1) with 1%nat; now rewrite Nat.mul_1_r.
    + apply (by_positions _ _ l); [reflexivity|reflexivity|exact Hl|exact Hv|]. intros f. discriminate.
    + discriminate.
  - discriminate.
  - now left.
  - cbv zeta. change (Z.to_nat 1) with 1%nat. unfold pair_frames, frames_of. rewrite tab_length, kept_one.
    change (steps_by Ase (flat_params l)) with 1%Z. split; [|split; [cbn; lia|]].
    + split; unfold min_time, max_time; cbn [flat_params upto a_opts o_min_dt o_max_dt o_n_steps o_spacing]; cbn [INR]; try lra; try lia. now left.
    + unfold min_time. cbn [flat_params upto a_opts o_min_dt INR]. lra.
Qed.
Lemma flat_species y : parser_by Ase geomspace_R circular_mean_R (pair_frames y) (flat_params [0%Z]) = parser_by Ase geomspace_R circular_mean_R (pair_frames y) walk_params.
Proof.
  pose proof (flat_documented y [0%Z] ltac:(discriminate) ltac:(repeat constructor; cbn; lia)) as D.
  destruct (read_plain (pair_frames y) ["Li"; "O"]%string 1 (doc_frames _ _ _ _ D) ltac:(lia) (doc_atoms _ _ _ _ D)) as (st & coords & latt & E & (Et & _)).
  cbn [parser_by]. unfold ase_parser. cbn [flat_params walk_params hop_params a_sub_sample_traj a_step_skip]. rewrite E. cbn [bind]. unfold finish_parse, choose_atoms.
  cbn [flat_params walk_params hop_params a_specie a_specie_indices a_framework a_time_step a_opts]. rewrite Et. reflexivity.
Qed.
Lemma flat_memory y : exists p', parser_by Ase geomspace_R circular_mean_R (pair_frames y) (flat_params [0; 0]%Z) = Ok p'.
Proof.
  pose proof (flat_documented y [0; 0]%Z ltac:(discriminate) ltac:(repeat constructor; cbn; lia)) as D.
  apply (C84_memory_proof _ _ _ ["Li"; "O"]%string _ D).
  - intros j. change (Z.to_nat _) with 1%nat. now rewrite Nat.mul_1_r.
  - cbn. lia.
  - unfold in_gigabytes. match goal with |- (IZR ?z / _ <= _)%R => replace z with 384%Z by reflexivity end. cbn [flat_params upto a_opts o_memory_limit]. lra.
Qed.
Lemma twice_run : forall G Seed RS (X : Ext R G Seed RS) (g : G), exists frames a p p' jn jn' an an',
  documented Ase frames ["Li"; "O"]%string a /\ a_specie a = None /\ a_specie_indices a = SIFlat [0%Z] /\ o_sampling (a_opts a) = "multi-origin"%string
  /\ named_again 2 [0%Z] [0; 0]%Z /\ length frames = 4 /\ a_sub_sample_traj a = 1%Z
  /\ parser_by Ase geomspace_R circular_mean_R frames a = Ok p
  /\ parser_by Ase geomspace_R circular_mean_R frames (with_indices a [0; 0]%Z) = Ok p'
  /\ nth_error (p_intervals p) 0 = Some 1%Z
  /\ jump_diffusion_analyzer X (of_parsed p) (demo_boot 1 "xyz") g = Ok (jn, g) /\ jump_diffusion_analyzer X (of_parsed p') (demo_boot 1 "xyz") g = Ok (jn', g)
  /\ diffusion_analyzer X (of_parsed p) (demo_boot 1 "xyz") g = Ok (an, g) /\ diffusion_analyzer X (of_parsed p') (demo_boot 1 "xyz") g = Ok (an', g)
  /\ nth_error (b_n (an_diff jn)) 0 = Some (3 / 400)%R /\ nth_error (b_n (an_diff jn')) 0 = Some (3 / 100)%R
  /\ multiplied (an_diff an) (an_diff an') 0 1 (3 / 7).
Proof.
  intros G Seed RS X g. destruct (walk_read circular_mean_R ProofsTrue.steady steady_gentle) as (p & F & E1 & E2 & E3 & E4 & E5 & E6 & E7 & E8).
  destruct (fr_read _ _ _ _ _ _ _ _ _ _ _ F) as (img & K). set (y := fun f a => plus3 (walk ProofsTrue.steady f a) (ivec (img f a))) in *. change (handed_over _ _ _ _ _ _ _) with (pair_frames y) in K.
  pose proof (flat_documented y [0%Z] ltac:(discriminate) ltac:(repeat constructor; cbn; lia)) as D.
  destruct (flat_memory y) as (p' & K').
  assert (NA : named_again 2 [0%Z] [0; 0]%Z) by (apply named_perm; apply Permutation_refl).
  rewrite <- flat_species in K. change (flat_params [0; 0]%Z) with (with_indices (flat_params [0%Z]) [0; 0]%Z) in K'.
  destruct (two_readings _ _ _ _ _ _ _ _ D eq_refl eq_refl eq_refl (members 2 _ _ ltac:(lia) (proj1 (named_perm _ _ _) NA)) K K') as (ED & N & x & tis & PR & PR').
  assert (TI : tis = [1; 2]). { pose proof (pr_intervals _ _ _ _ _ _ PR) as I. rewrite E1 in I. destruct tis as [|a [|b [|]]]; try discriminate. injection I as I1 I2. f_equal; [lia|]. f_equal. lia. }
  subst tis. destruct (read_forms _ _ _ _ _ _ _ _ _ _ _ F) as (tis & RF). destruct (form_shape _ _ _ _ _ _ _ _ _ _ RF) as [W L].
  destruct (three_run X p (QScalar 1%R) g ltac:(now rewrite E4) E5 E6 E7 E8 W L ltac:(discriminate)) as (an & jn & _ & A1 & A2 & _ & B1 & B2 & _). rewrite E4 in B1, B2.
  assert (PI : p_indices p' = [0; 0]%Z).
  { destruct (flat_live _ _ _ _ _ D eq_refl eq_refl) as (N0 & x0 & vol & _ & _ & _ & E). rewrite E in K' by discriminate. inv_bind K' q Q. injection K' as <-. cbn. unfold parser_init in Q.
    inv_bind Q e1 Q1. inv_bind Q e2 Q2. inv_bind Q e3 Q3. destruct (_ <=? _)%Z; [discriminate|]. inv_bind Q e4 Q4. inv_bind Q e5 Q5. injection Q as <-. reflexivity. }
  destruct PR' as [_ _ _ EP EN]. change (kept (length (pair_frames y)) _) with 4 in EP, EN. change (filter _ [1; 2]) with [1; 2] in EP, EN. cbn [map] in EP, EN.
  assert (W2 : Forall arr_wf (p_disp_3d p')) by (rewrite EP; repeat constructor; apply multi_wf).
  destruct (three_run X p' (QScalar 1%R) g) as (an' & jn' & _ & A3 & A4 & _ & B3 & B4 & _).
  { now rewrite ED, E4. } { now rewrite EP. } { now rewrite EN. } { rewrite EP. repeat constructor. } { rewrite EP. repeat constructor. } { exact W2. } { rewrite EP, PI. repeat constructor. } { discriminate. }
  rewrite ED, E4 in B3, B4.
  exists (pair_frames y), (flat_params [0%Z]), p, p', jn, jn', an, an'. split; [exact D|]. do 3 (split; [reflexivity|]). split; [exact NA|]. split; [reflexivity|]. split; [reflexivity|].
  split; [exact K|]. split; [exact K'|]. split; [now rewrite E1|]. do 4 (split; [assumption|]).
  assert (V : nth_error (b_n (an_diff jn)) 0 = Some (3 / 400)%R).
  { assert (TB : forall f h, total_between all_axes 2 1 (fun f b => cart unit_cell (walk ProofsTrue.steady f b)) [0%Z] [1%Z] f h = ((ProofsTrue.steady h - ProofsTrue.steady f) * (ProofsTrue.steady h - ProofsTrue.steady f))%R).
    { intros f h. rewrite <- walk_square. unfold total_between, square_between, moves, average. cbn [map length].
      set (r := relative_displacement _ _ _ _ _ _). assert (KK : sum3 [r] = r) by (unfold sum3; cbn; destruct r; v3eq). rewrite KK. cbn. field. }
    destruct (C85_mstd_proof X _ _ _ _ _ _ _ _ _ _ _ (demo_boot 1 "xyz") _ _ _ _ F eq_refl eq_refl names_xyz A2 0%nat 1%R ltac:(now rewrite B2)) as (m & D1 & _ & _ & DD).
    rewrite E1 in D1. injection D1 as D1. assert (m = 1%nat) by (cbn in D1; lia). subst m. cbv zeta in DD. rewrite DD. f_equal.
    rewrite E2, E3, kept_one. unfold over_time, average. rewrite tab_length. unfold tab. cbn [Nat.sub seq map]. rewrite !TB. unfold ProofsTrue.steady. cbn [rsum fold_right Nat.add INR]. field. }
  split; [exact V|]. split.
  - destruct (C118_mstd_proof X _ _ _ _ 2 _ _ _ _ D eq_refl eq_refl eq_refl ltac:(lia) NA K K' (demo_boot 1 "xyz") g g g g jn jn' 0 1 1%R 1%R eq_refl eq_refl) as (t & v & v' & w & w' & T1 & T2 & T3 & T4 & T5 & T6 & T7 & T8); try assumption; try (now rewrite ?E1, ?B2, ?B4).
    rewrite T4, T7. rewrite T3 in V. injection V as ->. f_equal. cbn [INR]. lra.
  - pose proof (C118_msd_proof X _ _ _ _ 2 _ _ _ _ D eq_refl eq_refl eq_refl ltac:(lia) NA K K' (demo_boot 1 "xyz") g g g g an an' 0 1 1%R 1%R eq_refl eq_refl) as M.
    assert (M' := M ltac:(now rewrite E1) ltac:(now rewrite B1) ltac:(now rewrite B3) A1 A3). cbv zeta in M'. change (kept (length (pair_frames y)) _) with 4 in M'. cbn [Nat.sub Nat.add length Nat.mul] in M'.
    replace (3 / 7)%R with ((INR 4 - 1) / (INR 2 * INR 4 - 1))%R by (cbn [INR]; field). exact M'.
Qed.
Lemma C118_refuted_proof : forall G Seed RS (X : Ext R G Seed RS) (g : G), exists frames types a l l' p p' an an' v v',
  documented Ase frames types a /\ a_specie a = None /\ a_specie_indices a = SIFlat l /\ (forall z, In z l <-> In z l')
  /\ parser_by Ase geomspace_R circular_mean_R frames a = Ok p /\ parser_by Ase geomspace_R circular_mean_R frames (with_indices a l') = Ok p'
  /\ jump_diffusion_analyzer X (of_parsed p) (demo_boot 1 "xyz") g = Ok (an, g) /\ jump_diffusion_analyzer X (of_parsed p') (demo_boot 1 "xyz") g = Ok (an', g)
  /\ nth_error (b_n (an_diff an)) 0 = Some v /\ nth_error (b_n (an_diff an')) 0 = Some v' /\ v <> v'.
Proof.
  intros G Seed RS X g. destruct (twice_run G Seed RS X g) as (frames & a & p & p' & jn & jn' & _ & _ & D & H1 & H2 & _ & NA & _ & _ & K & K' & _ & A & A' & _ & _ & V & V' & _).
  exists frames, ["Li"; "O"]%string, a, [0%Z], [0; 0]%Z, p, p', jn, jn', (3 / 400)%R, (3 / 100)%R. split; [exact D|]. split; [exact H1|]. split; [exact H2|].
  split; [intros z; cbn; tauto|]. repeat (split; [assumption|]). lra.
Qed.
