(** * ProofsLost: NaN and infinities survive every step of the analysis *)
From Verif Require Import Base Lemmas Spec SpecParser SpecStats SpecRun SpecTrue SpecLost ModelParser ModelDiffusion ModelHdf ModelAnalyzer
  ProofsTraj ProofsBoot ProofsStats ProofsDisp ProofsCentres ProofsSub SpecDouble SpecUnwrap SpecRound SpecChain SpecCollRound ProofsUnwrap ProofsRound ProofsChain ProofsCollRound.
From Coq.Floats Require Import SpecFloat.
Open Scope Z_scope.

(** A property of doubles that no operation removes. *)
Record absorbing (P : spec_float -> Prop) : Prop := {
  ab_add_l : forall x y, P x -> P (nadd x y); ab_add_r : forall x y, P y -> P (nadd x y);
  ab_sub_l : forall x y, P x -> P (nsub x y); ab_sub_r : forall x y, P y -> P (nsub x y);
  ab_mul_l : forall x y, P x -> P (nmul x y); ab_mul_r : forall x y, P y -> P (nmul x y);
  ab_div : forall x y, P x -> P (ndiv x y) }.
Lemma no_number_absorbing : absorbing no_number.
Proof.
  split; intros x y H; destruct x as [[]|[]| |[] ? ?], y as [[]|[]| |[] ? ?]; try (destruct H; fail); exact I.
Qed.
Lemma nan_absorbing : absorbing (fun x => x = S754_nan).
Proof. split; intros x y ->; try reflexivity; destruct x; reflexivity. Qed.

Section Absorb.
  Context (P : spec_float -> Prop) (HP : absorbing P).
  Definition lost (v : V3 spec_float) : Prop := exists i, P (part v i).
  Definition gone (v : V3 spec_float) : Prop := forall i, P (part v i).
  Lemma gone_vecmat v m : lost v -> gone (vecmat v m).
  Proof.
    intros [i H] j. unfold vecmat. destruct HP. destruct i, j; cbn [part vx vy vz] in *; auto.
  Qed.
  Lemma gone_lost v : gone v -> lost v.
  Proof. intros H. exists AX. apply H. Qed.
  Lemma gone_sub_l u v : gone u -> gone (vsub u v).
  Proof. intros H i. specialize (H i). destruct HP. destruct i; cbn [vsub vmap2 part vx vy vz] in *; auto. Qed.
  Lemma gone_sub_r u v : gone v -> gone (vsub u v).
  Proof. intros H i. specialize (H i). destruct HP. destruct i; cbn [vsub vmap2 part vx vy vz] in *; auto. Qed.
  Lemma gone_add_l u v : gone u -> gone (vadd u v).
  Proof. intros H i. specialize (H i). destruct HP. destruct i; cbn [vadd vmap2 part vx vy vz] in *; auto. Qed.
  Lemma gone_add_r u v : gone v -> gone (vadd u v).
  Proof. intros H i. specialize (H i). destruct HP. destruct i; cbn [vadd vmap2 part vx vy vz] in *; auto. Qed.

  Lemma fold_add l : forall acc, P acc \/ (exists x, In x l /\ P x) -> P (fold_left nadd l acc).
  Proof.
    induction l as [|y l IH]; intros acc H; cbn [fold_left].
    - destruct H as [H|[x [[] _]]]. exact H.
    - apply IH. destruct H as [H|[x [[->|I] H]]]; [left; now apply ab_add_l|left; now apply ab_add_r|right; eauto].
  Qed.
  Lemma nsum_lost l x : In x l -> P x -> P (nsum l).
  Proof. intros I H. apply fold_add. right. eauto. Qed.
  Lemma nmean_lost l x : In x l -> P x -> P (nmean l).
  Proof. intros I H. unfold nmean. refine (ab_div P HP _ _ _). eapply nsum_lost; eassumption. Qed.
  Lemma vmean_gone l v : In v l -> gone v -> gone (vmean l).
  Proof.
    intros I H i. unfold vmean. specialize (H i). destruct i; cbn [part vx vy vz] in *; (eapply nmean_lost; [apply in_map; exact I|exact H]).
  Qed.
  Lemma sq_norm_lost axes v : axes <> [] -> gone v -> P (sq_norm (map (part v) axes)).
  Proof.
    intros N H. destruct axes as [|a axes]; [congruence|]. unfold sq_norm. eapply nsum_lost; [left; reflexivity|]. unfold nsq. refine (ab_mul_l P HP _ _ _). apply H.
  Qed.
  Lemma lengths2_lost axes (d : Arr spec_float) v : axes <> [] -> In v (entries d) -> gone v -> P (nmean (lengths2 axes d)).
  Proof.
    intros N I H. eapply nmean_lost; [unfold lengths2; apply in_map_iff; exists v; split; [reflexivity|exact I]|]. now apply sq_norm_lost.
  Qed.

  (** Unwrapped displacements: the last one is gone. *)
  Lemma last_cons {T} (x : T) l d : last (x :: l) d = last l x.
  Proof. revert x d. induction l as [|y l IH]; intros x d; [reflexivity|]. change (last (x :: y :: l) d) with (last (y :: l) d). rewrite IH. symmetry. apply IH. Qed.
  Lemma cumsum_from_gone l : forall acc, gone acc \/ (exists v, In v l /\ gone v) -> gone (last (cumsum_from acc l) acc).
  Proof.
    induction l as [|y l IH]; intros acc H; cbn [cumsum_from].
    - destruct H as [H|[x [[] _]]]. exact H.
    - rewrite last_cons. apply IH. destruct H as [H|[x [[->|I] H]]]; [left; now apply gone_add_l|left; now apply gone_add_r|right; eauto].
  Qed.
  Lemma cumsum_gone l v d : In v l -> gone v -> gone (last (cumsum l) d).
  Proof.
    destruct l as [|y l]; intros I H; [destruct I|]. cbn [cumsum]. rewrite last_cons. apply cumsum_from_gone. destruct I as [->|I]; [now left|right; eauto].
  Qed.
  Lemma cumsum_from_len l : forall acc : V3 spec_float, length (cumsum_from acc l) = length l.
  Proof. induction l as [|y l IH]; intros acc; cbn; [reflexivity|]. now rewrite IH. Qed.
  Lemma cumsum_len (l : list (V3 spec_float)) : length (cumsum l) = length l.
  Proof. destruct l as [|y l]; cbn; [reflexivity|]. now rewrite cumsum_from_len. Qed.
  Lemma np_diff_len (l : list (V3 spec_float)) : length (np_diff l) = (length l - 1)%nat.
  Proof. unfold np_diff. rewrite zip_with_length. destruct l; cbn [tl length]; lia. Qed.
  Lemma np_diff_gone l f v : nth_error l f = Some v -> gone v -> (1 < length l)%nat -> exists t w, nth_error (np_diff l) t = Some w /\ gone w.
  Proof.
    intros E H L. destruct f as [|f].
    - destruct l as [|x [|y l]]; cbn in E, L; try lia. injection E as ->. exists 0%nat, (vsub y v). split; [reflexivity|now apply gone_sub_r].
    - destruct (nth_error l f) as [w|] eqn:E'; [|apply nth_error_None in E'; assert (S f < length l)%nat by (apply nth_error_Some; congruence); lia].
      exists f, (vsub v w). split; [|now apply gone_sub_l]. unfold np_diff.
      rewrite (nth_error_zip_with _ l (tl l) f w v E'); [reflexivity|]. destruct l; [discriminate|exact E].
  Qed.
  Lemma row_len cs latt inv n : length cs = S n -> length latt = S n -> length inv = S n -> length (get_disp_row cs latt inv) = n.
  Proof.
    intros L1 L2 L3. unfold get_disp_row. rewrite cumsum_len, zip_with_length, np_diff_len, zip_with_length, map_length, !combine_length, np_diff_len, zip_with_length.
    destruct latt, inv; cbn [tl length] in *; lia.
  Qed.
  Lemma row_gone cs latt inv n f v : length cs = S n -> length latt = S n -> length inv = S n -> (0 < n)%nat ->
    nth_error cs f = Some v -> lost v -> gone (nth (n - 1) (get_disp_row cs latt inv) v0).
  Proof.
    intros L1 L2 L3 N E H.
    assert (EL : nth (n - 1) (get_disp_row cs latt inv) v0 = last (get_disp_row cs latt inv) v0).
    { assert (LR := row_len cs latt inv n L1 L2 L3). clear - LR N. set (l := get_disp_row cs latt inv) in *. clearbody l. revert n LR N.
      induction l as [|x l IH]; intros n LR N; [cbn in LR; lia|]. rewrite last_cons. destruct l as [|y l].
      - cbn in LR. replace n with 1%nat by lia. reflexivity.
      - cbn [length] in LR. destruct n as [|[|n]]; try lia. replace (S (S n) - 1)%nat with (S (S n - 1)) by lia. change (nth (S (S n - 1)) (x :: y :: l) v0) with (nth (S n - 1) (y :: l) v0).
        rewrite (IH (S n)) by (cbn [length]; lia). now rewrite !last_cons. }
    rewrite EL. unfold get_disp_row.
    assert (Hf : (f < S n)%nat) by (rewrite <- L1; apply nth_error_Some; congruence).
    destruct (nth_error latt f) as [m|] eqn:E2; [|apply nth_error_None in E2; lia].
    assert (EW : nth_error (zip_with vecmat cs latt) f = Some (vecmat v m)) by now apply nth_error_zip_with.
    assert (LW : length (zip_with vecmat cs latt) = S n) by (rewrite zip_with_length; lia).
    destruct (np_diff_gone _ _ _ EW (gone_vecmat v m H) ltac:(lia)) as (t & w & Et & Gw).
    set (wd := np_diff (zip_with vecmat cs latt)) in *.
    assert (LWd : length wd = n) by (unfold wd; rewrite np_diff_len; lia).
    set (dd := map _ (combine wd _)).
    assert (LD : length dd = n). { unfold dd. rewrite map_length, !combine_length. destruct latt, inv; cbn [tl length] in *; lia. }
    assert (Ht : (t < n)%nat) by (rewrite <- LWd; apply nth_error_Some; congruence).
    destruct (nth_error dd t) as [c|] eqn:E3; [|apply nth_error_None in E3; lia].
    apply (cumsum_gone _ (vsub w c)); [|now apply gone_sub_l]. eapply nth_error_In. apply nth_error_zip_with; eassumption.
  Qed.
  Lemma disp_shape (coords : list (list (V3 spec_float))) latt d : get_disp coords latt = Ok d ->
    exists natoms n, Forall (fun f => length f = natoms) coords /\ length coords = S n /\ a_obs d = n /\ shape (a_rows d) natoms n
      /\ forall a f frame v, (0 < n)%nat -> nth_error coords f = Some frame -> nth_error frame a = Some v -> lost v -> gone (nth (n - 1) (nth a (a_rows d) []) v0).
  Proof.
    unfold get_disp. destruct coords as [|f0 coords]; [discriminate|]. intros H. inv_bind H u1 E1. inv_bind H inv E2. inv_bind H u2 E3. injection H as <-.
    destruct u1, u2. apply guard_ok in E1, E3. apply Nat.eqb_eq in E3. rewrite forallb_forall in E1.
    exists (length f0), (length coords). set (cs := f0 :: coords) in *.
    assert (F : Forall (fun f => length f = length f0) cs). { apply Forall_forall. intros f Hf. apply Nat.eqb_eq. now apply E1. }
    assert (LI : length inv = S (length coords)). { apply mapM_length in E2. rewrite E2, <- E3. reflexivity. }
    assert (LL : length latt = S (length coords)) by (rewrite <- E3; reflexivity).
    assert (LC : forall i, length (map (fun f : list (V3 spec_float) => nth i f v0) cs) = S (length coords)) by (intros i; rewrite map_length; reflexivity).
    split; [exact F|]. split; [reflexivity|]. cbn [a_obs a_rows]. split; [cbn; lia|]. split.
    { split; [now rewrite map_length, seq_length|]. apply Forall_map, Forall_forall. intros i _. apply row_len; [apply LC|exact LL|exact LI]. }
    intros a f frame v N Ef Ea Hv.
    assert (Ha : (a < length f0)%nat). { assert (L : length frame = length f0) by (rewrite Forall_forall in F; apply F; eapply nth_error_In; exact Ef). rewrite <- L. apply nth_error_Some. congruence. }
    assert (ER : nth a (map (fun i => get_disp_row (map (fun f : list (V3 spec_float) => nth i f v0) cs) latt inv) (seq 0 (length f0))) [] = get_disp_row (map (fun f : list (V3 spec_float) => nth a f v0) cs) latt inv).
    { apply nth_error_nth. rewrite nth_error_map, nth_error_seq_lt by exact Ha. reflexivity. }
    unfold cs in ER at 1. cbn [map] in ER. rewrite ER. fold cs.
    apply (row_gone _ _ _ (length coords) f v); [apply LC|exact LL|exact LI|exact N| |exact Hv]. rewrite nth_error_map, Ef. cbn [option_map]. f_equal. now apply nth_error_nth.
  Qed.

  (** Windows: each interval has an observation that ends with the last frame. *)
  Lemma parser_ok gs (d : Arr spec_float) idx drift ts ss (o : Options spec_float) p natoms n : a_obs d = n -> shape (a_rows d) natoms n ->
    parser_init gs d idx drift ts ss o = Ok p -> o_sampling o = "multi-origin"%string -> Forall (fun m => 0 < m) (p_intervals p) -> p_disp_3d p <> [] ->
    Forall (fun m => 0 < m <= Z.of_nat n) (p_intervals p) /\ Forall (valid_site natoms) idx /\ Forall (valid_site natoms) drift.
  Proof.
    intros Eo Sh H HS HI NE. rewrite (gtable d natoms n Eo Sh) in H. set (Y := fun a t => nth t (nth a (a_rows d) []) v0) in *.
    unfold parser_init in H. inv_bind H dc E. inv_bind H q E1. inv_bind H mi E2. destruct (_ <=? mi) in H; [discriminate|]. inv_bind H tis E3. inv_bind H r E4.
    injection H as <-. cbn [p_intervals p_disp_3d] in *.
    assert (Vd : Forall (valid_site natoms) drift).
    { unfold correct_drift in E. destruct drift as [|z l]; [constructor|]. inv_bind E fd E5. eapply gather_valid. exact E5. }
    apply gdrift_table in E; [|exact Vd]. subst dc. unfold get_disps in E4. destruct tis as [|t0 tis].
    { destruct (nltb _ _) in E4; [discriminate|]. injection E4 as <-. now destruct NE. }
    inv_bind E4 sel E5. assert (Vi := gather_valid _ _ _ _ E5). destruct (nltb _ _) in E4; [discriminate|]. inv_bind E4 r1 E6. clear E4 E3.
    split; [|split; [exact Vi|exact Vd]]. rewrite HS in E6. cbn [table a_obs] in E6. clear - E6 HI. revert HI E6. generalize (last (t0 :: tis) 0) as la. intros la HI. generalize 0%nat as i.
    revert r1. induction HI as [|m ms Hm _ IH]; intros r1 i E6; constructor; cbn [disps_loop] in E6; inv_bind E6 w E7; inv_bind E6 c E8; inv_bind E6 tl E9.
    - unfold window in E7. cbn [String.eqb Ascii.eqb Bool.eqb] in E7. unfold multi_origin in E7. inv_bind E7 s1 E10. inv_bind E7 s2 E11. unfold py_index in E11. rewrite seq_length in E11.
      destruct (_ && _) eqn:B in E11; [|discriminate]. apply andb_true_iff in B as [B1 B2]. apply Z.leb_le in B1. apply Z.ltb_lt in B2. destruct (m - 1 <? 0) eqn:B3 in *; [apply Z.ltb_lt in B3|]; lia.
    - eapply IH. exact E9.
  Qed.
  Lemma window_gone natoms n (D : nat -> nat -> V3 spec_float) idx m c : (0 < m <= n)%nat -> In c idx -> gone (D (site natoms c) (n - 1)%nat) ->
    exists v, nth_error (tab (n - m + 1) (gobs (D (site natoms c)) m)) (n - m) = Some v /\ gone v.
  Proof.
    intros Hm I H. exists (gobs (D (site natoms c)) m (n - m)). split; [apply tab_nth_error; lia|]. unfold gobs. destruct (n - m)%nat as [|j] eqn:E.
    - replace (m - 1)%nat with (n - 1)%nat by lia. exact H.
    - apply gone_sub_l. replace (j + m)%nat with (n - 1)%nat by lia. exact H.
  Qed.
End Absorb.

Lemma mscd_means {G Seed RS} (X : Ext spec_float G Seed RS) u dts disps q n_o g b g' natoms : 0 < u_sub_sample_dt u -> u_block u = false ->
  Forall arr_wf disps -> Forall (fun d => length (a_rows d) = natoms) disps -> (forall l, q = QArray l -> length l = natoms) ->
  mscd_bootstrap X u dts disps q n_o g = Ok (b, g') ->
  exists used, sub_sample (Z.to_nat (u_sub_sample_dt u)) disps used
    /\ b_n b = map (fun d => nmean (lengths2 all_axes (totals (weighF (charge_array q natoms) d)))) (filter (fun d => 1 <? a_obs d)%nat (firstn (Nat.div (length used) 2) used)).
Proof.
  intros Hk HB HW HA HQ H. unfold mscd_bootstrap in H. inv_bind H b0 E. inv_bind H d1 E0. inv_bind H p E1. destruct p as [b1 g1]. injection H as <- _.
  unfold bootstrap_init in E. inv_bind E ds D1. inv_bind E ts D2. inv_bind E d0 D3. inv_bind E sl D4. injection E as <-.
  destruct (dimension_parts (A := spec_float) _ _ D4) as (axes & N & L & S). exists ds.
  assert (SS : sub_sample (Z.to_nat (u_sub_sample_dt u)) disps ds) by (now apply stride_sub). split; [exact SS|].
  cbn [b_displacements b_dims] in E1, E0.
  pose proof (forall_sub_sample _ _ _ _ SS HW) as F1. pose proof (forall_sub_sample _ _ _ _ SS HA) as F3. rewrite Forall_forall in F1, F3.
  assert (L0 : length (a_rows d1) = natoms). { apply F3. exact (py_index_ok_inv _ _ _ E0). }
  rewrite L0 in E1. set (qs := charge_array q natoms) in *.
  assert (QL : length qs = natoms) by (unfold qs, charge_array; destruct q as [c|l]; [apply repeat_length|now apply HQ]).
  assert (IN : forall d, In d (first_half ds) -> arr_wf d /\ length (a_rows d) = natoms) by (intros d Hd; apply in_firstn in Hd; auto).
  apply (coll_loop_n X u _ (fun d => lengths2 all_axes (totals (weighF qs d))) _ _ sl axes S HB) in E1;
    [|intros d Hd; destruct (IN d Hd) as (I1 & I3); apply sq_chg_totals; [now rewrite I3|exact I1|now apply weighF_wf]|reflexivity].
  cbn [trim_n_o b_n]. rewrite E1. cbn [b_n app]. rewrite (filter_ext (fun d => many (lengths2 all_axes (totals (weighF qs d)))) (fun d => 1 <? a_obs d)%nat (fun d => many_totals all_axes (weighF qs d))).
  reflexivity.
Qed.

Section Report.
  Context (P : spec_float -> Prop) (HP : absorbing P) {G Seed RS : Type} (X : Ext spec_float G Seed RS).
  (** An array with a lost observation. *)
  Definition spoiled (d : Arr spec_float) : Prop := arr_wf d /\ exists a t v, arr_entry d a t = Some v /\ gone P v.
  Lemma entry_in (d : Arr spec_float) a t v : arr_entry d a t = Some v -> In v (entries d).
  Proof.
    unfold arr_entry, entry. destruct (nth_error (a_rows d) a) as [r|] eqn:E; [|discriminate]. intros H. apply in_concat. exists r. split; [eapply nth_error_In; exact E|eapply nth_error_In; exact H].
  Qed.
  Lemma spoiled_mean axes d : axes <> [] -> spoiled d -> P (nmean (lengths2 axes d)).
  Proof. intros N (_ & a & t & v & E & H). eapply lengths2_lost; [exact HP|exact N|eapply entry_in; exact E|exact H]. Qed.
  Lemma spoiled_total axes d : axes <> [] -> spoiled d -> P (nmean (lengths2 axes (totals d))).
  Proof.
    intros N (W & a & t & v & E & H). unfold arr_entry, entry in E. destruct (nth_error (a_rows d) a) as [r|] eqn:E1; [|discriminate].
    assert (Ht : (t < a_obs d)%nat). { unfold arr_wf in W. rewrite Forall_forall in W. rewrite <- (W r) by (eapply nth_error_In; exact E1). apply nth_error_Some. congruence. }
    apply (lengths2_lost P HP axes (totals d) (total_at d t) N).
    - unfold entries, totals. cbn [a_rows List.concat]. rewrite app_nil_r. eapply nth_error_In. apply tab_nth_error. exact Ht.
    - intros i. rewrite part_total. eapply nsum_lost; [exact HP|apply in_map_iff; exists r; split; [reflexivity|eapply nth_error_In; exact E1]|].
      rewrite (nth_error_nth r t v0 E). apply H.
  Qed.
  Lemma spoiled_weigh qs d : length qs = length (a_rows d) -> spoiled d -> spoiled (weighF qs d).
  Proof.
    intros L (W & a & t & v & E & H). split; [now apply weighF_wf|]. unfold arr_entry, entry in *. destruct (nth_error (a_rows d) a) as [r|] eqn:E1; [|discriminate].
    assert (Ha : (a < length qs)%nat) by (rewrite L; apply nth_error_Some; congruence).
    destruct (nth_error qs a) as [c|] eqn:E2; [|apply nth_error_None in E2; lia].
    exists a, t, (scaleF c v). split.
    - unfold weighF. cbn [a_rows]. change (map (fun p => map (scaleF (fst p)) (snd p)) (combine qs (a_rows d))) with (zip_with (fun c => map (scaleF c)) qs (a_rows d)).
      rewrite (nth_error_zip_with _ _ _ _ _ _ E2 E1). now rewrite nth_error_map, E.
    - intros i. specialize (H i). destruct HP. destruct i; cbn [scaleF part vx vy vz] in *; auto.
  Qed.
  Lemma msd_lost u dts disps n_o g b g' : 0 < u_sub_sample_dt u -> u_block u = false -> Forall spoiled disps ->
    msd_bootstrap X u dts disps n_o g = Ok (b, g') -> Forall P (b_n b).
  Proof.
    intros Hk HB HS H. destruct (msd_means X u dts disps n_o g b g' Hk HB H) as (axes & used & N & L & S & E). rewrite E.
    apply (forall_sub_sample _ _ _ _ S) in HS. rewrite Forall_forall in HS. apply Forall_map, Forall_forall. intros d Hd. apply filter_In in Hd as [Hd _].
    apply spoiled_mean; [apply N|auto].
  Qed.
  Lemma mstd_lost u dts disps n_o g b g' : 0 < u_sub_sample_dt u -> u_block u = false -> Forall spoiled disps ->
    mstd_bootstrap X u dts disps n_o g = Ok (b, g') -> Forall P (b_n b).
  Proof.
    intros Hk HB HS H. assert (W : Forall arr_wf disps) by (eapply Forall_impl; [|exact HS]; intros d Hd; apply Hd).
    destruct (mstd_means X u dts disps n_o g b g' Hk HB W H) as (axes & used & N & L & S & E). rewrite E.
    apply (forall_sub_sample _ _ _ _ S) in HS. rewrite Forall_forall in HS. apply Forall_map, Forall_forall. intros d Hd. apply filter_In in Hd as [Hd _]. apply in_firstn in Hd.
    apply spoiled_total; [apply N|auto].
  Qed.
  Lemma mscd_lost u dts disps q n_o g b g' natoms : 0 < u_sub_sample_dt u -> u_block u = false -> Forall spoiled disps ->
    Forall (fun d => length (a_rows d) = natoms) disps -> (forall l, q = QArray l -> length l = natoms) ->
    mscd_bootstrap X u dts disps q n_o g = Ok (b, g') -> Forall P (b_n b).
  Proof.
    intros Hk HB HS HA HQ H. assert (W : Forall arr_wf disps) by (eapply Forall_impl; [|exact HS]; intros d Hd; apply Hd).
    destruct (mscd_means X u dts disps q n_o g b g' natoms Hk HB W HA HQ H) as (used & S & E). rewrite E.
    apply (forall_sub_sample _ _ _ _ S) in HS, HA. rewrite Forall_forall in HS, HA. apply Forall_map, Forall_forall. intros d Hd. apply filter_In in Hd as [Hd _]. apply in_firstn in Hd.
    apply spoiled_total; [discriminate|]. apply spoiled_weigh; [|auto]. rewrite (HA d Hd). unfold charge_array. destruct q as [c|l]; [apply repeat_length|now apply HQ].
  Qed.
  (** Every array of the parser is spoiled. *)
  Lemma parser_lost gs (d : Arr spec_float) idx drift ts ss (o : Options spec_float) p natoms n c : a_obs d = n -> shape (a_rows d) natoms n -> (0 < n)%nat ->
    parser_init gs d idx drift ts ss o = Ok p -> o_sampling o = "multi-origin"%string -> Forall (fun m => 0 < m) (p_intervals p) ->
    In c (idx ++ drift)%list -> gone P (nth (n - 1) (nth (site natoms c) (a_rows d) []) v0) ->
    Forall spoiled (p_disp_3d p) /\ Forall (fun d => length (a_rows d) = length idx) (p_disp_3d p).
  Proof.
    intros Eo Sh Hn0 H HS HI I Hg. destruct (p_disp_3d p) as [|d0 ds] eqn:ED; [split; constructor|]. rewrite <- ED.
    assert (NE : p_disp_3d p <> []) by (rewrite ED; discriminate). destruct (parser_ok gs d idx drift ts ss o p natoms n Eo Sh H HS HI NE) as (HI' & Vi & Vd).
    rewrite (gtable d natoms n Eo Sh) in H. set (Y := fun a t => nth t (nth a (a_rows d) []) v0) in *.
    pose (ns := map Z.to_nat (p_intervals p)).
    assert (EI : p_intervals p = map Z.of_nat ns).
    { unfold ns. rewrite map_map. rewrite <- (map_id (p_intervals p)) at 1. apply map_ext_in. intros m Im. rewrite Forall_forall in HI. specialize (HI m Im). lia. }
    assert (HNs : Forall (fun m => (0 < m <= n)%nat) ns).
    { unfold ns. apply Forall_map. eapply Forall_impl; [|exact HI']. cbn. intros m Hm'. lia. }
    rewrite (gparser gs natoms n Y idx drift ts ss o p ns H HS Vi Vd EI HNs). rewrite Forall_forall in HNs.
    split; apply Forall_map, Forall_forall; intros m Hm; apply filter_In in Hm as [Hm En]; [|cbn [gwindow a_rows]; apply map_length].
    specialize (HNs m Hm).
    assert (GD : exists j c', nth_error idx j = Some c' /\ gone P (gdrift natoms drift Y (site natoms c') (n - 1))).
    { apply in_app_iff in I as [I|I].
      - apply In_nth_error in I as [j Ej]. exists j, c. split; [exact Ej|]. unfold gdrift. destruct drift; [exact Hg|]. apply gone_sub_l; [exact HP|exact Hg].
      - destruct idx as [|c' idx']; [unfold enough in En; cbn in En; discriminate|]. exists 0%nat, c'. split; [reflexivity|].
        rewrite gdrift_ne by (intros ->; destruct I). apply gone_sub_r; [exact HP|]. eapply vmean_gone; [exact HP|apply in_map_iff; exists c; split; [reflexivity|exact I]|exact Hg]. }
    destruct GD as (j & c' & Ej & GD).
    destruct (window_gone P HP natoms n (gdrift natoms drift Y) idx m c' HNs (nth_error_In _ _ Ej) GD) as (v & Ev & Gv).
    split.
    - unfold arr_wf, gwindow. cbn [a_rows a_obs]. apply Forall_map, Forall_forall. intros i _. apply tab_length.
    - exists j, (n - m)%nat, v. split; [|exact Gv]. unfold arr_entry, entry, gwindow. cbn [a_rows]. now rewrite nth_error_map, Ej.
  Qed.
End Report.

Section Reader.
  Context (P : spec_float -> Prop) (HP : absorbing P).
  Definition reading_spoiled (p : Parsed spec_float) : Prop :=
    Forall (spoiled P) (p_disp_3d p) /\ Forall (fun d => length (a_rows d) = length (p_indices p)) (p_disp_3d p).
  Lemma finish_lost gs circ st coords latt (a : Params spec_float) ss p f frame c v : finish_parse gs circ st coords latt a ss = Ok p ->
    atomic_selection a -> o_sampling (a_opts a) = "multi-origin"%string -> Forall (fun m => 0 < m) (p_intervals p) -> (1 < length coords)%nat ->
    nth_error coords f = Some frame -> nth_error frame (site (length frame) c) = Some v -> In c (p_indices p ++ p_drift_indices p)%list -> lost P v -> reading_spoiled p.
  Proof.
    intros H HA HS HI HL Ef Ea Ic Hv. unfold finish_parse in H. inv_bind H sel E. inv_bind H d E1. inv_bind H p0 E2. injection H as <-.
    unfold reading_spoiled. cbn [set_volume p_intervals p_disp_3d p_indices p_drift_indices] in *.
    assert (EC : fst sel = coords).
    { unfold choose_atoms in E. destruct (a_specie a) as [sp|] eqn:Es.
      - inv_bind E ix E3. now injection E as <-.
      - destruct HA as [HA|[l HA]]; [congruence|]. rewrite HA in E. destruct l as [|z l]; [discriminate|]. inv_bind E ix E3. now injection E as <-. }
    rewrite EC in E1. destruct (disp_shape P HP _ _ _ E1) as (natoms & n & FL & LC & Eo & Sh & HG).
    assert (EI : p_indices p0 = fst (snd sel) /\ p_drift_indices p0 = snd (snd sel)).
    { unfold parser_init in E2. inv_bind E2 dc E4. inv_bind E2 q E5. inv_bind E2 mi E6. destruct (_ <=? mi) in E2; [discriminate|]. inv_bind E2 tis E7. inv_bind E2 r E8. injection E2 as <-. split; reflexivity. }
    destruct EI as [EI1 EI2]. rewrite EI1, EI2 in *.
    assert (LF : length frame = natoms) by (rewrite Forall_forall in FL; apply FL; eapply nth_error_In; exact Ef). rewrite LF in Ea.
    eapply parser_lost; [exact HP|exact Eo|exact Sh|lia|exact E2|exact HS|exact HI|exact Ic|]. eapply HG; [lia|exact Ef|exact Ea|exact Hv].
  Qed.
  Lemma dup_first {T} (l l' : list T) : duplicate_first l = Ok l' -> length l' = S (length l) /\ l <> [] /\ forall j x, nth_error l j = Some x -> nth_error l' (S j) = Some x.
  Proof. destruct l as [|x l]; [discriminate|]. intros H. injection H as <-. split; [reflexivity|]. split; [discriminate|]. intros j y E. exact E. Qed.
  Lemma reader_lost i gs circ frames (a : Params spec_float) p j fr c v : parser_in_doubles i gs circ frames a = Ok p -> 0 < a_sub_sample_traj a -> a_sub_sample_atoms a = 1 ->
    atomic_selection a -> o_sampling (a_opts a) = "multi-origin"%string -> Forall (fun m => 0 < m) (p_intervals p) ->
    nth_error frames (j * Z.to_nat (a_sub_sample_traj a)) = Some fr -> nth_error (f_pos fr) (site (length (f_pos fr)) c) = Some v ->
    In c (p_indices p ++ p_drift_indices p)%list -> lost P v -> reading_spoiled p.
  Proof.
    intros H Hk H1 HA HS HI Ef Ea Ic Hv.
    assert (K : forall sub, py_stride (a_sub_sample_traj a) frames = Ok sub -> nth_error sub j = Some fr).
    { intros sub E. apply stride_sub in E; [|exact Hk]. now rewrite E. }
    assert (K1 : forall st coords latt, get_structure_coords_latt frames (a_sub_sample_traj a) = Ok (st, coords, latt) -> (1 < length coords)%nat /\ nth_error coords (S j) = Some (f_pos fr)).
    { intros st coords latt E. unfold get_structure_coords_latt in E. inv_bind E sub E1. inv_bind E cs E2. inv_bind E la E3. destruct sub as [|f0 sub]; [discriminate|]. injection E as _ <- _.
      destruct (dup_first _ _ E2) as (L & _ & N). split; [rewrite L; cbn; lia|]. apply N. rewrite nth_error_map, (K _ E1). reflexivity. }
    destruct i; cbn [parser_in_doubles] in H.
    - unfold ase_parser in H. inv_bind H scl E. destruct scl as [[st coords] latt]. destruct (K1 _ _ _ E) as [L N]. eapply finish_lost; eauto.
    - unfold pymatgen_parser in H. inv_bind H scl E. destruct scl as [[st coords] latt]. destruct (K1 _ _ _ E) as [L N]. inv_bind H p0 E1.
      destruct (a_time_step a); [discriminate|]. injection H as <-. cbn [set_delta_t p_intervals p_indices p_drift_indices] in *.
      assert (R := finish_lost _ _ _ _ _ _ _ _ _ _ _ _ E1 HA HS HI L N Ea Ic Hv). exact R.
    - unfold mda_parser in H. inv_bind H u0 E0. inv_bind H scl E. destruct scl as [[st coords] latt]. unfold get_structure_coords_latt_mda in E.
      inv_bind E sub E1. inv_bind E scaled E2. inv_bind E cs E3. inv_bind E la E4. destruct sub as [|f0 sub]; [discriminate|]. inv_bind E ty E5. injection E as _ <- _.
      destruct (dup_first _ _ E3) as (L & NS & N).
      assert (Q : exists frame w, nth_error scaled j = Some frame /\ length frame = length (f_pos fr) /\ nth_error frame (site (length (f_pos fr)) c) = Some w /\ gone P w).
      { assert (F := proj1 (mapM_ok _ _ _) E2). apply K in E1. destruct (Forall2_nth_error _ _ _ _ _ F E1) as (frame & Ej & Hj). cbv beta in Hj. inv_bind Hj inv E6. inv_bind Hj atoms E7. injection Hj as <-.
        rewrite H1 in E7. apply stride_sub in E7; [|lia]. change (Z.to_nat 1) with 1%nat in E7.
        assert (EA : atoms = f_pos fr). { apply list_ext. intros t. rewrite E7. f_equal. lia. } subst atoms.
        exists (map (fun p => vecmat p inv) (f_pos fr)), (vecmat v inv). split; [exact Ej|]. split; [apply map_length|]. split; [now rewrite nth_error_map, Ea|]. now apply gone_vecmat. }
      destruct Q as (frame & w & Ej & LF & Ew & Gw). rewrite <- LF in Ew.
      eapply finish_lost; [exact H|exact HA|exact HS|exact HI| |exact (N _ _ Ej)|exact Ew|exact Ic|now apply gone_lost].
      rewrite L. destruct scaled; [congruence|cbn; lia].
  Qed.
End Reader.

Lemma C105_proof (P : spec_float -> Prop) (HP : absorbing P) {G Seed RS} (X : Ext spec_float G Seed RS) i gs circ frames (a : Params spec_float) p j fr c v ax q u g an g' :
  parser_in_doubles i gs circ frames a = Ok p -> 0 < a_sub_sample_traj a -> a_sub_sample_atoms a = 1 ->
  atomic_selection a -> o_sampling (a_opts a) = "multi-origin"%string -> Forall (fun m => 0 < m) (p_intervals p) ->
  nth_error frames (j * Z.to_nat (a_sub_sample_traj a)) = Some fr -> nth_error (f_pos fr) (site (length (f_pos fr)) c) = Some v ->
  In c (p_indices p ++ p_drift_indices p)%list -> P (part v ax) ->
  0 < u_sub_sample_dt u -> u_block u = false -> (forall l, q = QArray l -> length l = length (p_indices p)) ->
  diffusion_analyzer X (of_parsed p) u g = Ok (an, g') \/ jump_diffusion_analyzer X (of_parsed p) u g = Ok (an, g') \/ conductivity_analyzer X (of_parsed p) q u g = Ok (an, g') ->
  Forall P (b_n (an_diff an)).
Proof.
  intros H Hk H1 HA HS HI Ef Ea Ic Hv Hu HB HQ HR.
  destruct (reader_lost P HP i gs circ frames a p j fr c v H Hk H1 HA HS HI Ef Ea Ic (ex_intro _ ax Hv)) as [R1 R2].
  destruct HR as [HR|[HR|HR]]; [unfold diffusion_analyzer in HR|unfold jump_diffusion_analyzer in HR|unfold conductivity_analyzer in HR]; inv_bind HR bg E; destruct bg as [b g1]; injection HR as <- <-;
    cbn [an_diff of_parsed an_delta_t an_disp_3d an_n_o] in *.
  - eapply msd_lost; eassumption.
  - eapply mstd_lost; eassumption.
  - eapply mscd_lost; eassumption.
Qed.
