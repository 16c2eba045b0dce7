(** * ProofsPool: the collective motion of several replicas (C76) *)
From Verif Require Import Base Spec SpecParser SpecStats SpecFit SpecGls SpecSym ModelParser ModelDiffusion ModelHdf ModelAnalyzer
  Lemmas ProofsDisp ProofsIntervals ProofsGeom ProofsWindows ProofsParser ProofsBoot ProofsStats ProofsStats2 SpecRun SpecAnalyzer ProofsTraj ProofsAnalyzer ProofsReplica SpecInterfaces ProofsCollective
  ProofsSym ProofsCov ProofsGls ProofsUnits SpecPool.
From Coq Require Import Reals Lra Lia.
Open Scope Z_scope.

(** ** Arrays *)
Lemma inner_self axes v : inner axes v v = sqlen axes v.
Proof. reflexivity. Qed.
Lemma inner_sum_l axes l w : inner axes (sum3 l) w = rsum (map (fun v => inner axes v w) l).
Proof.
  unfold inner. induction l as [|v l IH].
  - cbn. induction axes as [|a axes IH]; [reflexivity|]. cbn [map]. rewrite rsum_cons, IH. destruct a; cbn; lra.
  - cbn [map]. rewrite rsum_cons, <- IH, <- rsum_map_plus. f_equal. apply map_ext. intros a. destruct a; cbn; lra.
Qed.
Lemma inner_comm axes v w : inner axes v w = inner axes w v.
Proof. unfold inner. f_equal. apply map_ext. intros a. ring. Qed.
Lemma inner_sums axes l : sqlen axes (sum3 l) = rsum (map (fun v => rsum (map (inner axes v) l)) l).
Proof.
  rewrite <- inner_self, inner_sum_l. f_equal. apply map_ext. intros v. rewrite inner_comm, inner_sum_l. f_equal. apply map_ext. intros w. apply inner_comm.
Qed.
Lemma sum3_app l l' : sum3 (l ++ l')%list = plus3 (sum3 l) (sum3 l').
Proof. unfold sum3, plus3. cbn. rewrite !map_app, !rsum_app. reflexivity. Qed.
Lemma sum3_cons v l : sum3 (v :: l) = plus3 v (sum3 l).
Proof. reflexivity. Qed.
Lemma stacked_total rs d t : stacked rs d -> total d t = sum3 (map (fun r => total r t) rs).
Proof.
  intros (H & _). unfold total, at_time. rewrite H. clear H. induction rs as [|r rs IH]; [reflexivity|]. cbn [map List.concat].
  rewrite flat_map_app, sum3_app, sum3_cons, IH. reflexivity.
Qed.
Lemma rsum_swap {S T} (f : S -> T -> R) l l' : rsum (map (fun x => rsum (map (f x) l')) l) = rsum (map (fun y => rsum (map (fun x => f x y) l)) l').
Proof.
  induction l as [|x l IH]; cbn [map].
  - induction l' as [|y l' IH]; cbn [map]; [reflexivity|]. rewrite rsum_cons, <- IH. cbn. symmetry. apply Rplus_0_l.
  - rewrite rsum_cons, IH, <- rsum_map_plus. reflexivity.
Qed.
Lemma average_tab_sum {T} (f : nat -> T -> R) l n :
  average (tab n (fun t => rsum (map (f t) l))) = rsum (map (fun x => average (tab n (fun t => f t x))) l).
Proof.
  unfold average. rewrite tab_length. unfold tab. rewrite rsum_swap. unfold Rdiv at 1. rewrite Rmult_comm, <- rsum_map_scal.
  f_equal. apply map_ext. intros x. rewrite map_length, seq_length. unfold Rdiv. ring.
Qed.
Lemma tab_ext' {T} (f g : nat -> T) n : (forall t, (t < n)%nat -> f t = g t) -> tab n f = tab n g.
Proof. intros H. unfold tab. apply map_ext_in. intros t Ht. apply in_seq in Ht. apply H. lia. Qed.
Lemma stacked_mstd axes rs d : stacked rs d -> mstd_of axes d = rsum (map (fun r => rsum (map (covariation axes r) rs)) rs).
Proof.
  intros H. unfold mstd_of.
  rewrite (tab_ext' _ (fun t => rsum (map (fun r => rsum (map (fun r' => inner axes (total r t) (total r' t)) rs)) rs))).
  2:{ intros t _. fold (total d t). rewrite (stacked_total rs d t H), inner_sums, !map_map. f_equal. apply map_ext. intros r. now rewrite map_map. }
  rewrite (average_tab_sum (fun t r => rsum (map (fun r' => inner axes (total r t) (total r' t)) rs))).
  destruct H as (_ & HO). rewrite Forall_forall in HO. f_equal. apply map_ext_in. intros r Hr.
  rewrite (average_tab_sum (fun t r' => inner axes (total r t) (total r' t))). f_equal. apply map_ext. intros r'. unfold covariation. now rewrite (HO r Hr).
Qed.
Lemma covariation_self axes d : covariation axes d d = mstd_of axes d.
Proof. reflexivity. Qed.
Lemma stacked_uncorrelated axes rs d : stacked rs d -> uncorrelated axes rs -> mstd_of axes d = rsum (map (mstd_of axes) rs).
Proof.
  intros H HU. rewrite (stacked_mstd axes rs d H).
  assert (K : forall i r, nth_error rs i = Some r -> rsum (map (covariation axes r) rs) = mstd_of axes r).
  { intros i r Hi. destruct (nth_error_split _ _ Hi) as (l1 & l2 & El & Li). rewrite El, map_app, rsum_app. cbn [map]. rewrite rsum_cons.
    assert (Z0 : forall l, (forall r', In r' l -> covariation axes r r' = 0%R) -> rsum (map (covariation axes r) l) = 0%R).
    { induction l as [|y l IH]; intros Hl; [reflexivity|]. cbn [map]. rewrite rsum_cons, (Hl y (or_introl eq_refl)), IH; [lra|]. intros; apply Hl; now right. }
    rewrite (Z0 l1), (Z0 l2), covariation_self; [lra|..].
    - intros r' Hr. apply In_nth_error in Hr as (j & Hj). apply (HU i (S (i + j)) r r'); [lia|exact Hi|]. rewrite El, nth_error_app2 by lia.
      replace (S (i + j) - length l1)%nat with (S j) by lia. exact Hj.
    - intros r' Hr. apply In_nth_error in Hr as (j & Hj). assert (j < length l1)%nat by (apply nth_error_Some; congruence).
      apply (HU i j r r'); [lia|exact Hi|]. rewrite El, nth_error_app1 by lia. exact Hj. }
  f_equal. apply list_ext. intros i. rewrite !nth_error_map. destruct (nth_error rs i) as [r|] eqn:E; [|reflexivity]. cbn. f_equal. exact (K i r E).
Qed.
Lemma mstd_nonneg axes d : (0 <= mstd_of axes d)%R.
Proof.
  unfold mstd_of, average. rewrite tab_length. apply Rmult_le_pos.
  - unfold tab. apply Rle_trans with (rsum (map (fun _ => 0%R) (seq 0 (a_obs d)))).
    + induction (seq 0 (a_obs d)); cbn; lra.
    + apply rsum_map_le. intros t _. unfold sqlen. rewrite <- (map_map (fun a => coord (sum3 (at_time d t)) a) (fun x => x * x)%R). apply rsum_sq_nonneg.
  - destruct (a_obs d) as [|k] eqn:Ek; [cbn; rewrite Rinv_0; lra|]. left. apply Rinv_0_lt_compat. apply lt_0_INR. lia.
Qed.
Lemma sum3_ones l : sum3 (map (fun p => scale3 (fst p) (snd p)) (combine (repeat 1%R (length l)) l)) = sum3 l.
Proof.
  f_equal. induction l as [|v l IH]; [reflexivity|]. cbn [length repeat combine map]. rewrite IH. f_equal. destruct v. unfold scale3. cbn. f_equal; ring.
Qed.
Lemma stacked_bound axes rs d : stacked rs d -> (mstd_of axes d <= INR (length rs) * rsum (map (mstd_of axes) rs))%R.
Proof.
  intros H. assert (E : rsum (map (mstd_of axes) rs) = average (tab (a_obs d) (fun t => rsum (map (fun r => sqlen axes (total r t)) rs)))).
  { rewrite (average_tab_sum (fun t r => sqlen axes (total r t))). destruct H as (_ & HO). rewrite Forall_forall in HO. f_equal. apply map_ext_in.
    intros r Hr. unfold mstd_of. now rewrite (HO r Hr). }
  rewrite E. unfold mstd_of, average. rewrite !tab_length. unfold Rdiv. rewrite <- Rmult_assoc.
  apply Rmult_le_compat_r.
  { destruct (a_obs d) as [|k] eqn:Ek; [cbn; rewrite Rinv_0; lra|]. left. apply Rinv_0_lt_compat. apply lt_0_INR. lia. }
  unfold tab. rewrite <- rsum_map_scal. apply rsum_map_le. intros t _. fold (total d t). rewrite (stacked_total rs d t H).
  pose proof (weighted_bound axes (repeat 1%R (length rs)) (map (fun r => total r t) rs)) as W.
  rewrite map_length, repeat_length, rsum_ones, map_map in W. specialize (W eq_refl).
  replace (length rs) with (length (map (fun r => total r t) rs)) in W at 1 by apply map_length. rewrite sum3_ones in W. exact W.
Qed.

(** Scalar charges. *)
Lemma mscd_scalar axes (c : R) d : arr_wf d -> mscd_of axes (repeat c (length (a_rows d))) d = (c * c * mstd_of axes d)%R.
Proof.
  intros W. unfold mscd_of, mstd_of, average. rewrite !tab_length. unfold tab.
  assert (E : map (fun t => sqlen axes (sum3 (map (fun p => scale3 (fst p) (snd p)) (combine (repeat c (length (a_rows d))) (at_time d t))))) (seq 0 (a_obs d))
    = map (fun t => c * c * sqlen axes (sum3 (at_time d t)))%R (seq 0 (a_obs d))).
  { apply map_ext_in. intros t Ht. apply in_seq in Ht. rewrite <- (at_times_length d t W) by lia. generalize (at_time d t). intros l.
    unfold sqlen. rewrite <- rsum_map_scal. f_equal. apply map_ext. intros a. rewrite weighted_coord, coord_sum3.
    assert (D : dot (repeat c (length l)) (map (fun v => coord v a) l) = (c * rsum (map (fun v => coord v a) l))%R).
    { clear. induction l as [|v l IH]; [unfold dot; cbn; lra|]. cbn [length repeat map]. rewrite dot_cons, rsum_cons, IH. ring. }
    rewrite D. ring. }
  rewrite E, rsum_map_scal. unfold Rdiv. ring.
Qed.
Lemma stacked_wf rs d : stacked rs d -> Forall arr_wf rs -> arr_wf d.
Proof.
  intros (H & HO) HW. unfold arr_wf. rewrite H. clear H. induction HW as [|r rs W _ IH]; cbn [map List.concat]; [constructor|].
  inversion HO as [|? ? E HO']; subst. apply Forall_app. split; [|now apply IH]. unfold arr_wf in W. rewrite E in W. exact W.
Qed.
Lemma stacked_rows rs d n : stacked rs d -> Forall (fun r => length (a_rows r) = n) rs -> length (a_rows d) = (length rs * n)%nat.
Proof. intros (H & _) HN. rewrite H. clear H. induction HN as [|r rs E _ IH]; cbn [map List.concat length]; [reflexivity|]. rewrite app_length, IH, E. lia. Qed.

(** ** Runs *)
Lemma column_exists (ps : list (Parsed R)) i n : Forall (fun p => length (p_disp_3d p) = n) ps -> (i < n)%nat ->
  exists rs, SpecAnalyzer.column p_disp_3d i ps rs.
Proof.
  intros H Hi. induction H as [|p ps E _ (rs & IH)]; [exists []; constructor|].
  destruct (nth_error (p_disp_3d p) i) as [r|] eqn:Er; [|apply nth_error_None in Er; lia].
  exists (r :: rs). now constructor.
Qed.
Lemma column_unique (ps : list (Parsed R)) i rs rs' : SpecAnalyzer.column p_disp_3d i ps rs -> SpecAnalyzer.column p_disp_3d i ps rs' -> rs' = rs.
Proof. intros H. revert rs'. induction H as [|p r ps rs Hr _ IH]; intros rs' H'; inversion H'; subst; [reflexivity|]. f_equal; [congruence|]. now apply IH. Qed.
Lemma column_forall (P : Arr R -> Prop) (ps : list (Parsed R)) i rs : SpecAnalyzer.column p_disp_3d i ps rs -> Forall (fun p => Forall P (p_disp_3d p)) ps -> Forall P rs.
Proof.
  intros H HP. induction H as [|p r ps rs Hr _ IH]; [constructor|]. inversion HP as [|? ? Hp HP']; subst. constructor; [|now apply IH].
  rewrite Forall_forall in Hp. apply Hp. eapply nth_error_In; eauto.
Qed.
Lemma stacks_arrays ps d i arr : stacks ps d -> nth_error (an_disp_3d d) i = Some arr ->
  exists rs, SpecAnalyzer.column p_disp_3d i ps rs /\ stacked rs arr.
Proof.
  intros S H. destruct (column_exists ps i (length (an_disp_3d d))) as (rs & Hc).
  - eapply Forall_impl; [|exact (st_length _ _ S)]. cbv beta. intros p (E & _). congruence.
  - apply nth_error_Some. congruence.
  - exists rs. split; [exact Hc|]. destruct (st_arrays _ _ S i rs Hc) as (a & Ha & HS). congruence.
Qed.
Lemma stacks_wf ps d : stacks ps d -> Forall (fun p => Forall arr_wf (p_disp_3d p)) ps -> Forall arr_wf (an_disp_3d d).
Proof.
  intros S H. apply Forall_forall. intros a Ha. apply In_nth_error in Ha as (i & Hi). destruct (stacks_arrays ps d i a S Hi) as (rs & Hc & HS).
  eapply stacked_wf; [exact HS|]. eapply column_forall; eassumption.
Qed.
Lemma column_length {P T} (f : P -> list T) i ps c : SpecAnalyzer.column f i ps c -> length c = length ps.
Proof. intros H. induction H; cbn; congruence. Qed.
Lemma stacks_rows ps d n : stacks ps d -> Forall (fun p => Forall (fun r => length (a_rows r) = n) (p_disp_3d p)) ps ->
  Forall (fun r => length (a_rows r) = (length ps * n)%nat) (an_disp_3d d).
Proof.
  intros S H. apply Forall_forall. intros a Ha. apply In_nth_error in Ha as (i & Hi). destruct (stacks_arrays ps d i a S Hi) as (rs & Hc & HS).
  rewrite <- (column_length _ _ _ _ Hc). eapply stacked_rows; [exact HS|]. eapply column_forall; eassumption.
Qed.
Lemma all_wf (parse : parser_of) geo circ (a : Params R) ts ps : In parse parsers -> Forall2 (fun t p => parse geo circ t a = Ok p) ts ps ->
  Forall (fun p => Forall arr_wf (p_disp_3d p)) ps.
Proof. intros HP H. induction H as [|t p ts ps E _ IH]; constructor; [|exact IH]. eapply parsers_shapes; eassumption. Qed.
Lemma all_rows (parse : parser_of) circ (a : Params R) t0 ts ps p : In parse parsers -> Forall (alike t0) ts ->
  Forall2 (fun t p => parse geomspace_R circ t a = Ok p) ts ps -> In p ps ->
  Forall (fun q => Forall (fun r => length (a_rows r) = length (p_indices p)) (p_disp_3d q)) ps.
Proof.
  intros HP HA H Hp.
  assert (HT : exists t, alike t0 t /\ parse geomspace_R circ t a = Ok p).
  { clear -HA H Hp. induction H as [|t q ts ps E _ IH]; [contradiction|]. inversion HA; subst. destruct Hp as [<-|Hp]; [eauto|auto]. }
  destruct HT as (t & At & Et). pose proof (parsers_rows parse circ a t p HP Et) as Rw.
  clear Hp. induction H as [|t' q ts ps E _ IH]; constructor; [|inversion HA; subst; now apply IH].
  inversion HA as [|? ? A' _]; subst. assert (AA : alike t t') by (unfold alike in *; congruence).
  destruct (parsers_alike parse geomspace_R circ a t t' p q HP AA Et E) as (_ & _ & F). clear -F Rw.
  induction F as [|d d' l l' HS _ IH]; [constructor|]. inversion Rw as [|? ? R0 Rw']; subst. constructor; [|now apply IH].
  destruct HS as (A & _). congruence.
Qed.

Section Runs.
  Context {G Seed RS : Type} (X : Ext R G Seed RS).
  Lemma single_mstd (parse : parser_of) geo circ (a : Params R) t p d u g an g' i m : In parse parsers -> 0 < u_sub_sample_dt u -> u_block u = false ->
    parse geo circ t a = Ok p -> from_frames (fun t => parse geo circ t a) (TSingle t) None = Ok d ->
    jump_diffusion_analyzer X d u g = Ok (an, g') -> nth_error (b_n (an_diff an)) i = Some m ->
    exists axes r, names (pystr_text (u_dimension u)) axes /\ nth_error (p_disp_3d p) (i * Z.to_nat (u_sub_sample_dt u)) = Some r /\ m = mstd_of axes r.
  Proof.
    intros HP Hk Hb E Ed Ea Em. cbn in Ed. rewrite E in Ed. injection Ed as <-. unfold jump_diffusion_analyzer in Ea. inv_bind Ea r Er.
    destruct r as [b h]. injection Ea as <- <-. cbn [an_diff of_parsed an_delta_t an_disp_3d an_n_o] in *.
    exact (curve_mstd X _ _ _ _ _ _ _ _ _ Hk Hb (parsers_shapes _ _ _ _ _ _ HP E) Er Em).
  Qed.
  Lemma single_mstds (parse : parser_of) geo circ (a : Params R) ts ps u i ms axes rs : In parse parsers -> 0 < u_sub_sample_dt u -> u_block u = false ->
    names (pystr_text (u_dimension u)) axes -> Forall2 (fun t p => parse geo circ t a = Ok p) ts ps ->
    SpecAnalyzer.column p_disp_3d (i * Z.to_nat (u_sub_sample_dt u)) ps rs ->
    Forall2 (mstd_reported X (fun t => parse geo circ t a) u i) ts ms -> ms = map (mstd_of axes) rs.
  Proof.
    intros HP Hk Hb HN H. revert ms rs. induction H as [|t p ts ps E _ IH]; intros ms rs Hc Hm; inversion Hc as [|? r ? rs' Hr Hc']; subst;
      inversion Hm as [|? m ? ms' Hm1 Hm2]; subst; [reflexivity|]. cbn [map]. f_equal; [|now apply IH].
    destruct Hm1 as (d & an & g & g' & E1 & E2 & E3).
    destruct (single_mstd parse geo circ a t p d u g an g' i m HP Hk Hb E E1 E2 E3) as (axes' & r' & N & Hr' & ->).
    assert (axes' = axes) by (eapply names_unique; eauto). congruence.
  Qed.
  (** The reported value in terms of the replicas. *)
  Lemma C76_formula_proof (parse : parser_of) geo circ (a : Params R) t0 ts ps d u g an g' i M : In parse parsers ->
    ts <> [] -> Forall (alike t0) ts -> Forall2 (fun t p => parse geo circ t a = Ok p) ts ps ->
    0 < u_sub_sample_dt u -> u_block u = false ->
    from_frames (fun t => parse geo circ t a) (TMulti ts) (Some "identical"%string) = Ok d ->
    jump_diffusion_analyzer X d u g = Ok (an, g') -> nth_error (b_n (an_diff an)) i = Some M ->
    exists axes rs, names (pystr_text (u_dimension u)) axes /\ SpecAnalyzer.column p_disp_3d (i * Z.to_nat (u_sub_sample_dt u)) ps rs
      /\ (exists arr, stacked rs arr /\ M = mstd_of axes arr)
      /\ M = rsum (map (fun r => rsum (map (covariation axes r) rs)) rs).
  Proof.
    intros HP Hne HA H Hk Hb Ed Ea Em. destruct (C23_proof parse geo circ a t0 ts ps HP Hne HA H) as (d' & E' & _ & S & _).
    assert (d' = d) by congruence. subst d'. unfold jump_diffusion_analyzer in Ea. inv_bind Ea r Er. destruct r as [b h]. injection Ea as <- <-.
    cbn [an_diff] in Em.
    destruct (curve_mstd X _ _ _ _ _ _ _ _ _ Hk Hb (stacks_wf _ _ S (all_wf _ _ _ _ _ _ HP H)) Er Em) as (axes & arr & N & Ha & ->).
    destruct (stacks_arrays ps d _ arr S Ha) as (rs & Hc & HS). exists axes, rs. split; [exact N|]. split; [exact Hc|].
    split; [eauto|]. now apply stacked_mstd.
  Qed.
  Lemma C76_bounds_proof (parse : parser_of) geo circ (a : Params R) t0 ts ps d u g an g' i M ms : In parse parsers ->
    ts <> [] -> Forall (alike t0) ts -> Forall2 (fun t p => parse geo circ t a = Ok p) ts ps ->
    0 < u_sub_sample_dt u -> u_block u = false ->
    from_frames (fun t => parse geo circ t a) (TMulti ts) (Some "identical"%string) = Ok d ->
    jump_diffusion_analyzer X d u g = Ok (an, g') -> nth_error (b_n (an_diff an)) i = Some M ->
    Forall2 (mstd_reported X (fun t => parse geo circ t a) u i) ts ms ->
    (0 <= M <= INR (length ts) * rsum ms)%R
    /\ forall axes rs, names (pystr_text (u_dimension u)) axes -> SpecAnalyzer.column p_disp_3d (i * Z.to_nat (u_sub_sample_dt u)) ps rs ->
         uncorrelated axes rs -> M = rsum ms.
  Proof.
    intros HP Hne HA H Hk Hb Ed Ea Em Hm.
    destruct (C76_formula_proof parse geo circ a t0 ts ps d u g an g' i M HP Hne HA H Hk Hb Ed Ea Em) as (axes & rs & N & Hc & (arr & HS & ->) & _).
    pose proof (single_mstds parse geo circ a ts ps u i ms axes rs HP Hk Hb N H Hc Hm) as ->. split; [split|].
    - apply mstd_nonneg.
    - replace (length ts) with (length rs); [now apply stacked_bound|]. rewrite (column_length _ _ _ _ Hc). clear -H. induction H; cbn; congruence.
    - intros axes' rs' N' Hc' HU. assert (axes' = axes) by (eapply names_unique; eauto). pose proof (column_unique _ _ _ _ Hc Hc'). subst axes' rs'.
      now apply stacked_uncorrelated.
  Qed.
  (** Scalar charges. *)
  Lemma curve_scalar u dts disps (c : R) n_o g b g' natoms i m : 0 < u_sub_sample_dt u -> u_block u = false -> Forall arr_wf disps ->
    Forall (fun d => length (a_rows d) = natoms) disps ->
    mscd_bootstrap X u dts disps (QScalar c) n_o g = Ok (b, g') -> nth_error (b_n b) i = Some m ->
    exists d, nth_error disps (i * Z.to_nat (u_sub_sample_dt u)) = Some d /\ m = (c * c * mstd_of all_axes d)%R.
  Proof.
    intros Hk Hb W N E M. assert (Q : forall l, QScalar c = QArray l -> length l = natoms) by discriminate.
    destruct (curve_mscd X _ _ _ _ _ _ _ _ _ _ _ Hk Hb W N Q E M) as (d & Hd & ->). exists d. split; [exact Hd|].
    apply nth_error_In in Hd. rewrite Forall_forall in W, N. cbn [charges]. rewrite <- (N _ Hd). apply mscd_scalar. now apply W.
  Qed.
  Lemma single_mscds (parse : parser_of) circ (a : Params R) ts ps (c : R) u i ms rs : In parse parsers -> 0 < u_sub_sample_dt u -> u_block u = false ->
    Forall2 (fun t p => parse geomspace_R circ t a = Ok p) ts ps ->
    SpecAnalyzer.column p_disp_3d (i * Z.to_nat (u_sub_sample_dt u)) ps rs ->
    Forall2 (mscd_reported X (fun t => parse geomspace_R circ t a) (QScalar c) u i) ts ms -> ms = map (fun r => c * c * mstd_of all_axes r)%R rs.
  Proof.
    intros HP Hk Hb H. revert ms rs. induction H as [|t p ts ps E _ IH]; intros ms rs Hc Hm; inversion Hc as [|? r ? rs' Hr Hc']; subst;
      inversion Hm as [|? m ? ms' Hm1 Hm2]; subst; [reflexivity|]. cbn [map]. f_equal; [|now apply IH].
    destruct Hm1 as (d & an & g & g' & E1 & E2 & E3). cbn in E1. rewrite E in E1. injection E1 as <-.
    unfold conductivity_analyzer in E2. inv_bind E2 q Er. destruct q as [b h]. injection E2 as <- <-. cbn [an_diff of_parsed an_delta_t an_disp_3d an_n_o] in *.
    destruct (curve_scalar _ _ _ _ _ _ _ _ _ _ _ Hk Hb (parsers_shapes _ _ _ _ _ _ HP E) (parsers_rows _ _ _ _ _ HP E) Er E3) as (r' & Hr' & ->). congruence.
  Qed.
  Lemma C76_mscd_proof (parse : parser_of) circ (a : Params R) t0 ts ps d (c : R) u g an g' i M ms : In parse parsers ->
    ts <> [] -> Forall (alike t0) ts -> Forall2 (fun t p => parse geomspace_R circ t a = Ok p) ts ps ->
    0 < u_sub_sample_dt u -> u_block u = false ->
    from_frames (fun t => parse geomspace_R circ t a) (TMulti ts) (Some "identical"%string) = Ok d ->
    conductivity_analyzer X d (QScalar c) u g = Ok (an, g') -> nth_error (b_n (an_diff an)) i = Some M ->
    Forall2 (mscd_reported X (fun t => parse geomspace_R circ t a) (QScalar c) u i) ts ms ->
    hd_error (map p_volume ps) = Some (an_volume (an_data an))
    /\ (0 <= M <= INR (length ts) * rsum ms)%R
    /\ forall rs, SpecAnalyzer.column p_disp_3d (i * Z.to_nat (u_sub_sample_dt u)) ps rs -> uncorrelated all_axes rs -> M = rsum ms.
  Proof.
    intros HP Hne HA H Hk Hb Ed Ea Em Hm. destruct (C23_proof parse geomspace_R circ a t0 ts ps HP Hne HA H) as (d' & E' & _ & S & _).
    assert (d' = d) by congruence. subst d'. unfold conductivity_analyzer in Ea. inv_bind Ea r Er. destruct r as [b h]. injection Ea as <- <-.
    cbn [an_diff an_data] in *. split; [exact (st_volume _ _ S)|].
    destruct ps as [|p0 ps]; [inversion H; subst; congruence|].
    pose proof (stacks_rows _ _ _ S (all_rows _ _ _ _ _ _ p0 HP HA H (or_introl eq_refl))) as Rw.
    destruct (curve_scalar _ _ _ _ _ _ _ _ _ _ _ Hk Hb (stacks_wf _ _ S (all_wf _ _ _ _ _ _ HP H)) Rw Er Em) as (arr & Ha & ->).
    destruct (stacks_arrays _ d _ arr S Ha) as (rs & Hc & HS).
    pose proof (single_mscds parse circ a ts _ c u i ms rs HP Hk Hb H Hc Hm) as ->. rewrite rsum_map_scal.
    assert (Q : (0 <= c * c)%R) by (pose proof (Rle_0_sqr c) as Q; exact Q). split; [split|].
    - apply Rmult_le_pos; [exact Q|apply mstd_nonneg].
    - replace (INR (length ts) * (c * c * rsum (map (mstd_of all_axes) rs)))%R with (c * c * (INR (length ts) * rsum (map (mstd_of all_axes) rs)))%R by ring.
      apply Rmult_le_compat_l; [exact Q|]. replace (length ts) with (length rs); [now apply stacked_bound|].
      rewrite (column_length _ _ _ _ Hc). clear -H. induction H; cbn [length]; congruence.
    - intros rs' Hc' HU. pose proof (column_unique _ _ _ _ Hc Hc'). subst rs'. f_equal. now apply stacked_uncorrelated.
  Qed.
End Runs.

(** ** Copies of one trajectory *)
Lemma copies_total k (d : Arr R) t : total (copies k d) t = scale3 (INR k) (total d t).
Proof.
  rewrite (stacked_total (repeat d k)).
  - rewrite map_repeat'. unfold sum3, scale3. rewrite !map_repeat', !rsum_repeat. reflexivity.
  - split; cbn; [now rewrite map_repeat'|]. apply Forall_forall. intros r Hr. apply repeat_spec in Hr. now subst r.
Qed.
Lemma sqlen_scale axes (c : R) v : sqlen axes (scale3 c v) = (c * c * sqlen axes v)%R.
Proof. unfold sqlen. rewrite <- rsum_map_scal. f_equal. apply map_ext. intros a. destruct a; cbn; ring. Qed.
Lemma mstd_values_copies axes k d : mstd_values axes (copies k d) = map (Rmult (INR k * INR k)) (mstd_values axes d).
Proof.
  unfold mstd_values, tab. cbn [copies a_obs]. rewrite map_map. apply map_ext. intros t.
  change (sum3 (at_time (copies k d) t)) with (total (copies k d) t). now rewrite copies_total, sqlen_scale.
Qed.
Lemma stacked_copies k d arr : stacked (repeat d (S k)) arr -> arr = copies (S k) d.
Proof.
  intros (H & HO). inversion HO as [|? ? E _]; subst. destruct arr as [n rows]. cbn [a_rows a_obs] in *. unfold copies. now rewrite H, E, map_repeat'.
Qed.
Lemma column_repeat {P T} (f : P -> list T) i p k x : nth_error (f p) i = Some x -> SpecAnalyzer.column f i (repeat p k) (repeat x k).
Proof. intros H. induction k; cbn; constructor; assumption. Qed.
Lemma stacks_copies k p d : stacks (repeat p (S k)) d ->
  an_disp_3d d = map (copies (S k)) (p_disp_3d p) /\ an_n_o d = map (Rmult (INR (S k))) (p_n_o p) /\ an_delta_t d = p_delta_t p /\ an_volume d = p_volume p.
Proof.
  intros S0. destruct S0 as [Sv St Sl Sa Sc]. inversion Sl as [|? ? (L1 & L2) _]; subst. split; [|split; [|split]].
  - apply list_ext. intros i. rewrite nth_error_map. destruct (nth_error (p_disp_3d p) i) as [r|] eqn:E.
    + destruct (Sa i _ (column_repeat p_disp_3d i p (S k) r E)) as (arr & Ha & HS). rewrite Ha. cbn. f_equal. now apply stacked_copies.
    + cbn. apply nth_error_None. rewrite L1. now apply nth_error_None.
  - apply list_ext. intros i. rewrite nth_error_map. destruct (nth_error (p_n_o p) i) as [r|] eqn:E.
    + rewrite (Sc i _ (column_repeat p_n_o i p (S k) r E)). cbn [option_map]. f_equal. now rewrite rsum_repeat.
    + cbn. apply nth_error_None. rewrite L2. now apply nth_error_None.
  - cbn in St. congruence.
  - cbn in Sv. congruence.
Qed.
Section Copies.
  Context {G Seed RS : Type} (X : Ext R G Seed RS).
  Lemma report_copies u n_o dts axes Qf Qf' f k q used shown b shown' b' :
    (forall d, In d used -> Qf' (f d) = map (Rmult q) (Qf d)) -> (forall d, length (a_rows (f d)) = (S k * length (a_rows d))%nat) ->
    u_block u = false ->
    boot_report X u (fun no n => no / INR n)%R n_o dts axes Qf used shown b ->
    boot_report X u (fun no n => no / INR n)%R (map (Rmult (INR (S k))) n_o) dts axes Qf' (map f used) shown' b' ->
    b_n b' = map (Rmult q) (b_n b) /\ b_v b' = map (Rmult (q * q)) (b_v b) /\ b_dt b' = b_dt b /\ length shown' = length shown.
  Proof.
    intros HQ HL HB H H'. remember (INR (S k)) as z eqn:Ez.
    assert (E : shown' = map f shown).
    { eapply (leading_map f); [|exact (br_shown _ _ _ _ _ _ _ _ _ _ H)|exact (br_shown _ _ _ _ _ _ _ _ _ _ H')].
      intros d Hd. cbn beta. rewrite HQ by exact Hd. now rewrite map_length. }
    assert (HS : forall d, In d shown -> In d used).
    { intros d Hd. exact (proj1 (leading_In _ _ _ _ (br_shown _ _ _ _ _ _ _ _ _ _ H) Hd)). }
    split; [|split; [|split]].
    - rewrite (br_n _ _ _ _ _ _ _ _ _ _ H HB), (br_n _ _ _ _ _ _ _ _ _ _ H' HB), E, !map_map. apply map_ext_in. intros d Hd.
      rewrite HQ by now apply HS. apply average_scale.
    - apply list_ext. intros i. rewrite nth_error_map.
      destruct (Nat.lt_ge_cases i (length shown)) as [Hi|Hi].
      + destruct (nth_error shown i) as [d|] eqn:Ed; [|apply nth_error_None in Ed; lia].
        destruct (br_v _ _ _ _ _ _ _ _ _ _ H HB i d Ed) as (no & N1 & V1).
        destruct (br_v _ _ _ _ _ _ _ _ _ _ H' HB i (f d)) as (no' & N2 & V2); [rewrite E, nth_error_map, Ed; reflexivity|].
        rewrite V1, V2. cbn [option_map]. f_equal. rewrite nth_error_map, N1 in N2. cbn [option_map] in N2. injection N2 as <-.
        rewrite HQ by (apply HS; eapply nth_error_In; eauto). rewrite sample_variance_scale, HL.
        assert (K : (z <> 0)%R) by (subst z; apply not_0_INR; lia). rewrite mult_INR, <- Ez.
        unfold Rdiv. rewrite !Rinv_mult, !Rinv_inv.
        replace (q * q * sample_variance (Qf d) * (/ z * / no * (z * INR (length (a_rows d)))))%R
          with (q * q * sample_variance (Qf d) * (/ no * INR (length (a_rows d))) * (/ z * z))%R by ring.
        rewrite Rinv_l by exact K. ring.
      + rewrite (proj2 (nth_error_None (b_v b') i)), (proj2 (nth_error_None (b_v b) i)); [reflexivity|..].
        * rewrite (br_v_len _ _ _ _ _ _ _ _ _ _ H). exact Hi.
        * rewrite (br_v_len _ _ _ _ _ _ _ _ _ _ H'), E, map_length. exact Hi.
    - rewrite (br_dt _ _ _ _ _ _ _ _ _ _ H), (br_dt _ _ _ _ _ _ _ _ _ _ H'), E, map_length. reflexivity.
    - now rewrite E, map_length.
  Qed.
  Lemma copies_rows k d : length (a_rows (copies k d)) = (k * length (a_rows d))%nat.
  Proof. cbn [copies a_rows]. induction k; cbn [repeat List.concat]; [reflexivity|]. rewrite app_length, IHk. lia. Qed.
  Lemma copies_wf k d : arr_wf d -> arr_wf (copies k d).
  Proof. intros W. unfold arr_wf. cbn [copies a_rows a_obs]. induction k; cbn [repeat List.concat]; [constructor|]. apply Forall_app. split; [exact W|exact IHk]. Qed.
  Lemma mstd_copies u dts disps n_o k g b g' g1 b1 g1' : 0 < u_sub_sample_dt u -> u_block u = false -> Forall arr_wf disps ->
    mstd_bootstrap X u dts disps n_o g = Ok (b, g') ->
    mstd_bootstrap X u dts (map (copies (S k)) disps) (map (Rmult (INR (S k))) n_o) g1 = Ok (b1, g1') ->
    copied_statistics (S k) b b1.
  Proof.
    intros Hk Hb HW H H'.
    assert (HW' : Forall arr_wf (map (copies (S k)) disps)) by (apply Forall_map; revert HW; apply Forall_impl; intros; now apply copies_wf).
    destruct (mstd_run X _ _ _ _ _ _ _ Hk HW H) as (ax & sh & N & D & S1 & S2 & S3 & R1).
    destruct (mstd_run X _ _ _ _ _ _ _ Hk HW' H') as (ax' & sh' & N' & D' & S1' & S2' & S3' & R1').
    assert (ax' = ax) by (eapply names_unique; eauto). subst ax'.
    assert (E : b_displacements b1 = map (copies (S k)) (b_displacements b)) by (eapply (sub_sample_map (copies (S k))); [|exact S1|exact S1']; lia).
    rewrite E, map_length, firstn_map in R1'. rewrite (sub_sample_unique _ _ _ _ S2' S2) in R1'.
    destruct (report_copies _ _ _ _ _ _ (copies (S k)) k (INR (S k) * INR (S k))%R _ _ _ _ _ (fun d _ => mstd_values_copies ax (S k) d) (copies_rows (S k)) Hb R1 R1') as (A1 & A2 & A3 & A4).
    split; [exact A1|]. split; [exact A2|]. split; [exact A3|]. split; [rewrite S3, S3', A4; now rewrite firstn_map|]. split; [exact E|]. congruence.
  Qed.
  Lemma mscd_values_copies c natoms k d : arr_wf d -> length (a_rows d) = natoms ->
    mscd_values (repeat c (k * natoms)) (copies k d) = map (Rmult (INR k * INR k)) (mscd_values (repeat c natoms) d).
  Proof.
    intros W L.
    assert (K : forall d', arr_wf d' -> mscd_values (repeat c (length (a_rows d'))) d' = map (Rmult (c * c)) (mstd_values all_axes d')).
    { clear. intros d W. unfold mscd_values, mstd_values, tab. rewrite map_map. apply map_ext_in. intros t Ht. apply in_seq in Ht.
      rewrite <- (at_times_length d t W) by lia. generalize (at_time d t). intros l.
      unfold sqlen. rewrite <- rsum_map_scal. f_equal. apply map_ext. intros a. rewrite weighted_coord, coord_sum3.
      assert (D : dot (repeat c (length l)) (map (fun v => coord v a) l) = (c * rsum (map (fun v => coord v a) l))%R).
      { clear. induction l as [|v l IH]; [unfold dot; cbn; lra|]. cbn [length repeat map]. rewrite dot_cons, rsum_cons, IH. ring. }
      rewrite D. ring. }
    pose proof (K _ (copies_wf k d W)) as K1. rewrite copies_rows, L in K1. rewrite K1. rewrite <- L, (K d W), mstd_values_copies, !map_map.
    apply map_ext. intros x. ring.
  Qed.
End Copies.
Section CopiesEnd.
  Context {G Seed RS : Type} (X : Ext R G Seed RS).
  Lemma mscd_copies u dts disps (c : R) n_o k natoms g b g' g1 b1 g1' : 0 < u_sub_sample_dt u -> u_block u = false -> Forall arr_wf disps ->
    Forall (fun d => length (a_rows d) = natoms) disps ->
    mscd_bootstrap X u dts disps (QScalar c) n_o g = Ok (b, g') ->
    mscd_bootstrap X u dts (map (copies (S k)) disps) (QScalar c) (map (Rmult (INR (S k))) n_o) g1 = Ok (b1, g1') ->
    copied_statistics (S k) b b1.
  Proof.
    intros Hk Hb HW HN H H'.
    assert (HW' : Forall arr_wf (map (copies (S k)) disps)) by (apply Forall_map; revert HW; apply Forall_impl; intros; now apply copies_wf).
    assert (HN' : Forall (fun d => length (a_rows d) = (S k * natoms)%nat) (map (copies (S k)) disps)).
    { apply Forall_map. revert HN. apply Forall_impl. intros d Hd. now rewrite copies_rows, Hd. }
    assert (Q : forall n l, QScalar c = QArray l -> length l = n) by discriminate.
    destruct (mscd_run X _ _ _ _ _ _ _ _ natoms Hk HW HN (Q _) H) as (ax & sh & N & D & S1 & S2 & S3 & R1).
    destruct (mscd_run X _ _ _ _ _ _ _ _ _ Hk HW' HN' (Q _) H') as (ax' & sh' & N' & D' & S1' & S2' & S3' & R1').
    assert (ax' = ax) by (eapply names_unique; eauto). subst ax'.
    assert (E : b_displacements b1 = map (copies (S k)) (b_displacements b)) by (eapply (sub_sample_map (copies (S k))); [|exact S1|exact S1']; lia).
    rewrite E, map_length, firstn_map in R1'. rewrite (sub_sample_unique _ _ _ _ S2' S2) in R1'.
    assert (HV : forall d, In d (firstn (Nat.div (length (b_displacements b)) 2) (b_displacements b)) ->
      mscd_values (charges (QScalar c) (S k * natoms)) (copies (S k) d) = map (Rmult (INR (S k) * INR (S k))) (mscd_values (charges (QScalar c) natoms) d)).
    { intros d Hd. assert (Hin : In d disps).
      { eapply sub_sample_In; [exact S1|]. rewrite <- (firstn_skipn (Nat.div (length (b_displacements b)) 2)). apply in_or_app. now left. }
      rewrite Forall_forall in HW, HN. cbn [charges]. apply mscd_values_copies; [now apply HW|now apply HN]. }
    destruct (report_copies X _ _ _ _ _ _ (copies (S k)) k (INR (S k) * INR (S k))%R _ _ _ _ _ HV (copies_rows (S k)) Hb R1 R1') as (A1 & A2 & A3 & A4).
    split; [exact A1|]. split; [exact A2|]. split; [exact A3|]. split; [rewrite S3, S3', A4; now rewrite firstn_map|]. split; [exact E|]. congruence.
  Qed.
  Lemma copies_data (parse : parser_of) geo circ (a : Params R) t p k d d' : In parse parsers -> parse geo circ t a = Ok p ->
    from_frames (fun t => parse geo circ t a) (TSingle t) None = Ok d ->
    from_frames (fun t => parse geo circ t a) (TMulti (repeat t (S k))) (Some "identical"%string) = Ok d' ->
    d = of_parsed p /\ an_disp_3d d' = map (copies (S k)) (p_disp_3d p) /\ an_n_o d' = map (Rmult (INR (S k))) (p_n_o p) /\ an_delta_t d' = p_delta_t p /\ an_volume d' = p_volume p.
  Proof.
    intros HP E Ed Ed'. cbn in Ed. rewrite E in Ed. injection Ed as <-. split; [reflexivity|].
    destruct (C23_proof parse geo circ a t (repeat t (S k)) (repeat p (S k)) HP ltac:(discriminate)) as (d2 & E2 & _ & S & _).
    - apply Forall_forall. intros x Hx. apply repeat_spec in Hx. subst x. reflexivity.
    - clear -E. induction (S k); cbn; constructor; assumption.
    - assert (d2 = d') by congruence. subst d2. now apply stacks_copies.
  Qed.
  Lemma parsed_single (parse : parser_of) geo circ (a : Params R) t d : from_frames (fun t => parse geo circ t a) (TSingle t) None = Ok d ->
    exists p, parse geo circ t a = Ok p.
  Proof. cbn. destruct (parse geo circ t a); [eauto|discriminate]. Qed.
  Lemma C76_copies_jump_proof (parse : parser_of) geo circ (a : Params R) t k d d' u g an g' g1 an1 g1' : In parse parsers ->
    0 < u_sub_sample_dt u -> u_block u = false ->
    from_frames (fun t => parse geo circ t a) (TSingle t) None = Ok d ->
    from_frames (fun t => parse geo circ t a) (TMulti (repeat t (S k))) (Some "identical"%string) = Ok d' ->
    jump_diffusion_analyzer X d u g = Ok (an, g') -> jump_diffusion_analyzer X d' u g1 = Ok (an1, g1') ->
    copied_statistics (S k) (an_diff an) (an_diff an1) /\ an_volume (an_data an1) = an_volume (an_data an).
  Proof.
    intros HP Hk Hb Ed Ed' Ea Ea'. destruct (parsed_single _ _ _ _ _ _ Ed) as (p & E).
    destruct (copies_data parse geo circ a t p k d d' HP E Ed Ed') as (-> & D1 & D2 & D3 & D4).
    unfold jump_diffusion_analyzer in Ea, Ea'. inv_bind Ea r Er. destruct r as [b h]. injection Ea as <- <-.
    inv_bind Ea' r' Er'. destruct r' as [b' h']. injection Ea' as <- <-. cbn [an_diff an_data of_parsed an_delta_t an_disp_3d an_n_o an_volume] in *.
    rewrite D1, D2, D3 in Er'. split; [|exact D4].
    exact (mstd_copies X _ _ _ _ _ _ _ _ _ _ _ Hk Hb (parsers_shapes _ _ _ _ _ _ HP E) Er Er').
  Qed.
  Lemma C76_copies_conductivity_proof (parse : parser_of) circ (a : Params R) t k d d' (c : R) u g an g' g1 an1 g1' : In parse parsers ->
    0 < u_sub_sample_dt u -> u_block u = false ->
    from_frames (fun t => parse geomspace_R circ t a) (TSingle t) None = Ok d ->
    from_frames (fun t => parse geomspace_R circ t a) (TMulti (repeat t (S k))) (Some "identical"%string) = Ok d' ->
    conductivity_analyzer X d (QScalar c) u g = Ok (an, g') -> conductivity_analyzer X d' (QScalar c) u g1 = Ok (an1, g1') ->
    copied_statistics (S k) (an_diff an) (an_diff an1) /\ an_volume (an_data an1) = an_volume (an_data an).
  Proof.
    intros HP Hk Hb Ed Ed' Ea Ea'. destruct (parsed_single _ _ _ _ _ _ Ed) as (p & E).
    destruct (copies_data parse geomspace_R circ a t p k d d' HP E Ed Ed') as (-> & D1 & D2 & D3 & D4).
    unfold conductivity_analyzer in Ea, Ea'. inv_bind Ea r Er. destruct r as [b h]. injection Ea as <- <-.
    inv_bind Ea' r' Er'. destruct r' as [b' h']. injection Ea' as <- <-. cbn [an_diff an_data of_parsed an_delta_t an_disp_3d an_n_o an_volume] in *.
    rewrite D1, D2, D3 in Er'. split; [|exact D4].
    exact (mscd_copies _ _ _ _ _ _ _ _ _ _ _ _ _ Hk Hb (parsers_shapes _ _ _ _ _ _ HP E) (parsers_rows _ _ _ _ _ HP E) Er Er').
  Qed.
End CopiesEnd.

(** ** The fit to copies *)
Lemma populate_counts z (v n : list R) : (z <> 0)%R -> populate_covariance_matrix v (map (Rmult z) n) = populate_covariance_matrix v n.
Proof.
  intros Hz. unfold populate_covariance_matrix. rewrite map_length. destruct (length v <=? length n)%nat eqn:L; [|reflexivity]. cbn [guard bind]. f_equal.
  unfold mat_of. apply map_seq_ext. intros i Hi. apply map_seq_ext. intros j Hj. rewrite !fill_value by assumption. unfold cov_value.
  assert (E : forall j, nth j (map (Rmult z) n) 0%R = (z * nth j n 0)%R).
  { intros q. replace 0%R with (z * 0)%R at 1 by ring. apply map_nth. }
  rewrite !E. unfold Rdiv. rewrite Rinv_mult.
  replace (z * nth (Nat.min i j) n 0 * (/ z * / nth (Nat.max i j) n 0))%R with (z * / z * (nth (Nat.min i j) n 0 * / nth (Nat.max i j) n 0))%R by ring.
  rewrite Rinv_r by exact Hz. now rewrite Rmult_1_l.
Qed.
Lemma C76_fit_proof k b b' r w g i : (0 < k)%nat -> copied_statistics k b b' ->
  length (b_dt b) = length (b_n b) -> square w (length (skipn r (b_n b))) -> symmetric w ->
  (gls_solution (weighted (/ (INR k * INR k * (INR k * INR k))) w) (skipn r (b_dt b')) (skipn r (b_n b')) (INR k * INR k * g) (INR k * INR k * i)
   <-> gls_solution w (skipn r (b_dt b)) (skipn r (b_n b)) g i).
Proof.
  intros Hk (En & Ev & Ed & _) HL Hw Hs. rewrite <- (C75_fit_proof (INR k) b (mkBoot (b_displacements b) (b_delta_t b) (b_max_obs b) (b_distributions b) (b_dt b)
    (map (Rmult (INR k * INR k)) (b_n b)) (b_s b) (map (Rmult (INR k * INR k * (INR k * INR k))) (b_v b))
    (b_n_bootstrap b) (b_s_bootstrap b) (b_v_bootstrap b) (b_n_o b) (b_ngp b) (b_sub_sample_dt b)
    (b_dimension b) (b_euclidian b) (b_D b) (b_DJ b) (b_sigma b) (b_intercept b) (b_gradient b)
    (b_flatchain b) (b_covariance b) (b_slice b) (b_start_dt b) (b_dims b) (b_model b) (b_cond_max b)) r w g i).
  - cbn [b_dt b_n]. now rewrite En, Ed.
  - apply not_0_INR. lia.
  - repeat split.
  - exact HL.
  - exact Hw.
  - exact Hs.
Qed.
Lemma C76_covariance_proof {G Seed RS} (X : Ext R G Seed RS) k b b' p r : (0 < k)%nat -> copied_statistics k b b' -> l_model p = false ->
  fst (generate_covariance_matrix X b' p r) = option_map (weighted (INR k * INR k * (INR k * INR k))) (fst (generate_covariance_matrix X b p r)).
Proof.
  intros Hk (_ & Ev & Ed & Eo & _) Hf. unfold generate_covariance_matrix. rewrite Hf. cbn [bind].
  rewrite Eo, Ev, !skipn_map, populate_units, populate_counts by (apply not_0_INR; lia). now destruct (populate_covariance_matrix _ _).
Qed.
Lemma C76_coefficients_proof k b b' d d' gr : (0 < k)%nat -> copied_statistics k b b' ->
  nth_error (b_displacements b) 0 = Some d -> nth_error (b_displacements b') 0 = Some d' -> (0 < length (a_rows d))%nat ->
  jump_samples (b_dims b') (length (a_rows d')) (map (Rmult (INR k * INR k)) gr) = map (Rmult (INR k)) (jump_samples (b_dims b) (length (a_rows d)) gr).
Proof.
  intros Hk (_ & _ & _ & _ & E1 & E2) H H' HN. rewrite E1, nth_error_map, H in H'. injection H' as <-. rewrite E2. unfold jump_samples. rewrite !map_map.
  rewrite copies_rows. apply map_ext. intros x. rewrite !nofnat_R. numR. rewrite mult_INR.
  assert (K : (INR k <> 0)%R) by (apply not_0_INR; lia). unfold Rdiv. rewrite !Rinv_mult.
  replace (INR k * INR k * x * (/ 20000 * / INR (b_dims b) * (/ INR k * / INR (length (a_rows d)))))%R
    with (INR k * / INR k * (INR k * (x * (/ 20000 * / INR (b_dims b) * / INR (length (a_rows d))))))%R by ring.
  rewrite Rinv_r by exact K. ring.
Qed.

(** ** Witnesses: a Li atom moving along [v], next to an O atom at rest *)
Definition drive (v : V3 R) (f a : nat) : V3 R := match a with O => scale3 (INR f / 10) v | _ => zero3 end.
Definition drive_frames (v : V3 R) : list (Frame R) := frames_of ["Li"; "O"]%string 1%R 4 2 (drive v) (fun _ => unit_cell).
Definition two_steps : Options R := (mkOptions (Some 1) (Some 2) 2 "linear" "multi-origin" 8 8)%R.
Definition drive_params : Params R := hop_params 1 (PyFloat 1%R) two_steps.
Definition unit_x : V3 R := mkV 1%R 0%R 0%R.
Definition unit_y : V3 R := mkV 0%R 1%R 0%R.
Lemma drive_small v : v = unit_x \/ v = unit_y -> small_steps 4 2 1 (drive v).
Proof.
  intros Hv f a Hf Ha. unfold drive, within_half. destruct a; cbn [vx vy vz minus3 zero3 scale3]; [|lra]. rewrite !Nat.mul_1_r, !S_INR.
  destruct Hv as [-> | ->]; cbn; lra.
Qed.
Lemma drive_one circ v : v = unit_x \/ v = unit_y -> exists p,
  ase_parser geomspace_R circ (drive_frames v) drive_params = Ok p
  /\ p_disp_3d p = [mkArr 4 [[zero3; scale3 (1/10) v; scale3 (1/10) v; scale3 (1/10) v]]; mkArr 3 [[scale3 (1/10) v; scale3 (2/10) v; scale3 (2/10) v]]]%R
  /\ length (p_delta_t p) = 2%nat /\ length (p_n_o p) = 2%nat.
Proof.
  intros Hv. unfold drive_frames, drive_params, two_steps.
  rewrite (ase_run geomspace_R circ unit_cell _ _ 4 2 1 (drive v) _ ["Li"%string] [0] [1])
    by (first [exact unit_cell_volume | now apply drive_small | lia | reflexivity]).
  cbn [hop_params a_time_step pynum_val a_step_skip a_opts]. rewrite kept_one.
  rewrite (parser_init_ints geomspace_R 2 4 _ [0] [1] 1 2 2 "multi-origin" 8 8)
    by (first [repeat constructor; cbn; lia | lia]).
  change (tab _ (lin _ 2 _)) with (map Z.of_nat [1;2]%nat).
  rewrite get_disps_multi' by (repeat constructor; cbn; lia).
  assert (E : Rltb 8 (in_gigabytes (fold_right Z.add 0 (map (estimate (length [0]) 4 8) [1;2]%nat))) = false).
  { apply Rltb_false. unfold in_gigabytes. cbn. lra. }
  rewrite E. cbn [bind]. eexists. split; [reflexivity|]. split; [|split; reflexivity].
  unfold multi_window. cbn. change (Pos.to_nat 1) with 1%nat. unfold drive, average3, average.
  destruct Hv as [-> | ->]; repeat f_equal; apply V3_eq; cbn; field.
Qed.
Lemma Forall_firstn' {T} (P : T -> Prop) n l : Forall P l -> Forall P (firstn n l).
Proof. intros H. rewrite <- (firstn_skipn n l) in H. now apply Forall_app in H. Qed.
Section Witness.
  Context {G Seed RS : Type} (X : Ext R G Seed RS).
  (** Both trajectories on their own, twice the first, and both together. *)
  Lemma drive_runs circ (c : R) (g : G) v w : v = unit_x \/ v = unit_y -> w = unit_x \/ w = unit_y ->
    let parse := fun t => ase_parser geomspace_R circ t drive_params in
    exists p q d, parse (drive_frames v) = Ok p /\ parse (drive_frames w) = Ok q
    /\ from_frames parse (TMulti [drive_frames v; drive_frames w]) (Some "identical"%string) = Ok d
    /\ (exists an, jump_diffusion_analyzer X d (demo_boot 1 "xyz") g = Ok (an, g) /\ length (b_n (an_diff an)) = 1%nat)
    /\ (exists an, conductivity_analyzer X d (QScalar c) (demo_boot 1 "xyz") g = Ok (an, g) /\ length (b_n (an_diff an)) = 1%nat)
    /\ an_volume d = p_volume p.
  Proof.
    intros Hv Hw parse. destruct (drive_one circ v Hv) as (p & P & Dp & Lp & Np). destruct (drive_one circ w Hw) as (q & Q & Dq & Lq & Nq).
    assert (HF : Forall2 (fun t p => ase_parser geomspace_R circ t drive_params = Ok p) [drive_frames v; drive_frames w] [p; q]) by (repeat constructor; assumption).
    assert (HA : Forall (alike (drive_frames v)) [drive_frames v; drive_frames w]).
    { repeat constructor. }
    destruct (C23_proof ase_parser geomspace_R circ drive_params (drive_frames v) [drive_frames v; drive_frames w] [p; q] (or_introl eq_refl) ltac:(discriminate) HA HF) as (d & E & _ & S & _).
    exists p, q, d. split; [exact P|]. split; [exact Q|]. split; [exact E|].
    pose proof (stacks_wf _ _ S (all_wf ase_parser _ _ _ _ _ (or_introl eq_refl) HF)) as W.
    assert (N1 : Forall (fun r => length (a_rows r) = 2%nat) (an_disp_3d d)).
    { apply (stacks_rows _ _ 1%nat S). constructor; [rewrite Dp; repeat constructor|]. constructor; [rewrite Dq; repeat constructor|constructor]. }
    pose proof (st_length _ _ S) as SL. inversion SL as [|? ? (L1 & L2) _]; subst. rewrite Dp in L1. cbn in L1. rewrite Np in L2.
    assert (LT : length (an_delta_t d) = 2%nat). { pose proof (st_times _ _ S) as ST. cbn in ST. injection ST as ST. now rewrite <- ST. }
    assert (O1 : Forall (fun r => 1 < a_obs r)%nat (an_disp_3d d)).
    { apply Forall_forall. intros r Hr. apply In_nth_error in Hr as (i & Hi). destruct (stacks_arrays _ _ _ _ S Hi) as (rs & Hc & (_ & HO)).
      inversion Hc as [|? r0 ? rs' Hr0 _]; subst. inversion HO as [|? ? HO0 _]; subst. rewrite <- HO0. rewrite Dp in Hr0.
      destruct i as [|[|i]]; cbn in Hr0; [injection Hr0 as <-; cbn; lia|injection Hr0 as <-; cbn; lia|destruct i; discriminate]. }
    assert (NE : an_disp_3d d <> []) by (destruct (an_disp_3d d); discriminate).
    destruct (mstd_total X (demo_boot 1 "xyz") (an_delta_t d) (an_disp_3d d) (an_n_o d) all_axes g eq_refl eq_refl names_xyz NE W O1 ltac:(lia) ltac:(lia)) as (b & B).
    assert (QQ : forall l, QScalar c = QArray l -> length l = 2%nat) by discriminate.
    destruct (mscd_total X (demo_boot 1 "xyz") (an_delta_t d) (an_disp_3d d) (QScalar c) (an_n_o d) all_axes 2 g eq_refl eq_refl names_xyz NE W N1 QQ O1 ltac:(lia) ltac:(lia)) as (b' & B').
    split; [|split].
    - exists (mkAn d b). unfold jump_diffusion_analyzer. rewrite B. split; [reflexivity|]. cbn [an_diff].
      destruct (C29_proof X (demo_boot 1 "xyz") _ _ _ _ _ _ eq_refl eq_refl W B) as (axes & used & shown & _ & M2 & M3 & ->). rewrite map_length.
      cbn [demo_boot u_sub_sample_dt] in M2. change (Z.to_nat 1) with 1%nat in M2. apply sub_sample_one in M2. subst used.
      rewrite (leading_all _ _ _ ltac:(apply Forall_firstn'; exact O1) M3). rewrite firstn_length, L1. reflexivity.
    - exists (mkAn d b'). unfold conductivity_analyzer. rewrite B'. split; [reflexivity|]. cbn [an_diff].
      destruct (C30_proof X (demo_boot 1 "xyz") _ _ _ _ _ _ _ _ eq_refl eq_refl W N1 QQ B') as (used & shown & M2 & M3 & ->). rewrite map_length.
      cbn [demo_boot u_sub_sample_dt] in M2. change (Z.to_nat 1) with 1%nat in M2. apply sub_sample_one in M2. subst used.
      rewrite (leading_all _ _ _ ltac:(apply Forall_firstn'; exact O1) M3). rewrite firstn_length, L1. reflexivity.
    - pose proof (st_volume _ _ S) as SV. cbn in SV. congruence.
  Qed.
  Lemma drive_single circ (c : R) (g : G) v : v = unit_x \/ v = unit_y ->
    let parse := fun t => ase_parser geomspace_R circ t drive_params in
    exists d an an', from_frames parse (TSingle (drive_frames v)) None = Ok d
    /\ jump_diffusion_analyzer X d (demo_boot 1 "xyz") g = Ok (an, g) /\ b_n (an_diff an) = [3/400]%R
    /\ conductivity_analyzer X d (QScalar c) (demo_boot 1 "xyz") g = Ok (an', g) /\ b_n (an_diff an') = [c * c * (3/400)]%R.
  Proof.
    intros Hv parse. destruct (drive_one circ v Hv) as (p & P & Dp & Lp & Np).
    set (a1 := mkArr 4 [[zero3; scale3 (1/10) v; scale3 (1/10) v; scale3 (1/10) v]]%R) in *. set (a2 := mkArr 3 _) in Dp.
    assert (W : Forall arr_wf (p_disp_3d p)) by (rewrite Dp; repeat constructor).
    assert (N1 : Forall (fun r => length (a_rows r) = 1%nat) (p_disp_3d p)) by (rewrite Dp; repeat constructor).
    assert (O1 : Forall (fun r => 1 < a_obs r)%nat (p_disp_3d p)) by (rewrite Dp; repeat constructor; cbn; lia).
    assert (NE : p_disp_3d p <> []) by (rewrite Dp; discriminate).
    assert (LD : length (p_disp_3d p) = 2%nat) by now rewrite Dp.
    destruct (mstd_total X (demo_boot 1 "xyz") (p_delta_t p) (p_disp_3d p) (p_n_o p) all_axes g eq_refl eq_refl names_xyz NE W O1 ltac:(lia) ltac:(lia)) as (b & B).
    assert (QQ : forall l, QScalar c = QArray l -> length l = 1%nat) by discriminate.
    destruct (mscd_total X (demo_boot 1 "xyz") (p_delta_t p) (p_disp_3d p) (QScalar c) (p_n_o p) all_axes 1 g eq_refl eq_refl names_xyz NE W N1 QQ O1 ltac:(lia) ltac:(lia)) as (b' & B').
    assert (V : mstd_of all_axes a1 = (3/400)%R).
    { destruct Hv as [-> | ->]; unfold mstd_of, average, sqlen, rsum; cbn; field. }
    exists (of_parsed p), (mkAn (of_parsed p) b), (mkAn (of_parsed p) b'). cbn [from_frames]. unfold parse. rewrite P. cbn [bind].
    unfold jump_diffusion_analyzer, conductivity_analyzer. cbn [of_parsed an_delta_t an_disp_3d an_n_o]. rewrite B, B'. cbn [bind an_diff].
    split; [reflexivity|]. split; [reflexivity|]. split; [|split; [reflexivity|]].
    - destruct (C29_proof X (demo_boot 1 "xyz") _ _ _ _ _ _ eq_refl eq_refl W B) as (axes & used & shown & M1 & M2 & M3 & ->).
      assert (axes = all_axes) by (eapply names_unique; [exact M1|exact names_xyz]). subst axes.
      cbn [demo_boot u_sub_sample_dt] in M2. change (Z.to_nat 1) with 1%nat in M2. apply sub_sample_one in M2. subst used.
      rewrite (leading_all _ _ _ ltac:(apply Forall_firstn'; exact O1) M3). rewrite Dp. cbn [length Nat.div firstn map]. change (fst (Nat.divmod 2 1 0 1)) with 1%nat.
      cbn [firstn map]. now rewrite V.
    - destruct (C30_proof X (demo_boot 1 "xyz") _ _ _ _ _ _ _ _ eq_refl eq_refl W N1 QQ B') as (used & shown & M2 & M3 & ->).
      cbn [demo_boot u_sub_sample_dt] in M2. change (Z.to_nat 1) with 1%nat in M2. apply sub_sample_one in M2. subst used.
      rewrite (leading_all _ _ _ ltac:(apply Forall_firstn'; exact O1) M3). rewrite Dp. cbn [length Nat.div firstn map]. change (fst (Nat.divmod 2 1 0 1)) with 1%nat.
      cbn [firstn map charges]. pose proof (mscd_scalar all_axes c a1 ltac:(repeat constructor)) as MS. cbn [a1 a_rows length] in MS. fold a1 in MS. rewrite MS. now rewrite V.
  Qed.
  (** The same trajectory twice. *)
  Lemma C76_copies_refuted_proof circ (g : G) :
    let parse := fun t => ase_parser geomspace_R circ t drive_params in let t := drive_frames unit_x in
    exists d d' an an' cn cn', from_frames parse (TSingle t) None = Ok d
    /\ from_frames parse (TMulti [t; t]) (Some "identical"%string) = Ok d' /\ an_volume d' = an_volume d
    /\ jump_diffusion_analyzer X d (demo_boot 1 "xyz") g = Ok (an, g) /\ b_n (an_diff an) = [3/400]%R
    /\ jump_diffusion_analyzer X d' (demo_boot 1 "xyz") g = Ok (an', g) /\ b_n (an_diff an') = [4 * (3/400)]%R
    /\ conductivity_analyzer X d (QScalar 1%R) (demo_boot 1 "xyz") g = Ok (cn, g) /\ b_n (an_diff cn) = [3/400]%R
    /\ conductivity_analyzer X d' (QScalar 1%R) (demo_boot 1 "xyz") g = Ok (cn', g) /\ b_n (an_diff cn') = [4 * (3/400)]%R.
  Proof.
    intros parse t. destruct (drive_single circ 1 g unit_x (or_introl eq_refl)) as (d & an & cn & E1 & A1 & V1 & C1 & W1).
    destruct (drive_runs circ 1 g unit_x unit_x (or_introl eq_refl) (or_introl eq_refl)) as (p & q & d' & P & Q & E2 & (an' & A2 & L2) & (cn' & C2 & L3) & EV).
    assert (E2' : from_frames parse (TMulti (repeat t 2)) (Some "identical"%string) = Ok d') by exact E2.
    destruct (C76_copies_jump_proof X ase_parser geomspace_R circ drive_params t 1 d d' (demo_boot 1 "xyz") _ _ _ _ _ _ (or_introl eq_refl) ltac:(reflexivity) ltac:(reflexivity) E1 E2' A1 A2) as ((S1 & _) & _).
    destruct (C76_copies_conductivity_proof X ase_parser circ drive_params t 1 d d' 1%R (demo_boot 1 "xyz") _ _ _ _ _ _ (or_introl eq_refl) ltac:(reflexivity) ltac:(reflexivity) E1 E2' C1 C2) as ((S2 & _) & _).
    exists d, d', an, an', cn, cn'. split; [exact E1|]. split; [exact E2|]. split.
    { clear -E1 P EV. cbn [from_frames] in E1. rewrite P in E1. injection E1 as <-. exact EV. }
    split; [exact A1|]. split; [exact V1|]. split; [exact A2|]. split; [rewrite S1, V1; cbn; f_equal; field|]. split; [exact C1|].
    split; [rewrite W1; f_equal; field|]. split; [exact C2|]. rewrite S2, W1. cbn. f_equal. field.
  Qed.
  (** Two replicas with uncorrelated motion: the conductivity doubles. *)
  Lemma C76_uncorrelated_refuted_proof circ (g : G) :
    let parse := fun t => ase_parser geomspace_R circ t drive_params in
    exists d1 d2 d c1 c2 cn, from_frames parse (TSingle (drive_frames unit_x)) None = Ok d1 /\ from_frames parse (TSingle (drive_frames unit_y)) None = Ok d2
    /\ from_frames parse (TMulti [drive_frames unit_x; drive_frames unit_y]) (Some "identical"%string) = Ok d
    /\ an_volume d = an_volume d1 /\ an_volume d = an_volume d2
    /\ conductivity_analyzer X d1 (QScalar 1%R) (demo_boot 1 "xyz") g = Ok (c1, g) /\ b_n (an_diff c1) = [3/400]%R
    /\ conductivity_analyzer X d2 (QScalar 1%R) (demo_boot 1 "xyz") g = Ok (c2, g) /\ b_n (an_diff c2) = [3/400]%R
    /\ conductivity_analyzer X d (QScalar 1%R) (demo_boot 1 "xyz") g = Ok (cn, g) /\ b_n (an_diff cn) = [3/400 + 3/400]%R.
  Proof.
    intros parse. destruct (drive_single circ 1 g unit_x (or_introl eq_refl)) as (d1 & an & c1 & E1 & A1 & V1 & C1 & W1).
    destruct (drive_single circ 1 g unit_y (or_intror eq_refl)) as (d2 & an2 & c2 & E2 & A2 & V2 & C2 & W2).
    destruct (drive_runs circ 1 g unit_x unit_y (or_introl eq_refl) (or_intror eq_refl)) as (p & q & d & P & Q & E & _ & (cn & C & L) & EV).
    assert (D1 : d1 = of_parsed p) by (cbn [from_frames] in E1; rewrite P in E1; now injection E1 as <-).
    assert (D2 : d2 = of_parsed q) by (cbn [from_frames] in E2; rewrite Q in E2; now injection E2 as <-).
    exists d1, d2, d, c1, c2, cn. split; [exact E1|]. split; [exact E2|]. split; [exact E|]. split; [now rewrite D1|].
    split.
    { rewrite D2, EV. cbn [of_parsed an_volume].
      rewrite (parsers_volume ase_parser _ _ drive_params _ _ (or_introl eq_refl) ltac:(reflexivity) P), (parsers_volume ase_parser _ _ drive_params _ _ (or_introl eq_refl) ltac:(reflexivity) Q).
      reflexivity. }
    split; [exact C1|]. split; [rewrite W1; f_equal; field|]. split; [exact C2|]. split; [rewrite W2; f_equal; field|]. split; [exact C|].
    destruct (b_n (an_diff cn)) as [|M [|? ?]] eqn:EM; try discriminate L.
    destruct (drive_one circ unit_x (or_introl eq_refl)) as (p' & P' & Dp & _). assert (p' = p) by (unfold parse in P; congruence). subst p'.
    destruct (drive_one circ unit_y (or_intror eq_refl)) as (q' & Q' & Dq & _). assert (q' = q) by (unfold parse in Q; congruence). subst q'.
    assert (HF : Forall2 (fun t p => ase_parser geomspace_R circ t drive_params = Ok p) [drive_frames unit_x; drive_frames unit_y] [p; q]) by (repeat constructor; assumption).
    assert (HA : Forall (alike (drive_frames unit_x)) [drive_frames unit_x; drive_frames unit_y]) by repeat constructor.
    assert (HM : Forall2 (mscd_reported X (fun t => ase_parser geomspace_R circ t drive_params) (QScalar 1%R) (demo_boot 1 "xyz") 0) [drive_frames unit_x; drive_frames unit_y] [3/400; 3/400]%R).
    { constructor; [|constructor; [|constructor]].
      - exists d1, c1, g, g. split; [exact E1|]. split; [exact C1|]. rewrite W1. cbn. f_equal. field.
      - exists d2, c2, g, g. split; [exact E2|]. split; [exact C2|]. rewrite W2. cbn. f_equal. field. }
    destruct (C76_mscd_proof X ase_parser circ drive_params (drive_frames unit_x) [drive_frames unit_x; drive_frames unit_y] [p; q] d 1%R (demo_boot 1 "xyz") g cn g 0%nat M _ (or_introl eq_refl) ltac:(discriminate) HA HF ltac:(reflexivity) ltac:(reflexivity) E C ltac:(now rewrite EM) HM) as (_ & _ & U).
    f_equal. rewrite (U _ ltac:(constructor; [rewrite Dp; reflexivity|]; constructor; [rewrite Dq; reflexivity|constructor])).
    - unfold rsum. cbn. lra.
    - intros i j r r' Hij Hi Hj. destruct i as [|[|i]], j as [|[|j]]; cbn in Hi, Hj; try lia; try (destruct i; discriminate); try (destruct j; discriminate);
        injection Hi as <-; injection Hj as <-; unfold covariation, average, inner, total, rsum; cbn; field.
  Qed.
End Witness.

(** ** One charge per ion does not fit several replicas *)
Section Charges.
  Context {G Seed RS : Type} (X : Ext R G Seed RS).
  Lemma wrong_charges u dts disps (l : list R) n_o g d0 : 0 < u_sub_sample_dt u -> (Z.to_nat (u_sub_sample_dt u) < length disps)%nat ->
    nth_error disps 0 = Some d0 -> (1 < length l)%nat -> (1 < length (a_rows d0))%nat -> length l <> length (a_rows d0) ->
    forall r, mscd_bootstrap X u dts disps (QArray l) n_o g <> Ok r.
  Proof.
    intros Hk Hlen H0 L1 L2 L3 r H. unfold mscd_bootstrap in H. inv_bind H b E. inv_bind H e0 E0. inv_bind H bg EL. clear H. destruct bg as [b' g'].
    destruct (bootstrap_init_ok _ _ _ _ _ _ E) as (axes & N1 & N2 & N3 & N4 & N5 & N6 & _). pose proof (stride_sub _ _ _ Hk N4) as SS.
    assert (I0 : nth_error (b_displacements b) 0 = Some d0) by (rewrite SS; exact H0).
    assert (I1 : (1 < length (b_displacements b))%nat).
    { apply nth_error_Some. rewrite SS. rewrite Nat.mul_1_l. apply nth_error_Some. exact Hlen. }
    assert (F : exists rest, first_half (b_displacements b) = d0 :: rest).
    { destruct (b_displacements b) as [|x [|y rest]]; cbn in I1; try lia. cbn in I0. injection I0 as ->. unfold first_half. cbn [length].
      destruct (Nat.div (S (S (length rest))) 2) as [|k] eqn:K; [|cbn; eauto].
      exfalso. pose proof (Nat.div_str_pos (S (S (length rest))) 2 ltac:(lia)). lia. }
    destruct F as (rest & F). rewrite F in EL. cbn [boot_loop] in EL. inv_bind EL s Es. clear EL. unfold boot_step in Es. inv_bind Es ds Ed. inv_bind Es q Eq. clear Es.
    unfold sq_chg_motion in Eq. inv_bind Eq rows Er. clear Eq. cbn [charge_array] in Er. unfold broadcast2 in Er.
    apply Nat.eqb_neq in L3. rewrite L3 in Er. destruct l as [|? [|? ?]]; cbn in L1; try lia. destruct (a_rows d0) as [|? [|? ?]]; cbn in L2; try lia. discriminate.
  Qed.
  Lemma C76_charges_proof (parse : parser_of) circ (a : Params R) t0 ts ps d l u g p : In parse parsers ->
    (1 < length ts)%nat -> Forall (alike t0) ts -> Forall2 (fun t p => parse geomspace_R circ t a = Ok p) ts ps -> In p ps ->
    0 < u_sub_sample_dt u -> (Z.to_nat (u_sub_sample_dt u) < length (p_disp_3d p))%nat ->
    length l = length (p_indices p) -> (1 < length l)%nat ->
    from_frames (fun t => parse geomspace_R circ t a) (TMulti ts) (Some "identical"%string) = Ok d ->
    forall r, conductivity_analyzer X d (QArray l) u g <> Ok r.
  Proof.
    intros HP HT HA H Hp Hk HL Hl H1 Ed r Hr. assert (Hne : ts <> []) by (intros ->; cbn in HT; lia).
    destruct (C23_proof parse geomspace_R circ a t0 ts ps HP Hne HA H) as (d' & E' & _ & S & _). assert (d' = d) by congruence. subst d'.
    unfold conductivity_analyzer in Hr. inv_bind Hr q Eq. clear Hr.
    pose proof (stacks_rows _ _ _ S (all_rows _ _ _ _ _ _ p HP HA H Hp)) as Rw.
    pose proof (st_length _ _ S) as SL. rewrite Forall_forall in SL. destruct (SL p Hp) as (L1 & _).
    assert (Lp : length ps = length ts) by (clear -H; induction H; cbn; congruence).
    destruct (an_disp_3d d) as [|d0 rest] eqn:Ea; [cbn in L1; lia|]. inversion Rw as [|? ? R0 _]; subst.
    eapply (wrong_charges u (an_delta_t d) (d0 :: rest) l (an_n_o d) g d0 Hk); [|reflexivity|exact H1| | |exact Eq].
    - cbn [length] in L1 |- *. lia.
    - rewrite R0, Lp. nia.
    - rewrite R0, Lp. nia.
  Qed.
End Charges.

(** Two Li atoms, simulated twice: one charge per atom. *)
Definition pair_frames (v : V3 R) : list (Frame R) := frames_of ["Li"; "Li"]%string 1%R 4 2 (drive v) (fun _ => unit_cell).
Lemma pair_one circ v : v = unit_x \/ v = unit_y -> exists p,
  ase_parser geomspace_R circ (pair_frames v) drive_params = Ok p /\ length (p_disp_3d p) = 2%nat /\ p_indices p = [0;1].
Proof.
  intros Hv. unfold pair_frames, drive_params, two_steps.
  rewrite (ase_run geomspace_R circ unit_cell _ _ 4 2 1 (drive v) _ ["Li"%string] [0;1] [])
    by (first [exact unit_cell_volume | now apply drive_small | lia | reflexivity]).
  cbn [hop_params a_time_step pynum_val a_step_skip a_opts]. rewrite kept_one.
  rewrite (parser_init_ints geomspace_R 2 4 _ [0;1] [] 1 2 2 "multi-origin" 8 8)
    by (first [repeat constructor; cbn; lia | lia]).
  change (tab _ (lin _ 2 _)) with (map Z.of_nat [1;2]%nat).
  rewrite get_disps_multi' by (repeat constructor; cbn; lia).
  assert (E : Rltb 8 (in_gigabytes (fold_right Z.add 0 (map (estimate (length [0;1]) 4 8) [1;2]%nat))) = false).
  { apply Rltb_false. unfold in_gigabytes. cbn. lra. }
  rewrite E. cbn [bind]. eexists. split; [reflexivity|]. split; reflexivity.
Qed.
Lemma C76_charges_example_proof circ : let parse := fun t => ase_parser geomspace_R circ t drive_params in let ts := [pair_frames unit_x; pair_frames unit_y] in
  exists ps p d, Forall (alike (pair_frames unit_x)) ts /\ Forall2 (fun t p => parse t = Ok p) ts ps /\ In p ps
  /\ 0 < u_sub_sample_dt (demo_boot 1 "xyz") /\ (Z.to_nat (u_sub_sample_dt (demo_boot 1 "xyz")) < length (p_disp_3d p))%nat
  /\ length [1;-1]%R = length (p_indices p) /\ (1 < length [1;-1]%R)%nat
  /\ from_frames parse (TMulti ts) (Some "identical"%string) = Ok d.
Proof.
  intros parse ts. destruct (pair_one circ unit_x (or_introl eq_refl)) as (p & P & Lp & Ip). destruct (pair_one circ unit_y (or_intror eq_refl)) as (q & Q & Lq & Iq).
  assert (HF : Forall2 (fun t p => ase_parser geomspace_R circ t drive_params = Ok p) ts [p; q]) by (repeat constructor; assumption).
  assert (HA : Forall (alike (pair_frames unit_x)) ts) by repeat constructor.
  destruct (C23_proof ase_parser geomspace_R circ drive_params (pair_frames unit_x) ts [p; q] (or_introl eq_refl) ltac:(discriminate) HA HF) as (d & E & _ & S & _).
  exists [p; q], p, d. split; [exact HA|]. split; [exact HF|]. split; [now left|]. split; [reflexivity|]. split; [rewrite Lp; cbn; lia|].
  split; [now rewrite Ip|]. split; [cbn; lia|exact E].
Qed.
