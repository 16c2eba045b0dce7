(** * ProofsCalib: reported variances and the scatter of repeated measurements (C89) *)
From Verif Require Import Base Spec SpecParser SpecStats SpecRun SpecFit SpecGls SpecMarkov SpecCalib SpecTrue ModelParser ModelDiffusion ModelHdf ModelAnalyzer Lemmas
  ProofsDisp ProofsCov ProofsIntervals ProofsWindows ProofsParser ProofsBoot ProofsTraj ProofsStats ProofsStats2 ProofsMarkov ProofsTrue ProofsColl.
From Coq Require Import Reals Lra Lia Psatz Sorted.
Open Scope Z_scope.

Lemma rsum_sumto (f : nat -> R) n : rsum (map f (seq 0 n)) = sumto n f.
Proof.
  induction n as [|n IH]; [reflexivity|]. rewrite seq_S, map_app, rsum_app, IH. cbn [map Nat.add sumto]. unfold rsum. cbn. lra.
Qed.
Lemma average_tab_sumto (f : nat -> R) n : average (tab n f) = (sumto n f / INR n)%R.
Proof. unfold average, tab. rewrite map_length, seq_length, rsum_sumto. reflexivity. Qed.
Lemma sumto_const n c : sumto n (fun _ => c) = (INR n * c)%R.
Proof. induction n as [|n IH]; [cbn; ring|]. cbn [sumto]. rewrite IH, S_INR. ring. Qed.
Lemma squares_about (f : nat -> R) n mu : (0 < n)%nat ->
  rsum (map (fun x => (x - average (tab n f)) * (x - average (tab n f)))%R (tab n f))
  = (sumto n (fun l => (f l - mu) * (f l - mu)) - INR n * ((average (tab n f) - mu) * (average (tab n f) - mu)))%R.
Proof.
  intros H. assert (N : (INR n <> 0)%R) by (apply not_0_INR; lia). unfold tab at 3. rewrite map_map, rsum_sumto. rewrite average_tab_sumto. set (a := (sumto n f / INR n)%R).
  assert (A : sumto n f = (INR n * a)%R) by (unfold a; field; exact N).
  rewrite (sumto_ext n _ (fun l => (f l - mu) * (f l - mu) + (-2 * (a - mu)) * f l + (a - mu) * (a + mu))%R) by (intros; ring).
  rewrite !sumto_plus, sumto_scale, sumto_const. rewrite A at 1. ring.
Qed.

Section Law.
  Context {E : Type} (es : list E) (wt : E -> R) (K : nat) (obs : E -> nat -> R) (mu s2 : R).
  Hypothesis W : rsum (map wt es) = 1%R.
  Hypothesis HK : (1 < K)%nat.
  Hypothesis HA : alike es wt K obs mu s2.
  Lemma K_pos : (0 < INR K)%R /\ (0 < INR K - 1)%R.
  Proof. assert (1 < INR K)%R by (change 1%R with (INR 1); now apply lt_INR). lra. Qed.
  Lemma mean_of_means : mean_over es wt (fun e => average (tab K (obs e))) = mu.
  Proof.
    destruct K_pos as [P _]. rewrite (mean_ext es wt _ (fun e => / INR K * sumto K (fun l => obs e l))%R) by (intros; rewrite average_tab_sumto; apply Rmult_comm).
    rewrite mean_scale, (mean_sumto es wt K (fun l e => obs e l)). rewrite (sumto_ext K _ (fun _ => mu)) by (intros l Hl; now apply HA).
    rewrite sumto_const. field. lra.
  Qed.
  Lemma mean_of_variances : mean_over es wt (fun e => sample_variance (tab K (obs e))) = (INR K / (INR K - 1) * (s2 - spread_over es wt (fun e => average (tab K (obs e)))))%R.
  Proof.
    destruct K_pos as [P Q].
    rewrite (mean_ext es wt _ (fun e => / (INR K - 1) * (sumto K (fun l => (obs e l - mu) * (obs e l - mu)) + - INR K * ((average (tab K (obs e)) - mu) * (average (tab K (obs e)) - mu))))%R).
    2:{ intros e _. unfold sample_variance. rewrite (squares_about (obs e) K mu) by lia. rewrite tab_length. field. lra. }
    rewrite mean_scale, mean_plus, mean_scale, (mean_sumto es wt K (fun l e => (obs e l - mu) * (obs e l - mu))%R).
    rewrite (sumto_ext K _ (fun _ => s2)) by (intros l Hl; now apply HA).
    rewrite sumto_const. unfold spread_over. rewrite mean_of_means. field. lra.
  Qed.
  Hypothesis HU : unrelated es wt K obs mu.
  Lemma spread_of_means : spread_over es wt (fun e => average (tab K (obs e))) = (s2 / INR K)%R.
  Proof.
    destruct K_pos as [P Q]. unfold spread_over. rewrite mean_of_means.
    rewrite (mean_ext es wt _ (fun e => / (INR K * INR K) * sumto K (fun i => sumto K (fun j => (obs e i - mu) * (obs e j - mu))))%R).
    2:{ intros e _. rewrite <- (sumto_mult K K (fun i => obs e i - mu)%R (fun j => obs e j - mu)%R). rewrite average_tab_sumto, sumto_minus.
    rewrite sumto_const. field. lra. }
    rewrite mean_scale, (mean_sumto es wt K (fun i e => sumto K (fun j => (obs e i - mu) * (obs e j - mu))%R)).
    rewrite (sumto_ext K _ (fun _ => s2)).
    2:{ intros i Hi. rewrite (mean_sumto es wt K (fun j e => (obs e i - mu) * (obs e j - mu))%R). rewrite (sumto_one K i).
        - now apply HA. - exact Hi. - intros j Hj D. apply HU; auto. }
    rewrite sumto_const. field. lra.
  Qed.
End Law.
Lemma scaled_law {E} (es : list E) wt K obs mu s2 (m v : E -> R) D : rsum (map wt es) = 1%R -> (1 < K)%nat -> alike es wt K obs mu s2 ->
  (forall e, In e es -> m e = average (tab K (obs e)) /\ v e = (sample_variance (tab K (obs e)) / D)%R) ->
  mean_over es wt m = mu /\ mean_over es wt v = (INR K / (INR K - 1) * (s2 - spread_over es wt m) / D)%R
  /\ (unrelated es wt K obs mu -> spread_over es wt m = (s2 / INR K)%R /\ mean_over es wt v = (s2 / D)%R).
Proof.
  intros W HK HA H.
  assert (EM : mean_over es wt m = mean_over es wt (fun e => average (tab K (obs e)))) by (apply mean_ext; intros e He; now apply H).
  assert (ES : spread_over es wt m = spread_over es wt (fun e => average (tab K (obs e)))).
  { unfold spread_over. rewrite EM. apply mean_ext. intros e He. now rewrite (proj1 (H e He)). }
  assert (EV : mean_over es wt v = (/ D * mean_over es wt (fun e => sample_variance (tab K (obs e))))%R).
  { rewrite <- mean_scale. apply mean_ext. intros e He. rewrite (proj2 (H e He)). unfold Rdiv. ring. }
  rewrite ES, EV, EM, (mean_of_variances es wt K obs mu s2) by assumption. split; [now apply (mean_of_means es wt K obs mu s2)|]. split; [unfold Rdiv; ring|].
  intros HU. rewrite (spread_of_means es wt K obs mu s2) by assumption. split; [reflexivity|]. destruct (K_pos K HK) as [P Q]. unfold Rdiv.
  assert (Q1 : (INR K * / (INR K - 1) * (s2 - s2 * / INR K) = s2)%R) by (field; lra). rewrite Q1. ring.
Qed.

Section Calibration.
  Context {G Seed RS : Type} (X : Ext R G Seed RS).
  Lemma squares_tab axes (d : Arr R) : map (sqlen axes) (entries d) = tab (length (entries d)) (square_of axes d).
  Proof.
    rewrite <- (map_nth_seq zero3 (entries d)) at 1. rewrite map_map. reflexivity.
  Qed.
  Lemma msd_entry u dts disps n_o g b g' axes i d no m v : 0 < u_sub_sample_dt u -> u_block u = false -> names (pystr_text (u_dimension u)) axes ->
    msd_bootstrap X u dts disps n_o g = Ok (b, g') -> nth_error disps (i * Z.to_nat (u_sub_sample_dt u)) = Some d -> nth_error n_o i = Some no ->
    nth_error (b_n b) i = Some m -> nth_error (b_v b) i = Some v ->
    m = average (tab (length (entries d)) (square_of axes d)) /\ v = (sample_variance (tab (length (entries d)) (square_of axes d)) / no)%R.
  Proof.
    intros Hk Hb N H Hd Hno Hm Hv. rewrite <- squares_tab. split.
    - destruct (msd_run_means X u dts disps n_o g b g' Hk Hb H) as (axes' & used & shown & N' & S & L & EB). assert (axes' = axes) by (eapply names_unique; eauto). subst axes'.
      rewrite EB, nth_error_map in Hm. destruct (nth_error shown i) as [d'|] eqn:E; [|discriminate]. injection Hm as <-.
      apply (leading_nth _ _ _ _ _ L) in E. rewrite S in E. assert (d' = d) by congruence. now subst d'.
    - destruct (C28_general_proof X u dts disps n_o g b g' Hk Hb H i v Hv) as (axes' & d' & no' & N' & D & O & EV). assert (axes' = axes) by (eapply names_unique; eauto).
      assert (d' = d) by congruence. assert (no' = no) by congruence. now subst.
  Qed.
  Lemma C89_law_proof {E} (es : list E) wt u dts disps n_o gi go b axes i K no mu s2 (d : E -> Arr R) m v :
    rsum (map wt es) = 1%R -> 0 < u_sub_sample_dt u -> u_block u = false -> names (pystr_text (u_dimension u)) axes -> (1 < K)%nat ->
    (forall e, In e es -> msd_bootstrap X u (dts e) (disps e) (n_o e) (gi e) = Ok (b e, go e)
       /\ nth_error (disps e) (i * Z.to_nat (u_sub_sample_dt u)) = Some (d e) /\ length (entries (d e)) = K /\ nth_error (n_o e) i = Some no
       /\ nth_error (b_n (b e)) i = Some (m e) /\ nth_error (b_v (b e)) i = Some (v e)) ->
    alike es wt K (fun e => square_of axes (d e)) mu s2 ->
    mean_over es wt m = mu /\ mean_over es wt v = (INR K / (INR K - 1) * (s2 - spread_over es wt m) / no)%R
    /\ (unrelated es wt K (fun e => square_of axes (d e)) mu -> spread_over es wt m = (s2 / INR K)%R /\ mean_over es wt v = (s2 / no)%R).
  Proof.
    intros W Hk Hb N HK H HA. apply (scaled_law es wt K (fun e => square_of axes (d e)) mu s2 m v no W HK HA).
    intros e He. destruct (H e He) as (H1 & H2 & H3 & H4 & H5 & H6). rewrite <- H3. eapply msd_entry; eauto.
  Qed.
End Calibration.

Section Collective.
  Context {G Seed RS : Type} (X : Ext R G Seed RS).
  Lemma mstd_entry u dts disps n_o g b g' axes i d no m v : 0 < u_sub_sample_dt u -> u_block u = false -> names (pystr_text (u_dimension u)) axes ->
    Forall arr_wf disps ->
    mstd_bootstrap X u dts disps n_o g = Ok (b, g') -> nth_error disps (i * Z.to_nat (u_sub_sample_dt u)) = Some d -> nth_error n_o i = Some no ->
    nth_error (b_n b) i = Some m -> nth_error (b_v b) i = Some v ->
    m = average (tab (a_obs d) (total_square_of axes d))
    /\ v = (sample_variance (tab (a_obs d) (total_square_of axes d)) / (no / INR (length (a_rows d))))%R.
  Proof.
    intros Hk Hb N HW H Hd Hno Hm Hv. split.
    - destruct (C29_proof X u dts disps n_o g b g' Hk Hb HW H) as (axes' & used & shown & N' & S & L & EB). assert (axes' = axes) by (eapply names_unique; eauto). subst axes'.
      rewrite EB, nth_error_map in Hm. destruct (nth_error shown i) as [d'|] eqn:E; [|discriminate]. injection Hm as <-.
      apply (leading_nth _ _ _ _ _ L) in E. apply firstn_nth_error in E. rewrite S in E. assert (d' = d) by congruence. now subst d'.
    - destruct (C55_mstd_proof X u dts disps n_o g b g' Hk Hb HW H i v Hv) as (axes' & d' & no' & N' & D & O & EV). assert (axes' = axes) by (eapply names_unique; eauto).
      assert (d' = d) by congruence. assert (no' = no) by congruence. now subst.
  Qed.
  Lemma mscd_entry u dts disps q n_o g b g' natoms i d no m v : 0 < u_sub_sample_dt u -> u_block u = false ->
    Forall arr_wf disps -> Forall (fun d => length (a_rows d) = natoms) disps -> (forall l, q = QArray l -> length l = natoms) ->
    mscd_bootstrap X u dts disps q n_o g = Ok (b, g') -> nth_error disps (i * Z.to_nat (u_sub_sample_dt u)) = Some d -> nth_error n_o i = Some no ->
    nth_error (b_n b) i = Some m -> nth_error (b_v b) i = Some v ->
    m = average (tab (a_obs d) (charge_square_of (charges q natoms) d))
    /\ v = (sample_variance (tab (a_obs d) (charge_square_of (charges q natoms) d)) / (no / INR natoms))%R.
  Proof.
    intros Hk Hb HW HN HQ H Hd Hno Hm Hv. split.
    - destruct (C30_proof X u dts disps q n_o g b g' natoms Hk Hb HW HN HQ H) as (used & shown & S & L & EB).
      rewrite EB, nth_error_map in Hm. destruct (nth_error shown i) as [d'|] eqn:E; [|discriminate]. injection Hm as <-.
      apply (leading_nth _ _ _ _ _ L) in E. apply firstn_nth_error in E. rewrite S in E. assert (d' = d) by congruence. now subst d'.
    - destruct (C55_mscd_proof X u dts disps q n_o g b g' natoms Hk Hb HW HN HQ H i v Hv) as (d' & no' & D & O & EV).
      assert (d' = d) by congruence. assert (no' = no) by congruence. now subst.
  Qed.
  Lemma C89_mstd_proof {E} (es : list E) wt u dts disps n_o gi go b axes i K na no mu s2 (d : E -> Arr R) m v :
    rsum (map wt es) = 1%R -> 0 < u_sub_sample_dt u -> u_block u = false -> names (pystr_text (u_dimension u)) axes -> (1 < K)%nat ->
    (forall e, In e es -> mstd_bootstrap X u (dts e) (disps e) (n_o e) (gi e) = Ok (b e, go e) /\ Forall arr_wf (disps e)
       /\ nth_error (disps e) (i * Z.to_nat (u_sub_sample_dt u)) = Some (d e) /\ a_obs (d e) = K /\ length (a_rows (d e)) = na /\ nth_error (n_o e) i = Some no
       /\ nth_error (b_n (b e)) i = Some (m e) /\ nth_error (b_v (b e)) i = Some (v e)) ->
    alike es wt K (fun e => total_square_of axes (d e)) mu s2 ->
    mean_over es wt m = mu /\ mean_over es wt v = (INR K / (INR K - 1) * (s2 - spread_over es wt m) / (no / INR na))%R
    /\ (unrelated es wt K (fun e => total_square_of axes (d e)) mu -> spread_over es wt m = (s2 / INR K)%R /\ mean_over es wt v = (s2 / (no / INR na))%R).
  Proof.
    intros W Hk Hb N HK H HA. apply (scaled_law es wt K (fun e => total_square_of axes (d e)) mu s2 m v (no / INR na)%R W HK HA).
    intros e He. destruct (H e He) as (H1 & HW & H2 & H3 & H3' & H4 & H5 & H6). rewrite <- H3, <- H3'. eapply mstd_entry; eauto.
  Qed.
  Lemma C89_mscd_proof {E} (es : list E) wt u dts disps q n_o gi go b i K na no mu s2 (d : E -> Arr R) m v :
    rsum (map wt es) = 1%R -> 0 < u_sub_sample_dt u -> u_block u = false -> (forall l, q = QArray l -> length l = na) -> (1 < K)%nat ->
    (forall e, In e es -> mscd_bootstrap X u (dts e) (disps e) q (n_o e) (gi e) = Ok (b e, go e) /\ Forall arr_wf (disps e)
       /\ Forall (fun d => length (a_rows d) = na) (disps e)
       /\ nth_error (disps e) (i * Z.to_nat (u_sub_sample_dt u)) = Some (d e) /\ a_obs (d e) = K /\ nth_error (n_o e) i = Some no
       /\ nth_error (b_n (b e)) i = Some (m e) /\ nth_error (b_v (b e)) i = Some (v e)) ->
    alike es wt K (fun e => charge_square_of (charges q na) (d e)) mu s2 ->
    mean_over es wt m = mu /\ mean_over es wt v = (INR K / (INR K - 1) * (s2 - spread_over es wt m) / (no / INR na))%R
    /\ (unrelated es wt K (fun e => charge_square_of (charges q na) (d e)) mu -> spread_over es wt m = (s2 / INR K)%R /\ mean_over es wt v = (s2 / (no / INR na))%R).
  Proof.
    intros W Hk Hb HQ HK H HA. apply (scaled_law es wt K (fun e => charge_square_of (charges q na) (d e)) mu s2 m v (no / INR na)%R W HK HA).
    intros e He. destruct (H e He) as (H1 & HW & HN & H2 & H3 & H4 & H5 & H6). rewrite <- H3. eapply mscd_entry; eauto.
  Qed.
End Collective.

(** ** One observation per atom: single-origin sampling, and the interval spanning the whole run *)
Section OnePerAtom.
  Context {G Seed RS : Type} (X : Ext R G Seed RS).
  Lemma column_squares axes N (y : nat -> nat -> V3 R) idx t d : entries d = map (fun j => y (site N j) t) idx ->
    length (entries d) = length idx /\ forall l, (l < length idx)%nat -> square_of axes d l = sqlen axes (y (site N (nth l idx 0)) t).
  Proof.
    intros E. split; [now rewrite E, map_length|]. intros l Hl. unfold square_of. rewrite E.
    rewrite (nth_indep (map (fun j => y (site N j) t) idx) zero3 (y (site N 0) t)) by now rewrite map_length.
    now rewrite (map_nth (fun j => y (site N j) t)).
  Qed.
  Lemma concat_single {B C} (f : B -> C) l : List.concat (map (fun x => [f x]) l) = map f l.
  Proof. induction l as [|x l IH]; [reflexivity|]. cbn. now rewrite IH. Qed.
  Lemma column_entry u dts disps n_o g b g' axes N (y : nat -> nat -> V3 R) idx t i d no m v : u_sub_sample_dt u = 1 -> u_block u = false -> names (pystr_text (u_dimension u)) axes ->
    msd_bootstrap X u dts disps n_o g = Ok (b, g') -> nth_error disps i = Some d -> nth_error n_o i = Some no ->
    entries d = map (fun j => y (site N j) t) idx ->
    nth_error (b_n b) i = Some m -> nth_error (b_v b) i = Some v ->
    let obs l := sqlen axes (y (site N (nth l idx 0)) t) in
    m = average (tab (length idx) obs) /\ v = (sample_variance (tab (length idx) obs) / no)%R.
  Proof.
    intros Hk Hb HN H Hd Hno He Hm Hv obs. destruct (column_squares axes N y idx t d He) as [L S].
    assert (P : 0 < u_sub_sample_dt u) by lia.
    assert (Hd' : nth_error disps (i * Z.to_nat (u_sub_sample_dt u)) = Some d) by (rewrite Hk; change (Z.to_nat 1) with 1%nat; now rewrite Nat.mul_1_r).
    destruct (msd_entry X u dts disps n_o g b g' axes i d no m v P Hb HN H Hd' Hno Hm Hv) as [M V].
    assert (T : tab (length (entries d)) (square_of axes d) = tab (length idx) obs).
    { rewrite L. unfold tab. apply map_ext_in. intros l Hl. apply in_seq in Hl. apply S. lia. }
    now rewrite T in M, V.
  Qed.
  Lemma last_of_nat tis : last (map Z.of_nat tis) 0 = Z.of_nat (last tis 0%nat).
  Proof. induction tis as [|a l IH]; [reflexivity|]. destruct l; [reflexivity|]. exact IH. Qed.
  Lemma sorted_last_le l : StronglySorted le l -> forall a, In a l -> (a <= last l 0)%nat.
  Proof.
    induction l as [|x l IH]; [easy|]. intros S a Hin. apply StronglySorted_inv in S. destruct S as [S F]. destruct l as [|y l].
    - destruct Hin as [->|[]]. cbn. lia.
    - change (last (x :: y :: l) 0%nat) with (last (y :: l) 0%nat). specialize (IH S). destruct Hin as [->|Hin]; [|now apply IH].
      rewrite Forall_forall in F. specialize (F y ltac:(now left)). specialize (IH y ltac:(now left)). lia.
  Qed.
  Context {E : Type} (es : list E) (wt : E -> R) (u : BootParams R) (axes : list axis) (N T : nat) (x : E -> nat -> nat -> V3 R) (idx drift : list Z)
    (ts : R) (ss : Z) (o : Options R) (p : E -> Parsed R) (gi go : E -> G) (b : E -> Boot R) (i n L : nat) (m v : E -> R) (mu s2 : R).
  Hypothesis W : rsum (map wt es) = 1%R.
  Hypothesis Hk : u_sub_sample_dt u = 1.
  Hypothesis Hb : u_block u = false.
  Hypothesis HN : names (pystr_text (u_dimension u)) axes.
  Hypothesis Hi : Forall (valid_site N) idx.
  Hypothesis Hd : Forall (valid_site N) drift.
  Hypothesis HS : sensible T (IZR ss * ts) o.
  Hypothesis HK : (1 < length idx)%nat.
  Hypothesis HR : forall e, In e es -> parser_init geomspace_R (table N T (x e)) idx drift ts ss o = Ok (p e)
    /\ msd_bootstrap X u (p_delta_t (p e)) (p_disp_3d (p e)) (p_n_o (p e)) (gi e) = Ok (b e, go e)
    /\ nth_error (b_n (b e)) i = Some (m e) /\ nth_error (b_v (b e)) i = Some (v e).
  Lemma HK0 : (0 < INR (length idx))%R.
  Proof. apply lt_0_INR. lia. Qed.
  Lemma C89_single_proof : o_sampling o = "single-origin"%string ->
    (forall e, In e es -> nth_error (p_intervals (p e)) i = Some (Z.of_nat n) /\ last (p_intervals (p e)) 0 = Z.of_nat L) ->
    alike es wt (length idx) (atom_square axes N x idx drift i) mu s2 -> unrelated es wt (length idx) (atom_square axes N x idx drift i) mu ->
    mean_over es wt m = mu /\ mean_over es wt v = (INR n / INR L * spread_over es wt m)%R.
  Proof.
    intros Hs HI HA HU.
    assert (F : forall e, In e es -> (0 < n)%nat /\ (0 < L)%nat /\ m e = average (tab (length idx) (atom_square axes N x idx drift i e)) /\ v e = (sample_variance (tab (length idx) (atom_square axes N x idx drift i e)) / (INR (length idx) * INR L / INR n))%R).
    { intros e He. destruct (HR e He) as (H1 & H2 & H3 & H4). destruct (HI e He) as [I1 I2].
      destruct (run_single N T (x e) idx drift ts ss o Hi Hd HS (p e) Hs H1) as (tis & F1 & F2 & Em & Ep). rewrite Ep in H2, I1, I2.
      cbn [p_n_o p_disp_3d p_delta_t p_intervals p_dc] in *. rewrite last_of_nat in I2. rewrite nth_error_map in I1.
      destruct (nth_error tis i) as [n'|] eqn:Hn; [|discriminate]. injection I1 as I1. apply Nat2Z.inj in I1. subst n'. apply Nat2Z.inj in I2.
      assert (Hr : (0 < n <= T)%nat) by (rewrite Forall_forall in F1; apply F1; eapply nth_error_In; eauto).
      assert (HL : (0 < L)%nat) by (rewrite <- I2; pose proof (sorted_last_le tis F2 n (nth_error_In _ _ Hn)); lia).
      split; [lia|]. split; [exact HL|].
      set (ks := if Nat.ltb 1 (length idx) then Nat.min (length tis) T else 0%nat) in *.
      assert (P1 : 0 < u_sub_sample_dt u) by lia.
      destruct (C28_general_proof X u _ _ _ _ _ _ P1 Hb H2 i (v e) H4) as (_ & d & no & _ & D & O & _).
      rewrite Hk in D. change (Z.to_nat 1) with 1%nat in D. rewrite Nat.mul_1_r in D.
      assert (Hlt : (i < ks)%nat). { assert (Z : nth_error (tab ks (single_window N (corrected N (x e) drift) idx)) i <> None) by congruence. apply nth_error_Some in Z. now rewrite tab_length in Z. }
      assert (D' := D). rewrite tab_nth_error in D' by exact Hlt. injection D' as D'.
      assert (no = INR (length idx) * INR L / INR n)%R.
      { rewrite nth_error_map, nth_error_firstn, Hn in O by exact Hlt. cbn in O. injection O as <-. unfold obs_count, last_interval. now rewrite I2, <- INR_IZR_INZ. }
      subst no. eapply (column_entry u _ _ _ _ _ _ axes N (corrected N (x e) drift) idx i i d); eauto.
      rewrite <- D'. unfold entries. cbn [single_window a_rows]. apply concat_single. }
    destruct (scaled_law es wt (length idx) (atom_square axes N x idx drift i) mu s2 m v _ W HK HA (fun e He => proj2 (proj2 (F e He)))) as (E1 & _ & E2).
    destruct (E2 HU) as [E3 E4]. split; [exact E1|]. rewrite E3, E4. pose proof HK0.
    destruct es as [|e es']; [cbn in W; unfold rsum in W; cbn in W; lra|]. destruct (F e ltac:(now left)) as (n0 & L0 & _).
    apply lt_0_INR in n0. apply lt_0_INR in L0. field. lra.
  Qed.
  Lemma C89_whole_run_proof : o_sampling o = "multi-origin"%string ->
    (forall e, In e es -> nth_error (p_intervals (p e)) i = Some (Z.of_nat T)) ->
    alike es wt (length idx) (atom_square axes N x idx drift (T - 1)) mu s2 -> unrelated es wt (length idx) (atom_square axes N x idx drift (T - 1)) mu ->
    mean_over es wt m = mu /\ mean_over es wt v = spread_over es wt m.
  Proof.
    intros Hs HI HA HU.
    assert (F : forall e, In e es -> m e = average (tab (length idx) (atom_square axes N x idx drift (T - 1) e)) /\ v e = (sample_variance (tab (length idx) (atom_square axes N x idx drift (T - 1) e)) / (INR (length idx)))%R).
    { intros e He. destruct (HR e He) as (H1 & H2 & H3 & H4). pose proof (HI e He) as I1.
      destruct (run_multi N T (x e) idx drift ts ss o Hi Hd HS (p e) Hs H1) as (tis & F1 & F2 & Ef & Em & Ep). rewrite Ep in H2, I1.
      cbn [p_n_o p_disp_3d p_delta_t p_intervals p_dc] in *. rewrite nth_error_map in I1.
      destruct (nth_error tis i) as [n'|] eqn:Hn; [|discriminate]. injection I1 as I1. apply Nat2Z.inj in I1. subst n'.
      assert (Hr : (0 < T <= T)%nat) by (rewrite Forall_forall in F1; apply F1; eapply nth_error_In; eauto).
      assert (HL : last tis 0%nat = T).
      { pose proof (sorted_last_le tis F2 T (nth_error_In _ _ Hn)). assert (last tis 0 <= T)%nat; [|lia]. clear -F1 Hn. 
        assert (Z : In (last tis 0%nat) tis). { destruct tis as [|a l]; [destruct i; discriminate|]. destruct (exists_last (l:=a :: l) ltac:(discriminate)) as (l' & z & ->). rewrite last_last. apply in_or_app. right. now left. }
        rewrite Forall_forall in F1. now apply F1. }
      set (ks := firstn (length (filter (enough (length idx) T) tis)) tis) in *.
      assert (P1 : 0 < u_sub_sample_dt u) by lia.
      destruct (C28_general_proof X u _ _ _ _ _ _ P1 Hb H2 i (v e) H4) as (_ & d & no & _ & D & O & _).
      rewrite Hk in D. change (Z.to_nat 1) with 1%nat in D. rewrite Nat.mul_1_r in D.
      assert (D' := D). rewrite nth_error_map in D'. destruct (nth_error ks i) as [n'|] eqn:En; [|discriminate]. injection D' as D'.
      assert (n' = T). { unfold ks in En. apply firstn_nth_error in En. congruence. } subst n'.
      assert (no = INR (length idx)).
      { rewrite nth_error_map, En in O. cbn in O. injection O as <-. unfold obs_count, last_interval. rewrite HL, <- INR_IZR_INZ. field. apply not_0_INR. lia. }
      subst no. eapply (column_entry u _ _ _ _ _ _ axes N (corrected N (x e) drift) idx (T - 1) i d); eauto.
      rewrite <- D'. unfold entries. cbn [multi_window a_rows]. replace (T - T + 1)%nat with 1%nat by lia. apply (concat_single (fun j => corrected N (x e) drift (site N j) (T - 1)%nat)). }
    destruct (scaled_law es wt (length idx) (atom_square axes N x idx drift (T - 1)) mu s2 m v _ W HK HA F) as (E1 & _ & E2).
    destruct (E2 HU) as [E3 E4]. split; [exact E1|]. now rewrite E3, E4.
  Qed.
End OnePerAtom.

(** ** A random walk of two atoms *)
Lemma pair_run_multi T (x : nat -> nat -> V3 R) : (T = 3 \/ T = 4)%nat ->
  parser_init geomspace_R (table 2 T x) [0; 1] [] 1%R 1 (whole_span T "multi-origin")
  = Ok (mkParsed (map Z.of_nat (seq 1 T)) (delta_ts 1%R 1 (seq 1 T)) (map (multi_window 2 T x [0; 1]) (seq 1 T)) (map (obs_count 2 (Z.of_nat T)) (seq 1 T))
          (table 2 T x) [0; 1] [] 1%R (INR T) None).
Proof.
  intros HT. unfold whole_span. rewrite INR_IZR_INZ. rewrite (parser_init_ints geomspace_R 2 T x [0; 1] [] 1 (Z.of_nat T) (Z.of_nat T) "multi-origin" 8 8) by (first [exact (Forall_nil _) | lia]).
  assert (E : tab (Z.to_nat (Z.min (Z.of_nat T) (Z.of_nat T - 1 + 1))) (lin (if 1 =? 0 then 1 else 1) (Z.of_nat T) (Z.to_nat (Z.min (Z.of_nat T) (Z.of_nat T - 1 + 1)))) = map Z.of_nat (seq 1 T)) by (destruct HT; subst; reflexivity).
  cbv zeta. rewrite E. rewrite get_disps_multi'.
  2:{ repeat constructor; cbn; lia. } 2:{ apply Forall_forall. intros n Hn. apply in_seq in Hn. lia. }
  assert (M : Rltb 8 (in_gigabytes (fold_right Z.add 0 (map (ProofsWindows.estimate (length [0; 1]) T 8) (seq 1 T)))) = false).
  { apply Rltb_false. unfold in_gigabytes. destruct HT; subst; cbn; lra. }
  rewrite M. cbn [bind fst snd]. destruct HT; subst; reflexivity.
Qed.
Lemma pair_run_single (x : nat -> nat -> V3 R) :
  parser_init geomspace_R (table 2 4 x) [0; 1] [] 1%R 1 (whole_span 4 "single-origin")
  = Ok (mkParsed (map Z.of_nat (seq 1 4)) (delta_ts 1%R 1 (seq 1 4)) (tab 4 (single_window 2 x [0; 1])) (map (obs_count 2 4) (seq 1 4))
          (table 2 4 x) [0; 1] [] 1%R (INR 4) None).
Proof.
  unfold whole_span. rewrite INR_IZR_INZ. rewrite (parser_init_ints geomspace_R 2 4 x [0; 1] [] 1 (Z.of_nat 4) (Z.of_nat 4) "single-origin" 8 8) by (first [exact (Forall_nil _) | lia]).
  cbv zeta. change (tab _ (lin _ _ _)) with (map Z.of_nat (seq 1 4)). rewrite get_disps_single'.
  2:{ repeat constructor; cbn; lia. } 2:{ apply Forall_forall. intros n Hn. apply in_seq in Hn. lia. }
  assert (M : Rltb 8 (in_gigabytes (fold_right Z.add 0 (map (ProofsWindows.estimate (length [0; 1]) 4 8) (seq 1 4)))) = false).
  { apply Rltb_false. unfold in_gigabytes. cbn; lra. }
  rewrite M. reflexivity.
Qed.
Section Walk.
  Context {G Seed RS : Type} (X : Ext R G Seed RS) (g : G).
  Definition analysed_or (b0 : Boot R) (p : Parsed R) : Boot R :=
    match msd_bootstrap X (demo_boot 1 "xyz") (p_delta_t p) (p_disp_3d p) (p_n_o p) g with Ok (b, _) => b | Raise _ => b0 end.
  Lemma pair_total (p : Parsed R) : p_disp_3d p <> [] -> Forall (fun d => 1 < length (entries d))%nat (p_disp_3d p) ->
    (length (p_disp_3d p) = length (p_delta_t p))%nat -> (length (p_disp_3d p) = length (p_n_o p))%nat ->
    exists b, msd_bootstrap X (demo_boot 1 "xyz") (p_delta_t p) (p_disp_3d p) (p_n_o p) g = Ok (b, g)
      /\ forall i d no, nth_error (p_disp_3d p) i = Some d -> nth_error (p_n_o p) i = Some no ->
           nth_error (b_n b) i = Some (average (map (sqlen all_axes) (entries d))) /\ nth_error (b_v b) i = Some (sample_variance (map (sqlen all_axes) (entries d)) / no)%R.
  Proof.
    intros H1 H2 H3 H4. destruct (msd_total X (demo_boot 1 "xyz") (p_delta_t p) (p_disp_3d p) (p_n_o p) all_axes g eq_refl eq_refl names_xyz H1 H2 ltac:(lia) ltac:(lia)) as (b & B).
    exists b. split; [exact B|]. intros i d no Hd Hn.
    destruct (msd_run X (demo_boot 1 "xyz") _ _ _ g b g eq_refl B) as (axes & shown & N1 & N2 & N3 & N4 & N5 & N6).
    assert (axes = all_axes) by (eapply names_unique; [exact N1|exact names_xyz]). subst axes.
    change (Z.to_nat (u_sub_sample_dt (demo_boot 1 "xyz"))) with 1%nat in N3. apply sub_sample_id in N3.
    assert (S : shown = p_disp_3d p).
    { destruct (br_shown _ _ _ _ _ _ _ _ _ _ N6) as (rest & E & F1 & F2). rewrite N3 in E. destruct rest as [|d' rest]; [rewrite app_nil_r in E; now symmetry|].
      exfalso. apply Forall_inv in F2. apply F2. unfold msd_values. rewrite map_length. rewrite Forall_forall in H2. apply H2. rewrite E. apply in_or_app. right. now left. }
    split.
    - rewrite (br_n _ _ _ _ _ _ _ _ _ _ N6 eq_refl), nth_error_map, S, Hd. reflexivity.
    - rewrite <- S in Hd. destruct (br_v _ _ _ _ _ _ _ _ _ _ N6 eq_refl i d Hd) as (no' & E1 & E2). assert (no' = no) by congruence. subst no'. exact E2.
  Qed.
End Walk.

Definition sq (x : R) : R := (x * x)%R.
Lemma sqlen_line x : sqlen all_axes (mkV x 0%R 0%R) = sq x.
Proof. unfold sqlen, sq_norm. cbn. unfold sq. ring. Qed.
Lemma sqlen_line_diff x y : sqlen all_axes (minus3 (mkV x 0%R 0%R) (mkV y 0%R 0%R)) = sq (x - y).
Proof. unfold sqlen, sq_norm. cbn. unfold sq. ring. Qed.
Lemma fair_one : rsum (map fair walkers) = 1%R.
Proof. unfold rsum. cbn. unfold fair. lra. Qed.
Definition obs4 (e : (bool * bool * bool) * (bool * bool * bool)) : list R :=
  [sq (path (fst e) 2); sq (path (fst e) 3); sq (path (snd e) 2); sq (path (snd e) 3)].
Definition obs3 (e : (bool * bool * bool) * (bool * bool * bool)) : list R :=
  [sq (path (fst e) 1); sq (path (fst e) 2); sq (path (snd e) 1); sq (path (snd e) 2)].
Definition obs1 (e : (bool * bool * bool) * (bool * bool * bool)) : list R :=
  [sq (path (fst e) 2); sq (path (snd e) 2)].
Ltac walk_sum := unfold mean_over, rsum, fair, walkers, flips, average, sample_variance, obs4, obs3, obs1, rsum, sq, path, coin; cbn; lra.
Lemma average4 a b c d : average [a; b; c; d] = ((a + b + c + d) / 4)%R.
Proof. unfold average, rsum. cbn. lra. Qed.
Lemma average2 a b : average [a; b] = ((a + b) / 2)%R.
Proof. unfold average, rsum. cbn. lra. Qed.
Lemma variance4 a b c d : sample_variance [a; b; c; d] = ((sq a + sq b + sq c + sq d) / 3 - sq (a + b + c + d) / 12)%R.
Proof. unfold sample_variance. rewrite average4. unfold rsum, sq. cbn. field. Qed.
Lemma variance2 a b : sample_variance [a; b] = (sq (a - b) / 2)%R.
Proof. unfold sample_variance. rewrite average2. unfold rsum, sq. cbn. field. Qed.
Lemma obs4_mean : mean_over walkers fair (fun e => average (obs4 e)) = (5 / 2)%R.
Proof. walk_sum. Qed.
Lemma obs3_mean : mean_over walkers fair (fun e => average (obs3 e)) = (3 / 2)%R.
Proof. walk_sum. Qed.
Lemma obs1_mean : mean_over walkers fair (fun e => average (obs1 e)) = 2%R.
Proof. walk_sum. Qed.
Lemma obs4_spread : spread_over walkers fair (fun e => average (obs4 e)) = 3%R.
Proof. unfold spread_over. rewrite obs4_mean. walk_sum. Qed.
Lemma obs3_spread : spread_over walkers fair (fun e => average (obs3 e)) = (1 / 2)%R.
Proof. unfold spread_over. rewrite obs3_mean. walk_sum. Qed.
Lemma obs1_spread : spread_over walkers fair (fun e => average (obs1 e)) = 2%R.
Proof. unfold spread_over. rewrite obs1_mean. walk_sum. Qed.
Lemma obs4_var : mean_over walkers fair (fun e => sample_variance (obs4 e) / (8 / 3))%R = (21 / 8)%R.
Proof. erewrite mean_ext; [|intros e _; unfold obs4; rewrite variance4; reflexivity]. walk_sum. Qed.
Lemma obs3_var : mean_over walkers fair (fun e => sample_variance (obs3 e) / 3)%R = (7 / 9)%R.
Proof. erewrite mean_ext; [|intros e _; unfold obs3; rewrite variance4; reflexivity]. walk_sum. Qed.
Lemma obs1_var : mean_over walkers fair (fun e => sample_variance (obs1 e) / (8 / 3))%R = (3 / 2)%R.
Proof. erewrite mean_ext; [|intros e _; unfold obs1; rewrite variance2; reflexivity]. walk_sum. Qed.

Section Walks.
  Context {G Seed RS : Type} (X : Ext R G Seed RS) (g : G).
  Lemma walkers_run (P : (bool * bool * bool) * (bool * bool * bool) -> Parsed R) i no (obs : (bool * bool * bool) * (bool * bool * bool) -> list R) :
    (forall e, p_disp_3d (P e) <> [] /\ Forall (fun d => 1 < length (entries d))%nat (p_disp_3d (P e))
       /\ length (p_disp_3d (P e)) = length (p_delta_t (P e)) /\ length (p_disp_3d (P e)) = length (p_n_o (P e))
       /\ exists d, nth_error (p_disp_3d (P e)) i = Some d /\ map (sqlen all_axes) (entries d) = obs e /\ nth_error (p_n_o (P e)) i = Some no) ->
    exists b, forall e, msd_bootstrap X (demo_boot 1 "xyz") (p_delta_t (P e)) (p_disp_3d (P e)) (p_n_o (P e)) g = Ok (b e, g)
       /\ nth_error (b_n (b e)) i = Some (average (obs e)) /\ nth_error (b_v (b e)) i = Some (sample_variance (obs e) / no)%R.
  Proof.
    intros H.
    assert (F : forall e, exists b, msd_bootstrap X (demo_boot 1 "xyz") (p_delta_t (P e)) (p_disp_3d (P e)) (p_n_o (P e)) g = Ok (b, g)
       /\ nth_error (b_n b) i = Some (average (obs e)) /\ nth_error (b_v b) i = Some (sample_variance (obs e) / no)%R).
    { intros e. destruct (H e) as (H1 & H2 & H3 & H4 & d & D1 & D2 & D3). destruct (pair_total X g (P e) H1 H2 H3 H4) as (b & B1 & B2). exists b. split; [exact B1|].
      rewrite <- D2. now apply B2. }
    destruct (F ((true, true, true), (true, true, true))) as (b0 & _). exists (fun e => analysed_or X g b0 (P e)).
    intros e. destruct (F e) as (b & B1 & B2). unfold analysed_or. now rewrite B1.
  Qed.
  Lemma C89_narrow_proof : exists p b m v, (forall e, In e walkers ->
      parser_init geomspace_R (table 2 4 (stroll e)) [0; 1] [] 1%R 1 (whole_span 4 "multi-origin") = Ok (p e)
      /\ msd_bootstrap X (demo_boot 1 "xyz") (p_delta_t (p e)) (p_disp_3d (p e)) (p_n_o (p e)) g = Ok (b e, g)
      /\ nth_error (p_intervals (p e)) 2 = Some 3 /\ nth_error (b_n (b e)) 2 = Some (m e) /\ nth_error (b_v (b e)) 2 = Some (v e))
    /\ (mean_over walkers fair v < spread_over walkers fair m)%R.
  Proof.
    set (P := fun e => mkParsed (map Z.of_nat (seq 1 4)) (delta_ts 1%R 1 (seq 1 4)) (map (multi_window 2 4 (stroll e) [0; 1]) (seq 1 4)) (map (obs_count 2 (Z.of_nat 4)) (seq 1 4))
          (table 2 4 (stroll e)) [0; 1] [] 1%R (INR 4) None).
    destruct (walkers_run P 2 (8 / 3)%R obs4) as (b & B).
    { intros e. unfold P. cbn [p_disp_3d p_delta_t p_n_o]. split; [discriminate|]. split; [cbn; repeat constructor|]. do 2 (split; [reflexivity|]).
      eexists. split; [reflexivity|]. split.
      - destruct e as [[[a1 a2] a3] [[c1 c2] c3]]. unfold obs4. cbn -[coin]. change (Pos.to_nat 1) with 1%nat. unfold sqlen, sq_norm, sq. cbn -[coin]. repeat (apply f_equal2; [ring|]). reflexivity.
      - cbn. unfold obs_count. cbn. f_equal. field. }
    exists P, b, (fun e => average (obs4 e)), (fun e => sample_variance (obs4 e) / (8 / 3))%R. split.
    - intros e _. split; [apply pair_run_multi; now right|]. destruct (B e) as (B1 & B2 & B3). auto.
    - rewrite obs4_spread, obs4_var. lra.
  Qed.
  Lemma C89_wide_proof : exists p b m v, (forall e, In e walkers ->
      parser_init geomspace_R (table 2 3 (stroll e)) [0; 1] [] 1%R 1 (whole_span 3 "multi-origin") = Ok (p e)
      /\ msd_bootstrap X (demo_boot 1 "xyz") (p_delta_t (p e)) (p_disp_3d (p e)) (p_n_o (p e)) g = Ok (b e, g)
      /\ nth_error (p_intervals (p e)) 1 = Some 2 /\ nth_error (b_n (b e)) 1 = Some (m e) /\ nth_error (b_v (b e)) 1 = Some (v e))
    /\ (spread_over walkers fair m < mean_over walkers fair v)%R.
  Proof.
    set (P := fun e => mkParsed (map Z.of_nat (seq 1 3)) (delta_ts 1%R 1 (seq 1 3)) (map (multi_window 2 3 (stroll e) [0; 1]) (seq 1 3)) (map (obs_count 2 (Z.of_nat 3)) (seq 1 3))
          (table 2 3 (stroll e)) [0; 1] [] 1%R (INR 3) None).
    destruct (walkers_run P 1 3%R obs3) as (b & B).
    { intros e. unfold P. cbn [p_disp_3d p_delta_t p_n_o]. split; [discriminate|]. split; [cbn; repeat constructor|]. do 2 (split; [reflexivity|]).
      eexists. split; [reflexivity|]. split.
      - destruct e as [[[a1 a2] a3] [[c1 c2] c3]]. unfold obs3. cbn -[coin]. change (Pos.to_nat 1) with 1%nat. unfold sqlen, sq_norm, sq. cbn -[coin]. repeat (apply f_equal2; [ring|]). reflexivity.
      - cbn. unfold obs_count. cbn. f_equal. field. }
    exists P, b, (fun e => average (obs3 e)), (fun e => sample_variance (obs3 e) / 3)%R. split.
    - intros e _. split; [apply pair_run_multi; now left|]. destruct (B e) as (B1 & B2 & B3). auto.
    - rewrite obs3_spread, obs3_var. lra.
  Qed.
  Lemma C89_single_refuted_proof : exists p b m v, (forall e, In e walkers ->
      parser_init geomspace_R (table 2 4 (stroll e)) [0; 1] [] 1%R 1 (whole_span 4 "single-origin") = Ok (p e)
      /\ msd_bootstrap X (demo_boot 1 "xyz") (p_delta_t (p e)) (p_disp_3d (p e)) (p_n_o (p e)) g = Ok (b e, g)
      /\ nth_error (p_intervals (p e)) 2 = Some 3 /\ nth_error (b_n (b e)) 2 = Some (m e) /\ nth_error (b_v (b e)) 2 = Some (v e))
    /\ (mean_over walkers fair v < spread_over walkers fair m)%R.
  Proof.
    set (P := fun e => mkParsed (map Z.of_nat (seq 1 4)) (delta_ts 1%R 1 (seq 1 4)) (tab 4 (single_window 2 (stroll e) [0; 1])) (map (obs_count 2 4) (seq 1 4))
          (table 2 4 (stroll e)) [0; 1] [] 1%R (INR 4) None).
    destruct (walkers_run P 2 (8 / 3)%R obs1) as (b & B).
    { intros e. unfold P. cbn [p_disp_3d p_delta_t p_n_o]. split; [discriminate|]. split; [cbn; repeat constructor|]. do 2 (split; [reflexivity|]).
      eexists. split; [reflexivity|]. split.
      - destruct e as [[[a1 a2] a3] [[c1 c2] c3]]. unfold obs1. cbn -[coin]. change (Pos.to_nat 1) with 1%nat. unfold sqlen, sq_norm, sq. cbn -[coin]. repeat (apply f_equal2; [ring|]). reflexivity.
      - cbn. unfold obs_count. cbn. f_equal. field. }
    exists P, b, (fun e => average (obs1 e)), (fun e => sample_variance (obs1 e) / (8 / 3))%R. split.
    - intros e _. split; [apply pair_run_single|]. destruct (B e) as (B1 & B2 & B3). auto.
    - rewrite obs1_spread, obs1_var. lra.
  Qed.
End Walks.
Lemma C89_example_proof : rsum (map fair walkers) = 1%R
  /\ alike walkers fair 2 (atom_square all_axes 2 stroll [0; 1] [] 2) 2%R 4%R /\ unrelated walkers fair 2 (atom_square all_axes 2 stroll [0; 1] [] 2) 2%R
  /\ forall e, In e walkers -> exists p, parser_init geomspace_R (table 2 3 (stroll e)) [0; 1] [] 1%R 1 (whole_span 3 "multi-origin") = Ok p
       /\ nth_error (p_intervals p) 2 = Some 3 /\ nth_error (p_n_o p) 2 = Some 2%R.
Proof.
  split; [exact fair_one|].
  assert (H : forall e l, (l < 2)%nat -> atom_square all_axes 2 stroll [0; 1] [] 2 e l = sq (path (match l with O => fst e | _ => snd e end) 2)).
  { intros e l Hl. unfold atom_square, corrected, stroll. destruct l as [|[|l]]; [| |lia]; cbn [nth]; rewrite sqlen_line; reflexivity. }
  split; [|split].
  - intros l Hl. split; (erewrite mean_ext; [|intros e _; rewrite (H e l Hl); reflexivity]); destruct l as [|[|l]]; try lia; walk_sum.
  - intros l l' Hl Hl' D. erewrite mean_ext; [|intros e _; rewrite (H e l Hl), (H e l' Hl'); reflexivity].
    destruct l as [|[|l]], l' as [|[|l']]; try lia; walk_sum.
  - intros e _. eexists. split; [apply pair_run_multi; now left|]. split; [reflexivity|]. cbn. unfold obs_count. cbn. f_equal. field.
Qed.
