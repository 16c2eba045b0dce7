(** * ProofsColl: collective displacements of the true trajectory (C85, C86) *)
From Verif Require Import Base Spec SpecParser SpecStats SpecFit SpecAnalyzer ModelParser ModelDiffusion ModelHdf ModelAnalyzer
  Lemmas ProofsDisp ProofsIntervals ProofsWindows ProofsParser ProofsTraj ProofsBoot ProofsStats ProofsStats2 ProofsFit ProofsFit2 ProofsShape ProofsAnalyzer
  SpecRun SpecSym ProofsSym SpecGrid ProofsGrid SpecPool ProofsCollective ProofsPool SpecTrue ProofsTrue SpecColl.
From Coq Require Import Reals Lra Lia Sorting.Sorted.
Open Scope Z_scope.

Lemma multi_wf N T x I n : arr_wf (multi_window N T x I n).
Proof. unfold arr_wf, multi_window. cbn [a_rows a_obs]. apply Forall_forall. intros r Hr. apply in_map_iff in Hr as (j & <- & _). apply tab_length. Qed.
Lemma multi_at N T x I n t : (t < T - n + 1)%nat -> at_time (multi_window N T x I n) t = map (fun i => window_obs (x (site N i)) n t) I.
Proof.
  intros Ht. rewrite at_time_wf by (apply multi_wf || exact Ht). cbn [multi_window a_rows]. rewrite map_map. apply map_ext. intros i.
  apply nth_error_nth. apply tab_nth_error. exact Ht.
Qed.

Section Means.
  Context (natoms k T : nat) (pos : nat -> nat -> V3 R) (idx fw : list Z) (F : list (V3 R) -> R).
  Let start := fun a t => minus3 (pos (t * k)%nat a) (pos 0%nat a).
  Let between f g := F (moves natoms k pos idx fw f g).
  Lemma window_moves m o : (0 < m)%nat -> (o < T - m + 1)%nat ->
    F (at_time (multi_window natoms T (corrected natoms start fw) idx m) o)
    = between (match o with O => 0 | S j => j end)%nat (match o with O => m - 1 | S j => j + m end)%nat.
  Proof.
    intros Hm Ho. rewrite multi_at by exact Ho. unfold between, moves. f_equal. apply map_ext. intros i. destruct o; cbn [window_obs].
    - apply corrected_start.
    - apply corrected_difference.
  Qed.
  Lemma over_total m : (INR (T - m) * over_time T m between = rsum (map (fun j => between j (j + m)%nat) (seq 0 (T - m))))%R.
  Proof.
    unfold over_time, average. rewrite tab_length. destruct (T - m)%nat eqn:E; [cbn; ring|]. rewrite <- E. unfold tab. field. apply not_0_INR. lia.
  Qed.
  Lemma collective_mean m : (0 < m <= T)%nat ->
    average (tab (a_obs (multi_window natoms T (corrected natoms start fw) idx m)) (fun t => F (at_time (multi_window natoms T (corrected natoms start fw) idx m) t)))
    = ((INR (T - m) * over_time T m between + between 0%nat (m - 1)%nat) / INR (T - m + 1))%R.
  Proof.
    intros Hm. cbn [multi_window a_obs]. fold (multi_window natoms T (corrected natoms start fw) idx m).
    rewrite (tab_ext' _ (fun o => between (match o with O => 0 | S j => j end)%nat (match o with O => m - 1 | S j => j + m end)%nat)).
    2:{ intros o Ho. apply window_moves; lia. }
    unfold average. rewrite tab_length. f_equal. rewrite over_total. rewrite Nat.add_1_r, tab_S, rsum_cons. unfold tab. ring.
  Qed.
End Means.

Section Reported.
  Context {G Seed RS : Type} (X : Ext R G Seed RS).
  Lemma form_shape i cell types n natoms k x a p tis : read_form i cell types n natoms k x a p tis ->
    Forall arr_wf (p_disp_3d p) /\ Forall (fun d => length (a_rows d) = length (p_indices p)) (p_disp_3d p).
  Proof.
    intros [_ _ _ _ _ F]. cbv zeta in F. destruct F as (_ & F & _). rewrite F. split; apply Forall_forall; intros d Hd; apply in_map_iff in Hd as (m & <- & _).
    - apply multi_wf.
    - apply map_length.
  Qed.
  (** One entry of a report, with its interval. *)
  Lemma collective_entry i cell types n natoms k x a p tis axes s ns Qf b : read_form i cell types n natoms k x a p tis ->
    entry_of X axes (of_parsed p) s ns Qf b -> forall j t, nth_error (b_dt b) j = Some t ->
    exists m d, nth_error tis (j * s) = Some m /\ (0 < m <= kept n k)%nat /\ t = clock i a m
      /\ d = multi_window natoms (kept n k) (corrected natoms (drifting cell k x) (p_drift_indices p)) (p_indices p) m
      /\ nth_error (b_n b) j = Some (average (Qf d)).
  Proof.
    intros [F1 F2 F3 F4 F5 F6] E j t Ht. destruct (E j t Ht) as (d & no & E1 & E2 & E3 & _). cbn [of_parsed an_disp_3d an_delta_t] in *.
    set (q := (j * s)%nat) in *. cbv zeta in F6. destruct F6 as (F6 & F7 & F8).
    rewrite F5, nth_error_map in E2. destruct (nth_error tis q) as [m|] eqn:Em; [|discriminate]. injection E2 as <-.
    exists m, d. split; [reflexivity|]. rewrite Forall_forall in F1. split; [apply F1; eapply nth_error_In; exact Em|]. split; [reflexivity|].
    split; [|exact E3].
    rewrite F7, nth_error_map in E1. destruct (nth_error (firstn _ tis) q) as [m'|] eqn:Em'; [|discriminate]. injection E1 as <-.
    apply firstn_nth_error in Em'. congruence.
  Qed.
  Definition reports (p : Parsed R) (n natoms k s : nat) (pos : nat -> nat -> V3 R) (between : nat -> nat -> R) (b : Boot R) (j : nat) (t : R) : Prop :=
    exists m, nth_error (p_intervals p) (j * s) = Some (Z.of_nat m) /\ nth_error (p_delta_t p) (j * s) = Some t /\ (0 < m <= kept n k)%nat
      /\ nth_error (b_n b) j = Some ((INR (kept n k - m) * over_time (kept n k) m between + between 0%nat (m - 1)%nat) / INR (kept n k - m + 1))%R.
  Lemma collective_reports i cell types n natoms k x a p tis axes s ns F b : read_form i cell types n natoms k x a p tis ->
    entry_of X axes (of_parsed p) s ns (fun d => tab (a_obs d) (fun t => F (at_time d t))) b -> forall j t, nth_error (b_dt b) j = Some t ->
    reports p n natoms k s (positions cell x) (fun f g => F (moves natoms k (positions cell x) (p_indices p) (p_drift_indices p) f g)) b j t.
  Proof.
    intros RF E j t Ht. destruct (collective_entry _ _ _ _ _ _ _ _ _ _ _ _ _ _ _ RF E j t Ht) as (m & d & E1 & E2 & E3 & E4 & E5).
    exists m. rewrite (rf_intervals _ _ _ _ _ _ _ _ _ _ RF), (rf_times _ _ _ _ _ _ _ _ _ _ RF), !nth_error_map, E1. cbn [option_map].
    split; [reflexivity|]. split; [now rewrite E3|]. split; [exact E2|]. rewrite E5. f_equal. rewrite E4.
    exact (collective_mean natoms k (kept n k) (positions cell x) _ _ F m E2).
  Qed.
  Lemma C85_mstd_proof i circ cell types vol n natoms k x a p u axes g an g' :
    faithful_read i circ cell types vol n natoms k x a p -> 0 < u_sub_sample_dt u -> u_block u = false -> names (pystr_text (u_dimension u)) axes ->
    jump_diffusion_analyzer X (of_parsed p) u g = Ok (an, g') -> forall j t, nth_error (b_dt (an_diff an)) j = Some t ->
    exists m, nth_error (p_intervals p) (j * Z.to_nat (u_sub_sample_dt u)) = Some (Z.of_nat m) /\ nth_error (p_delta_t p) (j * Z.to_nat (u_sub_sample_dt u)) = Some t
      /\ (0 < m <= kept n k)%nat
      /\ let T := kept n k in let between := total_between axes natoms k (fun f b => cart cell (x f b)) (p_indices p) (p_drift_indices p) in
         nth_error (b_n (an_diff an)) j = Some ((INR (T - m) * over_time T m between + between 0%nat (m - 1)%nat) / INR (T - m + 1))%R.
  Proof.
    intros F Hk Hb Hn H j t Ht. destruct (read_forms _ _ _ _ _ _ _ _ _ _ _ F) as (tis & RF). destruct (form_shape _ _ _ _ _ _ _ _ _ _ RF) as [W _].
    destruct (jump_entry X (of_parsed p) _ _ _ _ Hk Hb W H) as (axes' & N' & E). rewrite (names_unique _ _ _ N' Hn) in E.
    exact (collective_reports _ _ _ _ _ _ _ _ _ _ _ _ _ (fun l => sqlen axes (sum3 l)) _ RF E j t Ht).
  Qed.
  Lemma C85_mscd_proof i circ cell types vol n natoms k x a p q u g an g' :
    faithful_read i circ cell types vol n natoms k x a p -> 0 < u_sub_sample_dt u -> u_block u = false ->
    (forall l, q = QArray l -> length l = length (p_indices p)) ->
    conductivity_analyzer X (of_parsed p) q u g = Ok (an, g') -> forall j t, nth_error (b_dt (an_diff an)) j = Some t ->
    exists m, nth_error (p_intervals p) (j * Z.to_nat (u_sub_sample_dt u)) = Some (Z.of_nat m) /\ nth_error (p_delta_t p) (j * Z.to_nat (u_sub_sample_dt u)) = Some t
      /\ (0 < m <= kept n k)%nat
      /\ let T := kept n k in
         let between := charge_between (charges q (length (p_indices p))) natoms k (fun f b => cart cell (x f b)) (p_indices p) (p_drift_indices p) in
         nth_error (b_n (an_diff an)) j = Some ((INR (T - m) * over_time T m between + between 0%nat (m - 1)%nat) / INR (T - m + 1))%R.
  Proof.
    intros F Hk Hb Hq H j t Ht. destruct (read_forms _ _ _ _ _ _ _ _ _ _ _ F) as (tis & RF). destruct (form_shape _ _ _ _ _ _ _ _ _ _ RF) as [W L].
    destruct (conductivity_entry X (of_parsed p) _ _ _ _ _ _ Hk Hb W L Hq H) as (axes' & N' & E).
    exact (collective_reports _ _ _ _ _ _ _ _ _ _ _ _ _
      (fun l => sqlen all_axes (sum3 (map (fun p => scale3 (fst p) (snd p)) (combine (charges q (length (p_indices p))) l)))) _ RF E j t Ht).
  Qed.
End Reported.

(** ** Averages over many runs *)
Section Expected.
  Context {G Seed RS : Type} (X : Ext R G Seed RS) {E : Type} (es : list E) (w : E -> R) (x : E -> nat -> nat -> V3 R) (p : E -> Parsed R) (an : E -> Analyzer R) (v : E -> R).
  Lemma expected_reports i circ cell types vol n natoms k a s j (between : E -> nat -> nat -> R) (M : nat -> R) : es <> [] ->
    (forall e, In e es -> faithful_read i circ cell types vol n natoms k (x e) a (p e)) ->
    (forall e, In e es -> exists t, reports (p e) n natoms k s (positions cell (x e)) (between e) (an_diff (an e)) j t /\ nth_error (b_n (an_diff (an e))) j = Some (v e)) ->
    (forall f l, (f + l < kept n k)%nat -> rsum (map (fun e => w e * between e f (f + l)%nat)%R es) = M l) ->
    exists m, (0 < m <= kept n k)%nat /\ (forall e, In e es -> nth_error (p_intervals (p e)) (j * s) = Some (Z.of_nat m))
      /\ rsum (map (fun e => w e * v e)%R es) = ((INR (kept n k - m) * M m + M (m - 1)%nat) / INR (kept n k - m + 1))%R.
  Proof.
    intros NE F R HM.
    assert (K : exists m, (0 < m <= kept n k)%nat /\ (forall e, In e es -> nth_error (p_intervals (p e)) (j * s) = Some (Z.of_nat m))).
    { destruct es as [|e0 es0] eqn:Ees; [congruence|]. rewrite <- Ees in *. assert (He0 : In e0 es) by (rewrite Ees; now left).
      destruct (R e0 He0) as (t & (m & E1 & _ & E2 & _) & _).
      exists m. split; [exact E2|]. intros e He. rewrite <- E1. f_equal.
      destruct (read_forms _ _ _ _ _ _ _ _ _ _ _ (F e He)) as (tis & RF). destruct (read_forms _ _ _ _ _ _ _ _ _ _ _ (F e0 He0)) as (tis0 & RF0).
      rewrite (rf_intervals _ _ _ _ _ _ _ _ _ _ RF), (rf_intervals _ _ _ _ _ _ _ _ _ _ RF0). f_equal.
      exact (same_intervals _ _ _ _ _ _ _ _ _ _ _ _ _ _ _ _ _ _ _ (F e He) (F e0 He0) RF RF0). }
    destruct K as (m & Hm & K). exists m. split; [exact Hm|]. split; [exact K|]. set (T := kept n k) in *.
    rewrite (map_ext_in (fun e => w e * v e)%R (fun e => / INR (T - m + 1) * (rsum (map (fun q => w e * between e q (q + m)%nat) (seq 0 (T - m))) + w e * between e 0%nat (0 + (m - 1))%nat))%R).
    2:{ intros e He. destruct (R e He) as (t & (m' & E1 & _ & E2 & E3) & R3). rewrite (K e He) in E1. injection E1 as E1. apply Nat2Z.inj in E1. subst m'.
      fold T in E3. unfold over_time, average in E3. rewrite tab_length in E3. rewrite R3 in E3. injection E3 as ->. rewrite rsum_map_scal. cbn [Nat.add]. unfold tab.
      destruct (T - m)%nat eqn:Z; [cbn; lra|]. rewrite <- Z. field. split; apply not_0_INR; lia. }
    rewrite rsum_map_scal, rsum_map_plus, rsum_swap. rewrite (HM 0%nat (m - 1)%nat) by lia.
    rewrite (map_ext_in _ (fun _ => M m)).
    2:{ intros q Hq. apply in_seq in Hq. apply HM. lia. }
    rewrite rsum_const, seq_length. unfold Rdiv. ring.
  Qed.
  Lemma expected_diffusive i circ cell types vol n natoms k a s j (between : E -> nat -> nat -> R) (c : R) : es <> [] ->
    (forall e, In e es -> faithful_read i circ cell types vol n natoms k (x e) a (p e)) ->
    (forall e, In e es -> exists t, reports (p e) n natoms k s (positions cell (x e)) (between e) (an_diff (an e)) j t /\ nth_error (b_n (an_diff (an e))) j = Some (v e)) ->
    (forall f l, (f + l < kept n k)%nat -> rsum (map (fun e => w e * between e f (f + l)%nat)%R es) = (c * INR l)%R) ->
    exists m, (0 < m <= kept n k)%nat /\ (forall e, In e es -> nth_error (p_intervals (p e)) (j * s) = Some (Z.of_nat m))
      /\ rsum (map (fun e => w e * v e)%R es) = (c * (INR m - 1 / INR (kept n k - m + 1)))%R.
  Proof.
    intros NE F R HM. destruct (expected_reports i circ cell types vol n natoms k a s j between (fun l => c * INR l)%R NE F R HM) as (m & M1 & M2 & M3).
    exists m. split; [exact M1|]. split; [exact M2|]. rewrite M3. rewrite (minus_INR m 1), plus_INR by lia. cbn [INR].
    assert (0 <= INR (kept n k - m))%R by apply pos_INR. field. lra.
  Qed.
  Lemma C85_diffusive_proof i circ cell types vol n natoms k a u axes j (c : R) : es <> [] ->
    (forall e, In e es -> faithful_read i circ cell types vol n natoms k (x e) a (p e)) ->
    0 < u_sub_sample_dt u -> u_block u = false -> names (pystr_text (u_dimension u)) axes ->
    (forall e, In e es -> exists g g' t, jump_diffusion_analyzer X (of_parsed (p e)) u g = Ok (an e, g')
       /\ nth_error (b_dt (an_diff (an e))) j = Some t /\ nth_error (b_n (an_diff (an e))) j = Some (v e)) ->
    (forall f l, (f + l < kept n k)%nat -> rsum (map (fun e => w e
        * total_between axes natoms k (fun f b => cart cell (x e f b)) (p_indices (p e)) (p_drift_indices (p e)) f (f + l))%R es) = (c * INR l)%R) ->
    exists m, (0 < m <= kept n k)%nat /\ (forall e, In e es -> nth_error (p_intervals (p e)) (j * Z.to_nat (u_sub_sample_dt u)) = Some (Z.of_nat m))
      /\ rsum (map (fun e => w e * v e)%R es) = (c * (INR m - 1 / INR (kept n k - m + 1)))%R.
  Proof.
    intros NE F Hk Hb Hn R HM.
    refine (expected_diffusive i circ cell types vol n natoms k a _ j (fun e => total_between axes natoms k (positions cell (x e)) (p_indices (p e)) (p_drift_indices (p e))) c NE F _ HM).
    intros e He. destruct (R e He) as (g & g' & t & R1 & R2 & R3). exists t. split; [|exact R3].
    exact (C85_mstd_proof X _ _ _ _ _ _ _ _ _ _ _ _ _ _ _ _ (F e He) Hk Hb Hn R1 j t R2).
  Qed.
End Expected.

(** ** C86: uncorrelated atoms *)
Lemma weigh_seq (q : list R) : forall l, length q = length l ->
  map (fun p => scale3 (fst p) (snd p)) (combine q l) = map (fun a => scale3 (nth a q 0%R) (nth a l zero3)) (seq 0 (length l)).
Proof.
  induction q as [|c q IH]; intros [|v l] H; try discriminate; [reflexivity|]. cbn [combine map length seq nth fst snd]. f_equal.
  rewrite <- seq_shift, map_map. apply IH. now injection H.
Qed.
Lemma inner_scales axes c d v w : inner axes (scale3 c v) (scale3 d w) = (c * d * inner axes v w)%R.
Proof. unfold inner. rewrite <- rsum_map_scal. f_equal. apply map_ext. intros []; cbn; ring. Qed.
Lemma weighted_square axes (q : list R) l : length q = length l ->
  sqlen axes (sum3 (map (fun p => scale3 (fst p) (snd p)) (combine q l)))
  = rsum (map (fun a => rsum (map (fun b => nth a q 0 * nth b q 0 * inner axes (nth a l zero3) (nth b l zero3))%R (seq 0 (length l)))) (seq 0 (length l))).
Proof.
  intros H. rewrite inner_sums, weigh_seq by exact H. rewrite map_map. f_equal. apply map_ext. intros a. rewrite map_map. f_equal. apply map_ext. intros b. apply inner_scales.
Qed.
Lemma single_term (h : nat -> R) n a : (a < n)%nat -> (forall b, b <> a -> h b = 0%R) -> rsum (map h (seq 0 n)) = h a.
Proof.
  intros Ha H. assert (E : (n = a + S (n - S a))%nat) by lia. rewrite E, seq_app, map_app, rsum_app. cbn [seq map]. rewrite rsum_cons.
  assert (Z : forall s m, (forall b, In b (seq s m) -> b <> a) -> rsum (map h (seq s m)) = 0%R).
  { intros s m K. rewrite (map_ext_in _ (fun _ => 0%R)) by (intros b Hb; apply H, K, Hb). rewrite rsum_const. ring. }
  rewrite !Z; [cbn; ring| |]; intros b Hb; apply in_seq in Hb; lia.
Qed.
Section Uncorrelated.
  Context {E : Type} (es : list E) (w : E -> R) (axes : list axis).
  Lemma uncorrelated_square (l : E -> list (V3 R)) (q : list R) (c : R) N : length q = N -> (forall e, In e es -> length (l e) = N) -> Forall (fun y => y * y = c * c)%R q ->
    (forall a b, a <> b -> rsum (map (fun e => w e * inner axes (nth a (l e) zero3) (nth b (l e) zero3))%R es) = 0%R) ->
    rsum (map (fun e => w e * sqlen axes (sum3 (map (fun p => scale3 (fst p) (snd p)) (combine q (l e)))))%R es)
    = (c * c * INR N * rsum (map (fun e => w e * average (map (sqlen axes) (l e)))%R es))%R.
  Proof.
    intros Lq Ll Hq Hu.
    rewrite (map_ext_in _ (fun e => rsum (map (fun a => rsum (map (fun b => nth a q 0 * nth b q 0 * (w e * inner axes (nth a (l e) zero3) (nth b (l e) zero3)))%R (seq 0 N))) (seq 0 N)))).
    2:{ intros e He. rewrite weighted_square by (rewrite Ll; assumption). rewrite (Ll e He), <- rsum_map_scal. f_equal. apply map_ext. intros a.
      rewrite <- rsum_map_scal. f_equal. apply map_ext. intros b. ring. }
    rewrite rsum_swap. rewrite (map_ext_in _ (fun a => c * c * rsum (map (fun e => w e * sqlen axes (nth a (l e) zero3))%R es))%R).
    2:{ intros a Ha. apply in_seq in Ha. rewrite rsum_swap.
      rewrite (single_term _ N a) by (try lia; intros b Hb; rewrite rsum_map_scal, Hu by congruence; ring).
      rewrite rsum_map_scal. f_equal. rewrite Forall_forall in Hq. apply Hq. apply nth_In. lia. }
    rewrite rsum_map_scal, (Rmult_assoc (c * c) (INR N)). f_equal. rewrite (rsum_swap (fun a e => w e * sqlen axes (nth a (l e) zero3))%R (seq 0 N) es), <- rsum_map_scal. f_equal. apply map_ext_in. intros e He.
    rewrite rsum_map_scal. rewrite <- (map_map (fun a => nth a (l e) zero3) (sqlen axes)), <- (Ll e He), map_nth_seq.
    unfold average. rewrite map_length. destruct (l e) as [|v t]; [cbn; ring|]. field. apply not_0_INR. discriminate.
  Qed.
End Uncorrelated.
Lemma weigh_ones l : map (fun p => scale3 (fst p) (snd p)) (combine (repeat 1%R (length l)) l) = l.
Proof. induction l as [|v l IH]; [reflexivity|]. cbn [length repeat combine map fst snd]. rewrite IH. f_equal. v3eq. Qed.

Section Ideal.
  Context {G Seed RS : Type} (X : Ext R G Seed RS) {E : Type} (es : list E) (w : E -> R) (x : E -> nat -> nat -> V3 R) (p : E -> Parsed R) (an cn : E -> Analyzer R) (v v' : E -> R).
  Let pos cell e := fun f b => cart cell (x e f b).
  (** From the average of each window to the average of the report. *)
  Lemma ideal_reports i circ cell types vol n natoms k a u axes j C (between : E -> nat -> nat -> R) :
    (forall e, In e es -> faithful_read i circ cell types vol n natoms k (x e) a (p e)) ->
    0 < u_sub_sample_dt u -> u_block u = false -> names (pystr_text (u_dimension u)) axes ->
    (forall e, In e es -> exists g g' t, diffusion_analyzer X (of_parsed (p e)) u g = Ok (an e, g')
       /\ nth_error (b_dt (an_diff (an e))) j = Some t /\ nth_error (b_n (an_diff (an e))) j = Some (v e)) ->
    (forall e, In e es -> exists t, reports (p e) n natoms k (Z.to_nat (u_sub_sample_dt u)) (pos cell e) (between e) (an_diff (cn e)) j t /\ nth_error (b_n (an_diff (cn e))) j = Some (v' e)) ->
    (forall f l, (f + l < kept n k)%nat -> rsum (map (fun e => w e * between e f (f + l)%nat)%R es)
       = (C * rsum (map (fun e => w e * square_between axes natoms k (pos cell e) (p_indices (p e)) (p_drift_indices (p e)) f (f + l))%R es))%R) ->
    rsum (map (fun e => w e * v' e)%R es) = (C * rsum (map (fun e => w e * v e)%R es))%R.
  Proof.
    intros F Hk Hb Hn R R' HB. destruct es as [|e0 es0] eqn:Ees; [cbn; ring|]. rewrite <- Ees in *.
    assert (He0 : In e0 es) by (rewrite Ees; now left).
    assert (K : exists m, (0 < m <= kept n k)%nat /\ (forall e, In e es -> nth_error (p_intervals (p e)) (j * Z.to_nat (u_sub_sample_dt u)) = Some (Z.of_nat m))).
    { destruct (R e0 He0) as (g & g' & t & R1 & R2 & R3).
      destruct (C81_reported_proof X _ _ _ _ _ _ _ _ _ _ _ _ _ _ _ _ (F e0 He0) Hk Hb Hn R1 j t R2) as (m & E1 & _ & E2 & _).
      exists m. split; [exact E2|]. intros e He. rewrite <- E1. f_equal.
      destruct (read_forms _ _ _ _ _ _ _ _ _ _ _ (F e He)) as (tis & RF). destruct (read_forms _ _ _ _ _ _ _ _ _ _ _ (F e0 He0)) as (tis0 & RF0).
      rewrite (rf_intervals _ _ _ _ _ _ _ _ _ _ RF), (rf_intervals _ _ _ _ _ _ _ _ _ _ RF0). f_equal.
      exact (same_intervals _ _ _ _ _ _ _ _ _ _ _ _ _ _ _ _ _ _ _ (F e He) (F e0 He0) RF RF0). }
    destruct K as (m & Hm & K). set (T := kept n k) in *.
    set (sq := fun e => square_between axes natoms k (pos cell e) (p_indices (p e)) (p_drift_indices (p e))).
    assert (HB' : forall f l, (f + l < T)%nat -> rsum (map (fun e => w e * between e f (f + l)%nat)%R es) = (C * rsum (map (fun e => w e * sq e f (f + l)%nat)%R es))%R) by exact HB.
    rewrite (map_ext_in (fun e => w e * v' e)%R (fun e => / INR (T - m + 1) * (rsum (map (fun q => w e * between e q (q + m)%nat) (seq 0 (T - m))) + w e * between e 0%nat (0 + (m - 1))%nat))%R).
    2:{ intros e He. destruct (R' e He) as (t & (m' & E1 & _ & E2 & E3) & R3). rewrite (K e He) in E1. injection E1 as E1. apply Nat2Z.inj in E1. subst m'.
      fold T in E3. unfold over_time, average in E3. rewrite tab_length in E3. rewrite R3 in E3. injection E3 as ->. rewrite rsum_map_scal. cbn [Nat.add]. unfold tab.
      destruct (T - m)%nat eqn:Z; [cbn; lra|]. rewrite <- Z. field. split; apply not_0_INR; lia. }
    rewrite (map_ext_in (fun e => w e * v e)%R (fun e => / INR (T - m + 1) * (rsum (map (fun q => w e * sq e q (q + m)%nat) (seq 0 (T - m))) + w e * sq e 0%nat (0 + (m - 1))%nat))%R).
    2:{ intros e He. destruct (R e He) as (g & g' & t & R1 & R2 & R3).
      destruct (C81_reported_proof X _ _ _ _ _ _ _ _ _ _ _ _ _ _ _ _ (F e He) Hk Hb Hn R1 j t R2) as (m' & E1 & _ & E2 & E3).
      rewrite (K e He) in E1. injection E1 as E1. apply Nat2Z.inj in E1. subst m'. cbv zeta in E3. rewrite true_total in E3. fold T in E3. fold (pos cell e) in E3. fold (sq e) in E3.
      rewrite R3 in E3. injection E3 as ->. rewrite rsum_map_scal. cbn [Nat.add]. unfold Rdiv. ring. }
    rewrite !rsum_map_scal, !rsum_map_plus, !(rsum_swap _ es (seq 0 (T - m))). rewrite (HB' 0%nat (m - 1)%nat) by lia.
    rewrite (map_ext_in (fun q => rsum (map (fun e => w e * between e q (q + m)%nat)%R es)) (fun q => C * rsum (map (fun e => w e * sq e q (q + m)%nat)%R es))%R).
    2:{ intros q Hq. apply in_seq in Hq. apply HB'. lia. }
    rewrite rsum_map_scal. ring.
  Qed.
  Lemma square_moves axes natoms k q idx fw f g : square_between axes natoms k q idx fw f g = average (map (sqlen axes) (moves natoms k q idx fw f g)).
  Proof. unfold square_between, moves. now rewrite map_map. Qed.
  Lemma same_atoms i circ cell types vol n natoms k a e e' : faithful_read i circ cell types vol n natoms k (x e) a (p e) -> faithful_read i circ cell types vol n natoms k (x e') a (p e') ->
    p_indices (p e') = p_indices (p e).
  Proof.
    intros F F'. destruct (read_forms _ _ _ _ _ _ _ _ _ _ _ F) as (tis & RF). destruct (read_forms _ _ _ _ _ _ _ _ _ _ _ F') as (tis' & RF').
    pose proof (rf_chosen _ _ _ _ _ _ _ _ _ _ RF) as A. rewrite (rf_chosen _ _ _ _ _ _ _ _ _ _ RF') in A. congruence.
  Qed.
  Lemma C86_jump_proof i circ cell types vol n natoms k a u axes j :
    (forall e, In e es -> faithful_read i circ cell types vol n natoms k (x e) a (p e)) ->
    0 < u_sub_sample_dt u -> u_block u = false -> names (pystr_text (u_dimension u)) axes ->
    (forall e, In e es -> exists g g' t, diffusion_analyzer X (of_parsed (p e)) u g = Ok (an e, g')
       /\ nth_error (b_dt (an_diff (an e))) j = Some t /\ nth_error (b_n (an_diff (an e))) j = Some (v e)) ->
    (forall e, In e es -> exists g g' t, jump_diffusion_analyzer X (of_parsed (p e)) u g = Ok (cn e, g')
       /\ nth_error (b_dt (an_diff (cn e))) j = Some t /\ nth_error (b_n (an_diff (cn e))) j = Some (v' e)) ->
    uncorrelated_atoms es w axes cell natoms k (kept n k) x p ->
    forall e, In e es -> rsum (map (fun e => w e * v' e)%R es) = (INR (length (p_indices (p e))) * rsum (map (fun e => w e * v e)%R es))%R.
  Proof.
    intros F Hk Hb Hn R R' HU e He.
    apply (ideal_reports i circ cell types vol n natoms k a u axes j _ (fun e => total_between axes natoms k (pos cell e) (p_indices (p e)) (p_drift_indices (p e))) F Hk Hb Hn R).
    - intros e1 H1. destruct (R' e1 H1) as (g & g' & t & R1 & R2 & R3). exists t. split; [|exact R3].
      exact (C85_mstd_proof X _ _ _ _ _ _ _ _ _ _ _ _ _ _ _ _ (F e1 H1) Hk Hb Hn R1 j t R2).
    - intros f l Hf. set (N := length (p_indices (p e))).
      assert (LN : forall e1, In e1 es -> length (moves natoms k (pos cell e1) (p_indices (p e1)) (p_drift_indices (p e1)) f (f + l)) = N).
      { intros e1 H1. unfold moves. rewrite map_length. now rewrite (same_atoms _ _ _ _ _ _ _ _ _ _ _ (F e He) (F e1 H1)). }
      rewrite (map_ext_in _ (fun e => w e * sqlen axes (sum3 (map (fun p => scale3 (fst p) (snd p)) (combine (repeat 1%R N) (moves natoms k (pos cell e) (p_indices (p e)) (p_drift_indices (p e)) f (f + l))))))%R).
      2:{ intros e1 H1. unfold total_between. now rewrite <- (LN e1 H1), weigh_ones. }
      rewrite (uncorrelated_square es w axes _ (repeat 1%R N) 1%R N).
      + rewrite !Rmult_1_l. f_equal. f_equal. apply map_ext. intros e1. now rewrite square_moves.
      + apply repeat_length.
      + exact LN.
      + apply Forall_forall. intros y Hy. apply repeat_spec in Hy. now subst.
      + intros b c Hbc. exact (HU f l b c Hf Hbc).
  Qed.
  Lemma C86_charge_proof i circ cell types vol n natoms k a q c u j :
    (forall e, In e es -> faithful_read i circ cell types vol n natoms k (x e) a (p e)) ->
    0 < u_sub_sample_dt u -> u_block u = false -> names (pystr_text (u_dimension u)) all_axes ->
    (forall e l, In e es -> q = QArray l -> length l = length (p_indices (p e))) ->
    (forall e, In e es -> Forall (fun y => y * y = c * c)%R (charges q (length (p_indices (p e))))) ->
    (forall e, In e es -> exists g g' t, diffusion_analyzer X (of_parsed (p e)) u g = Ok (an e, g')
       /\ nth_error (b_dt (an_diff (an e))) j = Some t /\ nth_error (b_n (an_diff (an e))) j = Some (v e)) ->
    (forall e, In e es -> exists g g' t, conductivity_analyzer X (of_parsed (p e)) q u g = Ok (cn e, g')
       /\ nth_error (b_dt (an_diff (cn e))) j = Some t /\ nth_error (b_n (an_diff (cn e))) j = Some (v' e)) ->
    uncorrelated_atoms es w all_axes cell natoms k (kept n k) x p ->
    forall e, In e es -> rsum (map (fun e => w e * v' e)%R es) = (c * c * INR (length (p_indices (p e))) * rsum (map (fun e => w e * v e)%R es))%R.
  Proof.
    intros F Hk Hb Hn Hq Hc R R' HU e He.
    apply (ideal_reports i circ cell types vol n natoms k a u all_axes j _
       (fun e => charge_between (charges q (length (p_indices (p e)))) natoms k (pos cell e) (p_indices (p e)) (p_drift_indices (p e))) F Hk Hb Hn R).
    - intros e1 H1. destruct (R' e1 H1) as (g & g' & t & R1 & R2 & R3). exists t. split; [|exact R3].
      exact (C85_mscd_proof X _ _ _ _ _ _ _ _ _ _ _ _ _ _ _ _ (F e1 H1) Hk Hb (fun l => Hq e1 l H1) R1 j t R2).
    - intros f l Hf. set (N := length (p_indices (p e))).
      assert (LI : forall e1, In e1 es -> length (p_indices (p e1)) = N).
      { intros e1 H1. now rewrite (same_atoms _ _ _ _ _ _ _ _ _ _ _ (F e He) (F e1 H1)). }
      assert (LN : forall e1, In e1 es -> length (moves natoms k (pos cell e1) (p_indices (p e1)) (p_drift_indices (p e1)) f (f + l)) = N).
      { intros e1 H1. unfold moves. rewrite map_length. now apply LI. }
      rewrite (map_ext_in _ (fun e => w e * sqlen all_axes (sum3 (map (fun p => scale3 (fst p) (snd p)) (combine (charges q N) (moves natoms k (pos cell e) (p_indices (p e)) (p_drift_indices (p e)) f (f + l))))))%R).
      2:{ intros e1 H1. unfold charge_between. now rewrite (LI e1 H1). }
      rewrite (uncorrelated_square es w all_axes _ (charges q N) c N).
      + f_equal. f_equal. apply map_ext. intros e1. now rewrite square_moves.
      + unfold charges. destruct q as [y|y]; [apply repeat_length|]. now apply (Hq e y He).
      + exact LN.
      + exact (Hc e He).
      + intros b b' Hbc. exact (HU f l b b' Hf Hbc).
  Qed.
End Ideal.

(** ** Examples: two Li atoms moving along x beside a resting O atom *)
Section Shown.
  Context {G Seed RS : Type} (X : Ext R G Seed RS).
  Lemma report_dt u ns n_o dts axes Qf used shown b : boot_report X u ns n_o dts axes Qf used shown b -> Forall (fun d => 1 < length (Qf d))%nat used ->
    b_dt b = firstn (length used) dts.
  Proof.
    intros H Hd. rewrite (br_dt _ _ _ _ _ _ _ _ _ _ H). destruct (br_shown _ _ _ _ _ _ _ _ _ _ H) as (rest & E & F1 & F2).
    destruct rest as [|r rest]; [now rewrite E, app_nil_r|]. exfalso. inversion F2 as [|? ? K _]; subst. apply K.
    rewrite Forall_forall in Hd. apply Hd. apply in_or_app. right. now left.
  Qed.
  Lemma firstn_Forall {T} (P : T -> Prop) n l : Forall P l -> Forall P (firstn n l).
  Proof. rewrite !Forall_forall. intros H d Hd. apply H. rewrite <- (firstn_skipn n l). apply in_or_app. now left. Qed.
  (** All three analysers on two intervals. *)
  Lemma three_run (p : Parsed R) q (g : G) : length (p_delta_t p) = 2%nat -> length (p_disp_3d p) = 2%nat -> length (p_n_o p) = 2%nat ->
    Forall (fun d => 1 < length (entries d))%nat (p_disp_3d p) -> Forall (fun d => 1 < a_obs d)%nat (p_disp_3d p) -> Forall arr_wf (p_disp_3d p) ->
    Forall (fun d => length (a_rows d) = length (p_indices p)) (p_disp_3d p) -> (forall l, q = QArray l -> length l = length (p_indices p)) ->
    exists an jn cn, diffusion_analyzer X (of_parsed p) (demo_boot 1 "xyz") g = Ok (an, g) /\ jump_diffusion_analyzer X (of_parsed p) (demo_boot 1 "xyz") g = Ok (jn, g)
      /\ conductivity_analyzer X (of_parsed p) q (demo_boot 1 "xyz") g = Ok (cn, g)
      /\ b_dt (an_diff an) = p_delta_t p /\ b_dt (an_diff jn) = firstn 1 (p_delta_t p) /\ b_dt (an_diff cn) = firstn 1 (p_delta_t p).
  Proof.
    intros T1 T2 T3 T4 T5 T6 T7 T8. assert (NE : p_disp_3d p <> []) by (intros C; rewrite C in T2; discriminate).
    destruct (msd_total X (demo_boot 1 "xyz") (p_delta_t p) (p_disp_3d p) (p_n_o p) all_axes g eq_refl eq_refl names_xyz NE T4 ltac:(lia) ltac:(lia)) as (b & B).
    destruct (mstd_total X (demo_boot 1 "xyz") (p_delta_t p) (p_disp_3d p) (p_n_o p) all_axes g eq_refl eq_refl names_xyz NE T6 T5 ltac:(lia) ltac:(lia)) as (b2 & B2).
    destruct (mscd_total X (demo_boot 1 "xyz") (p_delta_t p) (p_disp_3d p) q (p_n_o p) all_axes (length (p_indices p)) g eq_refl eq_refl names_xyz NE T6 T7 T8 T5 ltac:(lia) ltac:(lia)) as (b3 & B3).
    exists (mkAn (of_parsed p) b), (mkAn (of_parsed p) b2), (mkAn (of_parsed p) b3).
    unfold diffusion_analyzer, jump_diffusion_analyzer, conductivity_analyzer. cbn [of_parsed an_delta_t an_disp_3d an_n_o an_diff]. rewrite B, B2, B3.
    do 3 (split; [reflexivity|]). split; [rewrite (dt_shown X (demo_boot 1 "xyz") _ _ _ _ _ _ eq_refl B T4), T2, <- T1; apply firstn_all|]. split.
    - destruct (mstd_run X (demo_boot 1 "xyz") _ _ _ _ _ _ eq_refl T6 B2) as (ax & shown & _ & _ & N3 & N4 & _ & N6).
      change (Z.to_nat _) with 1%nat in N3, N4. apply sub_sample_id in N3, N4. rewrite N3, N4, T2 in N6. change (Nat.div 2 2) with 1%nat in N6.
      rewrite (report_dt _ _ _ _ _ _ _ _ _ N6), firstn_length, T2; [reflexivity|]. apply firstn_Forall.
      apply Forall_forall. intros d Hd. unfold mstd_values. rewrite tab_length. rewrite Forall_forall in T5. now apply T5.
    - destruct (mscd_run X (demo_boot 1 "xyz") _ _ _ _ _ _ _ _ eq_refl T6 T7 T8 B3) as (ax & shown & _ & _ & N3 & N4 & _ & N6).
      change (Z.to_nat _) with 1%nat in N3, N4. apply sub_sample_id in N3, N4. rewrite N3, N4, T2 in N6. change (Nat.div 2 2) with 1%nat in N6.
      rewrite (report_dt _ _ _ _ _ _ _ _ _ N6), firstn_length, T2; [reflexivity|]. apply firstn_Forall.
      apply Forall_forall. intros d Hd. unfold mscd_values. rewrite tab_length. rewrite Forall_forall in T5. now apply T5.
  Qed.
End Shown.

Lemma C85_refuted_proof : forall G Seed RS (X : Ext R G Seed RS) circ (g : G), exists x a p an,
  faithful_read Ase circ unit_cell ["Li"; "O"]%string 1%R 4 2 1 x a p
  /\ jump_diffusion_analyzer X (of_parsed p) (demo_boot 1 "xyz") g = Ok (an, g)
  /\ nth_error (p_intervals p) 0 = Some 1 /\ nth_error (b_dt (an_diff an)) 0 = Some 1%R
  /\ nth_error (b_n (an_diff an)) 0 = Some (3 / 400)%R
  /\ over_time 4 1 (total_between all_axes 2 1 (fun f b => cart unit_cell (x f b)) (p_indices p) (p_drift_indices p)) = (1 / 100)%R.
Proof.
  intros G Seed RS X circ g. destruct (walk_read circ steady steady_gentle) as (p & F & E1 & E2 & E3 & E4 & E5 & E6 & E7 & E8).
  destruct (read_forms _ _ _ _ _ _ _ _ _ _ _ F) as (tis & RF). destruct (form_shape _ _ _ _ _ _ _ _ _ _ RF) as [W L].
  destruct (three_run X p (QScalar 1%R) g ltac:(now rewrite E4) E5 E6 E7 E8 W L ltac:(discriminate)) as (_ & jn & _ & _ & A & _ & _ & T & _). rewrite E4 in T.
  assert (TB : forall f h, total_between all_axes 2 1 (fun f b => cart unit_cell (walk steady f b)) [0] [1] f h = ((steady h - steady f) * (steady h - steady f))%R).
  { intros f h. rewrite <- walk_square. unfold total_between, square_between, moves, average. cbn [map length].
    set (r := relative_displacement _ _ _ _ _ _). assert (K : sum3 [r] = r) by (unfold sum3; cbn; destruct r; v3eq). rewrite K. cbn. field. }
  exists (walk steady), walk_params, p, jn. split; [exact F|]. split; [exact A|]. split; [now rewrite E1|]. split; [now rewrite T|]. split.
  - destruct (C85_mstd_proof X _ _ _ _ _ _ _ _ _ _ _ (demo_boot 1 "xyz") _ _ _ _ F eq_refl eq_refl names_xyz A 0%nat 1%R ltac:(now rewrite T)) as (m & D1 & _ & _ & D).
    rewrite E1 in D1. injection D1 as D1. assert (m = 1%nat) by (cbn in D1; lia). subst m. cbv zeta in D. rewrite D. f_equal.
    rewrite E2, E3, kept_one. unfold over_time, average. rewrite tab_length. unfold tab. cbn [Nat.sub seq map]. rewrite !TB. unfold steady. cbn [rsum fold_right Nat.add INR]. field.
  - rewrite E2, E3. unfold over_time, average. rewrite tab_length. unfold tab. cbn [Nat.sub seq map]. rewrite !TB. unfold steady. cbn [rsum fold_right Nat.add INR]. field.
Qed.

Definition pair_walk (s r : nat -> R) (f a : nat) : V3 R := match a with O => mkV (s f) 0%R 0%R | S O => mkV (r f) 0%R 0%R | _ => zero3 end.
Lemma pair_small s r n : gentle s -> gentle r -> small_steps n 3 1 (pair_walk s r).
Proof.
  intros H K f a _ Ha. rewrite !Nat.mul_1_r. unfold pair_walk, within_half. specialize (H f). specialize (K f). destruct a as [|[|a]]; cbn [vx vy vz minus3 zero3]; lra.
Qed.
Lemma pair_read circ s r : gentle s -> gentle r -> exists p,
  faithful_read Ase circ unit_cell ["Li"; "Li"; "O"]%string 1%R 4 3 1 (pair_walk s r) walk_params p
  /\ p_intervals p = [1; 2] /\ p_indices p = [0; 1] /\ p_drift_indices p = [2] /\ p_delta_t p = [1; 2]%R /\ length (p_disp_3d p) = 2%nat /\ length (p_n_o p) = 2%nat
  /\ Forall (fun d => 1 < length (entries d))%nat (p_disp_3d p) /\ Forall (fun d => 1 < a_obs d)%nat (p_disp_3d p).
Proof.
  intros HG HR.
  assert (K : exists p, ase_parser geomspace_R circ (frames_of ["Li"; "Li"; "O"]%string 1%R 4 3 (pair_walk s r) (fun _ => unit_cell)) walk_params = Ok p
    /\ p_intervals p = [1; 2] /\ p_indices p = [0; 1] /\ p_drift_indices p = [2] /\ p_delta_t p = [1; 2]%R /\ length (p_disp_3d p) = 2%nat /\ length (p_n_o p) = 2%nat
    /\ Forall (fun d => 1 < length (entries d))%nat (p_disp_3d p) /\ Forall (fun d => 1 < a_obs d)%nat (p_disp_3d p)).
  { rewrite (ase_run geomspace_R circ unit_cell _ _ 4 3 1 (pair_walk s r) _ ["Li"%string] [0; 1] [2])
      by (first [exact unit_cell_volume | now apply pair_small | lia | reflexivity]).
    unfold walk_params, upto. cbn [hop_params a_time_step pynum_val a_step_skip a_opts]. rewrite kept_one.
    rewrite (parser_init_ints geomspace_R 3 4 _ [0; 1] [2] 1 2 2 "multi-origin" 8 8) by (first [repeat constructor; cbn; lia | lia]).
    change (tab _ (lin _ 2 _)) with (map Z.of_nat [1;2]%nat).
    rewrite get_disps_multi' by (repeat constructor; cbn; lia).
    assert (E' : Rltb 8 (in_gigabytes (fold_right Z.add 0 (map (estimate (length [0; 1]) 4 8) [1;2]%nat))) = false).
    { apply Rltb_false. unfold in_gigabytes. cbn. lra. }
    rewrite E'. cbn [bind]. eexists. split; [reflexivity|]. do 3 (split; [reflexivity|]).
    split; [cbn; repeat f_equal; lra|]. split; [reflexivity|]. split; [reflexivity|]. split; repeat constructor. }
  destruct K as (p & H & E1 & E2 & E3 & E4). exists p. split; [|auto].
  split; try (first [exact unit_cell_volume | reflexivity | lia | now apply pair_small]).
  - left. discriminate.
  - rewrite kept_one. split; unfold min_time, max_time; cbn; try lra; try lia. now left.
  - rewrite E2. repeat constructor; cbn; lia.
  - rewrite E3. repeat constructor; cbn; lia.
  - exists no_image. cbn [parser_by handed_over]. rewrite (frames_of_ext _ _ _ _ _ _ _ (no_image_id (pair_walk s r))). exact H.
Qed.
(** Each atom moves steadily, to the right or to the left; the four possibilities are equally likely. *)
Definition directions : list (bool * bool) := [(true, true); (true, false); (false, true); (false, false)].
Definition steadily (b : bool) (f : nat) : R := if b then steady f else (- steady f)%R.
Lemma steadily_gentle b : gentle (steadily b).
Proof. intros f. pose proof (steady_gentle f). unfold steadily. destruct b; lra. Qed.
Definition paired {G Seed RS} (X : Ext R G Seed RS) circ (g : G) (e : bool * bool) (p : Parsed R) (an jn cn : Analyzer R) : Prop :=
  faithful_read Ase circ unit_cell ["Li"; "Li"; "O"]%string 1%R 4 3 1 (pair_walk (steadily (fst e)) (steadily (snd e))) walk_params p
  /\ p_indices p = [0; 1] /\ p_drift_indices p = [2] /\ diffusion_analyzer X (of_parsed p) (demo_boot 1 "xyz") g = Ok (an, g)
  /\ jump_diffusion_analyzer X (of_parsed p) (demo_boot 1 "xyz") g = Ok (jn, g) /\ conductivity_analyzer X (of_parsed p) (QArray [1; -1]%R) (demo_boot 1 "xyz") g = Ok (cn, g)
  /\ nth_error (b_dt (an_diff an)) 0 = Some 1%R /\ nth_error (b_dt (an_diff jn)) 0 = Some 1%R /\ nth_error (b_dt (an_diff cn)) 0 = Some 1%R.
Lemma paired_run {G Seed RS} (X : Ext R G Seed RS) circ (g : G) e : exists p an jn cn, paired X circ g e p an jn cn.
Proof.
  destruct (pair_read circ _ _ (steadily_gentle (fst e)) (steadily_gentle (snd e))) as (p & F & E1 & E2 & E3 & E4 & E5 & E6 & E7 & E8).
  destruct (read_forms _ _ _ _ _ _ _ _ _ _ _ F) as (tis & RF). destruct (form_shape _ _ _ _ _ _ _ _ _ _ RF) as [W L].
  destruct (three_run X p (QArray [1; -1]%R) g ltac:(now rewrite E4) E5 E6 E7 E8 W L ltac:(intros l [= <-]; now rewrite E2)) as (an & jn & cn & A1 & A2 & A3 & A4 & A5 & A6).
  exists p, an, jn, cn. rewrite E4 in *. split; [exact F|]. repeat (split; [assumption|]). rewrite A4, A5, A6. repeat split.
Qed.
Lemma C86_example_proof : forall G Seed RS (X : Ext R G Seed RS) circ (g : G), exists p an jn cn,
  (forall e, In e directions -> faithful_read Ase circ unit_cell ["Li"; "Li"; "O"]%string 1%R 4 3 1 (pair_walk (steadily (fst e)) (steadily (snd e))) walk_params (p e)
     /\ p_indices (p e) = [0; 1] /\ diffusion_analyzer X (of_parsed (p e)) (demo_boot 1 "xyz") g = Ok (an e, g)
     /\ jump_diffusion_analyzer X (of_parsed (p e)) (demo_boot 1 "xyz") g = Ok (jn e, g)
     /\ conductivity_analyzer X (of_parsed (p e)) (QArray [1; -1]%R) (demo_boot 1 "xyz") g = Ok (cn e, g)
     /\ nth_error (b_dt (an_diff (an e))) 0 = Some 1%R /\ nth_error (b_dt (an_diff (jn e))) 0 = Some 1%R /\ nth_error (b_dt (an_diff (cn e))) 0 = Some 1%R)
  /\ uncorrelated_atoms directions (fun _ => 1 / 4)%R all_axes unit_cell 3 1 4 (fun e => pair_walk (steadily (fst e)) (steadily (snd e))) p.
Proof.
  intros G Seed RS X circ g.
  destruct (paired_run X circ g (true, true)) as (p1 & an1 & jn1 & cn1 & P1). destruct (paired_run X circ g (true, false)) as (p2 & an2 & jn2 & cn2 & P2).
  destruct (paired_run X circ g (false, true)) as (p3 & an3 & jn3 & cn3 & P3). destruct (paired_run X circ g (false, false)) as (p4 & an4 & jn4 & cn4 & P4).
  pose (pick := fun (T : Type) (a b c d : T) (e : bool * bool) => match e with (true, true) => a | (true, false) => b | (false, true) => c | _ => d end).
  exists (pick _ p1 p2 p3 p4), (pick _ an1 an2 an3 an4), (pick _ jn1 jn2 jn3 jn4), (pick _ cn1 cn2 cn3 cn4). split.
  - intros e [<-|[<-|[<-|[<-|[]]]]]; [destruct P1 as (Q1 & Q2 & _ & Q3)|destruct P2 as (Q1 & Q2 & _ & Q3)|destruct P3 as (Q1 & Q2 & _ & Q3)|destruct P4 as (Q1 & Q2 & _ & Q3)]; exact (conj Q1 (conj Q2 Q3)).
  - intros f l a b Hf Hab. cbv zeta. unfold directions, pick. cbn [map fst snd].
    destruct P1 as (_ & I1 & D1 & _), P2 as (_ & I2 & D2 & _), P3 as (_ & I3 & D3 & _), P4 as (_ & I4 & D4 & _). rewrite I1, I2, I3, I4, D1, D2, D3, D4.
    assert (K : forall s r c, move_of 3 1 (fun f b => cart unit_cell (pair_walk s r f b)) [0; 1] [2] c f (f + l)
      = match c with O => mkV (s (f + l)%nat - s f)%R 0%R 0%R | S O => mkV (r (f + l)%nat - r f)%R 0%R 0%R | _ => zero3 end).
    { intros s r c. unfold move_of, moves. cbn [map]. change (site 3 0) with 0%nat. change (site 3 1) with 1%nat. rewrite !Nat.mul_1_r.
      unfold relative_displacement, average3. cbn [map]. change (site 3 2) with 2%nat. unfold average.
      destruct c as [|[|c]]; cbn [nth pair_walk zero3 cart unit_cell minus3 vx vy vz length map rsum fold_right INR]; [..|destruct c; reflexivity]; unfold minus3, cart; cbn; f_equal; field. }
    rewrite !K. unfold inner, all_axes. destruct a as [|[|a]], b as [|[|b]]; try congruence; cbn; unfold steadily; try ring.
Qed.

Lemma walk_total s f h : total_between all_axes 2 1 (fun f b => cart unit_cell (walk s f b)) [0] [1] f h = ((s h - s f) * (s h - s f))%R.
Proof.
  rewrite <- walk_square. unfold total_between, square_between, moves, average. cbn [map length].
  set (r := relative_displacement _ _ _ _ _ _). assert (K : sum3 [r] = r) by (unfold sum3; cbn; destruct r; v3eq). rewrite K. cbn. field.
Qed.
Definition jumped {G Seed RS} (X : Ext R G Seed RS) circ (g : G) (s : nat -> R) (p : Parsed R) (an : Analyzer R) : Prop :=
  faithful_read Ase circ unit_cell ["Li"; "O"]%string 1%R 4 2 1 (walk s) walk_params p
  /\ p_indices p = [0] /\ p_drift_indices p = [1] /\ jump_diffusion_analyzer X (of_parsed p) (demo_boot 1 "xyz") g = Ok (an, g) /\ nth_error (b_dt (an_diff an)) 0 = Some 1%R.
Lemma jumped_run {G Seed RS} (X : Ext R G Seed RS) circ (g : G) s : gentle s -> exists p an, jumped X circ g s p an.
Proof.
  intros HG. destruct (walk_read circ s HG) as (p & F & E1 & E2 & E3 & E4 & E5 & E6 & E7 & E8).
  destruct (read_forms _ _ _ _ _ _ _ _ _ _ _ F) as (tis & RF). destruct (form_shape _ _ _ _ _ _ _ _ _ _ RF) as [W L].
  destruct (three_run X p (QScalar 1%R) g ltac:(now rewrite E4) E5 E6 E7 E8 W L ltac:(discriminate)) as (_ & jn & _ & _ & A & _ & _ & T & _). rewrite E4 in T.
  exists p, jn. split; [exact F|]. repeat (split; [assumption|]). now rewrite T.
Qed.
Lemma C85_example_proof : forall G Seed RS (X : Ext R G Seed RS) circ (g : G), exists p an,
  (forall e, In e tosses -> faithful_read Ase circ unit_cell ["Li"; "O"]%string 1%R 4 2 1 (walk (random_walk e)) walk_params (p e)
     /\ jump_diffusion_analyzer X (of_parsed (p e)) (demo_boot 1 "xyz") g = Ok (an e, g) /\ nth_error (b_dt (an_diff (an e))) 0 = Some 1%R)
  /\ (forall f l, (f + l < 4)%nat -> rsum (map (fun e => 1 / 8
        * total_between all_axes 2 1 (fun f b => cart unit_cell (walk (random_walk e) f b)) (p_indices (p e)) (p_drift_indices (p e)) f (f + l))%R tosses)
      = (1 / 100 * INR l)%R).
Proof.
  intros G Seed RS X circ g.
  assert (K : exists p an, forall e, In e tosses -> jumped X circ g (random_walk e) (p e) (an e)).
  { assert (L : forall es, exists p an, forall e, In e es -> jumped X circ g (random_walk e) (p e) (an e)).
    { induction es as [|e0 es (p & an & IH)].
      - destruct (jumped_run X circ g steady steady_gentle) as (p & an & _). exists (fun _ => p), (fun _ => an). intros e [].
      - destruct (jumped_run X circ g _ (random_gentle e0)) as (p0 & an0 & W).
        assert (D : forall e : bool * bool * bool, {e = e0} + {e <> e0}) by (intros; repeat decide equality).
        exists (fun e => if D e then p0 else p e), (fun e => if D e then an0 else an e). intros e [<-|He].
        + destruct (D e0); [exact W|congruence].
        + destruct (D e) as [->|_]; [exact W|now apply IH]. }
    apply L. }
  destruct K as (p & an & K). exists p, an. split.
  - intros e He. destruct (K e He) as (F & _ & _ & H & Ht). auto.
  - intros f l Hl. rewrite (map_ext_in _ (fun e => 1 / 8 * ((random_walk e (f + l)%nat - random_walk e f) * (random_walk e (f + l)%nat - random_walk e f)))%R).
    2:{ intros e He. destruct (K e He) as (_ & E2 & E3 & _). rewrite E2, E3, walk_total. reflexivity. }
    unfold tosses. destruct f as [|[|[|[|f]]]], l as [|[|[|[|l]]]]; try (exfalso; lia); cbn [Nat.add map random_walk toss rsum fold_right INR]; lra.
Qed.
