(** * ProofsShape: shapes of the parser's output, for any input *)
From Verif Require Import Base Spec ModelParser SpecParser SpecAnalyzer Lemmas
  ProofsDisp ProofsIntervals ProofsWindows ProofsParser ProofsTraj SpecRun.
From Coq Require Import Reals Lra Lia Arith.
Open Scope Z_scope.

Lemma broadcast2_same_length {A B C A' B' C'} (f : A -> B -> C) (g : A' -> B' -> C') a b a' b' r r' :
  broadcast2 f a b = Ok r -> broadcast2 g a' b' = Ok r' -> length a = length a' -> length b = length b' ->
  length r = length r'.
Proof.
  unfold broadcast2. intros H H' Ea Eb. rewrite <- Ea, <- Eb in H'.
  destruct (Nat.eqb (length a) (length b)) eqn:E.
  - injection H as <-. injection H' as <-. rewrite !zip_with_length. lia.
  - destruct a as [|x [|x2 a]], a' as [|x' [|x2' a']]; try discriminate Ea.
    + destruct b as [|y [|y2 b]], b' as [|y' [|y2' b']]; try discriminate. now injection H as <-; injection H' as <-.
    + injection H as <-. injection H' as <-. now rewrite !map_length.
    + destruct b as [|y [|y2 b]], b' as [|y' [|y2' b']]; try discriminate.
      injection H as <-. injection H' as <-. cbn in *. rewrite !map_length. lia.
Qed.
Lemma py_from_length {T U} s (l : list T) (l' : list U) : length l = length l' -> length (py_from s l) = length (py_from s l').
Proof. intros H. unfold py_from. rewrite !skipn_length. now rewrite H. Qed.
Lemma py_to_length {T U} s (l : list T) (l' : list U) : length l = length l' -> length (py_to s l) = length (py_to s l').
Proof. intros H. unfold py_to. rewrite !firstn_length. now rewrite H. Qed.

Lemma window_wf samp i ti (sel : list (list (V3 R))) T d : Forall (fun r => length r = T) sel ->
  window samp i ti sel T = Ok d -> length (a_rows d) = length sel /\ arr_wf d.
Proof.
  unfold window. intros HT H. destruct (_ =? _)%string.
  - injection H as <-. unfold single_origin, arr_wf. cbn [a_rows a_obs]. split; [apply map_length|].
    apply Forall_forall. intros r Hr. apply in_map_iff in Hr as (s & <- & Hs). rewrite Forall_forall in HT.
    rewrite !firstn_length, !skipn_length, seq_length, (HT s Hs). reflexivity.
  - destruct (_ =? _)%string; [|discriminate]. unfold multi_origin in H.
    inv_bind H shape E1. inv_bind H u E2. inv_bind H rows E3. injection H as <-. unfold arr_wf. cbn [a_rows a_obs].
    split; [now apply mapM_length in E3|]. apply mapM_ok in E3.
    clear E2. revert HT. induction E3 as [|s r sel rows Hr _ IH]; intros HT; [constructor|].
    inversion HT as [|? ? Hs HT']; subst. constructor; [|now apply IH].
    unfold multi_origin_row in Hr. inv_bind Hr x X1. inv_bind Hr y X2. injection Hr as <-. cbn [length]. f_equal.
    eapply broadcast2_same_length; [exact X2|exact E1| |].
    + apply py_from_length. now rewrite seq_length.
    + apply py_to_length. now rewrite seq_length.
Qed.
Lemma window_obs_same samp i ti (sel sel' : list (list (V3 R))) T d d' :
  window samp i ti sel T = Ok d -> window samp i ti sel' T = Ok d' -> a_obs d = a_obs d'.
Proof.
  unfold window. intros H H'. destruct (samp =? "single-origin")%string.
  - injection H as <-. injection H' as <-. reflexivity.
  - destruct (samp =? "multi-origin")%string; [|discriminate]. unfold multi_origin in *.
    inv_bind H shape E1. inv_bind H u E2. inv_bind H rows E3. injection H as <-.
    cbn [bind] in H'. inv_bind H' rows' E3'. injection H' as <-. reflexivity.
Qed.

Definition same_shape2 (d d' : Arr R) : Prop :=
  length (a_rows d) = length (a_rows d') /\ a_obs d = a_obs d' /\ arr_wf d /\ arr_wf d'.

Lemma disps_loop_shapes samp T lst tis : forall i (sel sel' : list (list (V3 R))) r r',
  Forall (fun r => length r = T) sel -> Forall (fun r => length r = T) sel' -> length sel = length sel' ->
  disps_loop samp sel T lst i tis = Ok r -> disps_loop samp sel' T lst i tis = Ok r' ->
  Forall2 same_shape2 (fst r) (fst r') /\ snd r = snd r'.
Proof.
  induction tis as [|ti tis IH]; intros i sel sel' r r' HT HT' Hl H H'; cbn [disps_loop] in *.
  - injection H as <-. injection H' as <-. split; [constructor|reflexivity].
  - inv_bind H d E1. inv_bind H c E2. inv_bind H t E3.
    inv_bind H' d' E1'. inv_bind H' c' E2'. inv_bind H' t' E3'.
    destruct (window_wf _ _ _ _ _ _ HT E1) as [L W]. destruct (window_wf _ _ _ _ _ _ HT' E1') as [L' W'].
    assert (O := window_obs_same _ _ _ _ _ _ _ _ E1 E1').
    assert (c' = c) by (rewrite <- O in E2'; congruence). subst c'.
    rewrite L', <- Hl, <- L in H'. destruct (IH _ _ _ _ _ HT HT' Hl E3 E3') as [I1 I2].
    destruct (_ <=? 1).
    + injection H as <-. injection H' as <-. auto.
    + injection H as <-. injection H' as <-. cbn [fst snd]. split; [|now rewrite I2].
      constructor; [|exact I1]. repeat split; try assumption. congruence.
Qed.
Lemma gather_rows (rows : list (list (V3 R))) T idx sel : Forall (fun r => length r = T) rows ->
  gather rows idx = Ok sel -> Forall (fun r => length r = T) sel /\ length sel = length idx.
Proof.
  intros H E. split; [|now apply gather_length in E]. apply gather_In in E. eapply Forall_impl; [|exact E].
  rewrite Forall_forall in H. auto.
Qed.

Lemma correct_drift_wf D (disp dc : Arr R) : arr_wf disp -> correct_drift D disp = Ok dc ->
  arr_wf dc /\ a_obs dc = a_obs disp.
Proof.
  unfold correct_drift. intros W H. destruct D as [|z D]; [injection H as <-; auto|].
  inv_bind H fw E. injection H as <-. unfold arr_wf in *. cbn [a_obs a_rows]. split; [|reflexivity].
  apply Forall_forall. intros r Hr. apply in_map_iff in Hr as (s & <- & Hs). rewrite Forall_forall in W.
  rewrite zip_with_length, map_length, seq_length, (W s Hs). lia.
Qed.

Lemma parser_init_shapes geo (disp disp' : Arr R) I I' D D' (ts : R) ss o p p' :
  arr_wf disp -> arr_wf disp' -> a_obs disp = a_obs disp' -> length I = length I' ->
  parser_init geo disp I D ts ss o = Ok p -> parser_init geo disp' I' D' ts ss o = Ok p' ->
  p_intervals p = p_intervals p' /\ p_delta_t p = p_delta_t p' /\ p_n_o p = p_n_o p'
  /\ Forall2 same_shape2 (p_disp_3d p) (p_disp_3d p').
Proof.
  intros W W' O L H H'. unfold parser_init in *.
  inv_bind H dc E1. inv_bind H' dc' E1'.
  destruct (correct_drift_wf _ _ _ W E1) as [V Vo]. destruct (correct_drift_wf _ _ _ W' E1') as [V' Vo'].
  assert (Odc : a_obs dc' = a_obs dc) by congruence. rewrite Odc in H'.
  inv_bind H q E2. inv_bind H z E3. inv_bind H' q' E2'. assert (q' = q) by congruence. subst q'.
  rewrite E3 in H'. cbn [bind] in H'. destruct (_ <=? z); [discriminate|].
  inv_bind H tis E4. cbn [bind] in H'. inv_bind H r E5. inv_bind H' r' E5'.
  injection H as <-. injection H' as <-. cbn [p_intervals p_delta_t p_n_o p_disp_3d].
  split; [reflexivity|]. unfold get_disps in *. rewrite Odc in E5'. destruct tis as [|t0 tis].
  - destruct (_ <? _)%num; [discriminate|]. injection E5 as <-. injection E5' as <-. cbn. auto.
  - inv_bind E5 sel S1. inv_bind E5' sel' S1'. rewrite L in E5. destruct (_ <? _)%num; [discriminate|].
    inv_bind E5 l L1. inv_bind E5' l' L1'. injection E5 as <-. injection E5' as <-. cbn [fst snd].
    destruct (gather_rows _ _ _ _ V S1) as [R1 R2].
    assert (V2 : Forall (fun r => length r = a_obs dc) (a_rows dc')) by (rewrite <- Odc; exact V').
    destruct (gather_rows _ _ _ _ V2 S1') as [R1' R2'].
    destruct (disps_loop_shapes _ _ _ _ _ _ _ _ _ R1 R1' ltac:(congruence) L1 L1') as [F1 F2].
    auto.
Qed.

(** Displacements are rectangular. *)
Lemma cumsum_length (l : list (V3 R)) : length (cumsum l) = length l.
Proof.
  assert (G : forall l (a : V3 R), length (cumsum_from a l) = length l).
  { clear. induction l as [|x l IH]; intros a; cbn; [reflexivity|]. now rewrite IH. }
  destruct l; cbn; [reflexivity|]. now rewrite G.
Qed.
Lemma get_disp_wf (coords : list (list (V3 R))) latt d : get_disp coords latt = Ok d ->
  arr_wf d /\ a_obs d = (length coords - 1)%nat /\ length coords = length latt
  /\ exists f0 t, coords = f0 :: t /\ length (a_rows d) = length f0.
Proof.
  unfold get_disp. destruct coords as [|f0 t]; [discriminate|]. intros H.
  inv_bind H u1 G1. inv_bind H li E. inv_bind H u2 G2. injection H as <-. unfold arr_wf. cbn [a_rows a_obs].
  unfold guard in G2. destruct (Nat.eqb _ _) eqn:En; [|discriminate]. apply Nat.eqb_eq in En.
  apply mapM_length in E. split; [|split; [reflexivity|]].
  - apply Forall_forall. intros r Hr. apply in_map_iff in Hr as (i & <- & _). unfold get_disp_row, np_diff. cbv zeta.
    rewrite cumsum_length, !zip_with_length, map_length, !combine_length, !zip_with_length.
    assert (TL : forall T (l : list T), length (tl l) = (length l - 1)%nat) by (intros ? [|? ?]; cbn; lia).
    rewrite !TL, ?zip_with_length. cbn [map length] in *. rewrite ?zip_with_length, ?map_length. rewrite E, <- En. cbn [length]. rewrite ?map_length. lia.
  - split; [exact En|]. exists f0, t. split; [reflexivity|]. now rewrite map_length, seq_length.
Qed.

(** ** Motionless input gives motionless output *)
Definition still (r : list (V3 R)) : Prop := Forall (fun v => v = zero3) r.
Lemma still_skipn k r : still r -> still (skipn k r).
Proof. unfold still. intros H. rewrite <- (firstn_skipn k r) in H. apply Forall_app in H. tauto. Qed.
Lemma still_firstn k r : still r -> still (firstn k r).
Proof. unfold still. intros H. rewrite <- (firstn_skipn k r) in H. apply Forall_app in H. tauto. Qed.
Lemma vsub_zero : vsub zero3 zero3 = zero3.
Proof. v3eq. Qed.
Lemma broadcast2_still a b r : still a -> still b -> broadcast2 vsub a b = Ok r -> still r.
Proof.
  unfold still. intros Ha Hb H. rewrite Forall_forall in Ha, Hb.
  assert (G : forall v, In v r -> exists x y, In x a /\ In y b /\ v = vsub x y).
  { unfold broadcast2 in H. destruct (Nat.eqb _ _).
    - injection H as <-. intros v Hv. apply in_map_iff in Hv as ((x & y) & <- & Hv). exists x, y.
      cbn. split; [eapply in_combine_l; eauto|]. split; [eapply in_combine_r; eauto|reflexivity].
    - destruct a as [|x [|x2 a]].
      + destruct b as [|y [|? ?]]; try discriminate. injection H as <-. intros ? [].
      + injection H as <-. intros v Hv. apply (in_map_iff (vsub x)) in Hv as (y & <- & Hy). exists x, y. cbn. auto.
      + destruct b as [|y [|? ?]]; try discriminate. injection H as <-. intros v Hv.
        apply (in_map_iff (fun u => vsub u y) (x :: x2 :: a)) in Hv as (z & <- & Hz). exists z, y. split; [exact Hz|]. split; [now left|reflexivity]. }
  apply Forall_forall. intros v Hv. destruct (G v Hv) as (x & y & Hx & Hy & ->).
  rewrite (Ha x Hx), (Hb y Hy). apply vsub_zero.
Qed.
Lemma window_still samp i ti (sel : list (list (V3 R))) T d : Forall still sel ->
  window samp i ti sel T = Ok d -> Forall still (a_rows d).
Proof.
  unfold window. intros HS H. destruct (_ =? _)%string.
  - injection H as <-. cbn [a_rows single_origin]. apply Forall_forall. intros r Hr.
    apply in_map_iff in Hr as (s & <- & Hs). rewrite Forall_forall in HS.
    apply still_firstn, still_skipn. now apply HS.
  - destruct (_ =? _)%string; [|discriminate]. unfold multi_origin in H.
    inv_bind H shape E1. inv_bind H u E2. inv_bind H rows E3. injection H as <-. cbn [a_rows].
    apply mapM_ok in E3. clear E2. induction E3 as [|s r sel rows Hr _ IH]; [constructor|].
    inversion HS as [|? ? Hs HS']; subst. constructor; [|now apply IH].
    unfold multi_origin_row in Hr. inv_bind Hr x X1. inv_bind Hr y X2. injection Hr as <-.
    apply py_index_ok_inv in X1. constructor; [unfold still in Hs; rewrite Forall_forall in Hs; now apply Hs|].
    eapply broadcast2_still; [| |exact X2]; [apply still_skipn|apply still_firstn]; exact Hs.
Qed.
Lemma disps_loop_still samp T lst tis : forall i (sel : list (list (V3 R))) r,
  Forall still sel -> disps_loop samp sel T lst i tis = Ok r -> Forall (fun d => Forall still (a_rows d)) (fst r).
Proof.
  induction tis as [|ti tis IH]; intros i sel r HS H; cbn [disps_loop] in H.
  - injection H as <-. constructor.
  - inv_bind H d E1. inv_bind H c E2. inv_bind H t E3. specialize (IH _ _ _ HS E3).
    destruct (_ <=? 1); injection H as <-; [exact IH|]. constructor; [|exact IH]. eapply window_still; eauto.
Qed.

(** If all sites have the same displacement and there is a framework, nothing moves. *)
Lemma parser_init_still geo N T (x : nat -> V3 R) I D (ts : R) ss o p : D <> [] ->
  parser_init geo (table N T (fun _ => x)) I D ts ss o = Ok p -> motionless p.
Proof.
  intros HD H. unfold parser_init in H. inv_bind H dc E1. inv_bind H q E2. inv_bind H z E3.
  destruct (_ <=? z); [discriminate|]. inv_bind H tis E4. inv_bind H r E5. injection H as <-.
  assert (HS : Forall still (a_rows dc)).
  { unfold correct_drift in E1. destruct D as [|z0 D]; [congruence|]. inv_bind E1 fw Ef. injection E1 as <-.
    cbn [a_obs table a_rows] in *.
    assert (Lf := gather_length _ _ _ Ef). apply gather_In in Ef. cbn [a_rows table] in *.
    assert (Hf : Forall (fun r => r = tab T x) fw).
    { eapply Forall_impl; [|exact Ef]. cbv beta. intros rw Hr. unfold tab in Hr at 1. apply in_map_iff in Hr as (? & <- & _).
      reflexivity. }
    assert (Ea : map (fun t => vmean (map (fun r => nth t r v0) fw)) (seq 0 T) = tab T x).
    { apply map_seq_ext. intros t Ht.
      assert (Em : map (fun r => nth t r v0) fw = map (fun _ => x t) fw).
      { apply map_ext_in. intros rw Hr. rewrite Forall_forall in Hf. rewrite (Hf rw Hr). now apply tab_nth. }
      rewrite Em, vmean_average3. apply average3_const. intros ->. cbn in Lf. lia. }
    rewrite Ea. apply Forall_forall. intros rw Hr. apply in_map_iff in Hr as (s & <- & Hs).
    unfold tab in Hs at 1. apply in_map_iff in Hs as (? & <- & _). rewrite zip_with_tab.
    apply Forall_forall. intros v Hv. unfold tab in Hv. apply in_map_iff in Hv as (t & <- & _). v3eq. }
  intros arr row v Ha Hr Hv. cbn [p_disp_3d] in Ha. unfold get_disps in E5. destruct tis as [|t0 tis].
  - destruct (_ <? _)%num; [discriminate|]. injection E5 as <-. destruct Ha.
  - inv_bind E5 sel S1. destruct (_ <? _)%num; [discriminate|]. inv_bind E5 l L1. injection E5 as <-. cbn [fst snd] in Ha.
    assert (HSs : Forall still sel).
    { apply gather_In in S1. eapply Forall_impl; [|exact S1]. rewrite Forall_forall in HS. auto. }
    apply (disps_loop_still _ _ _ _ _ _ _ HSs) in L1. rewrite Forall_forall in L1. specialize (L1 arr Ha).
    rewrite Forall_forall in L1. specialize (L1 row Hr). unfold still in L1. rewrite Forall_forall in L1. now apply L1.
Qed.
