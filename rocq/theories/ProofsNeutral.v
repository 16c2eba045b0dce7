(** * ProofsNeutral: charge displacements of neutral sets of ions, and of ions of several kinds (C102) *)
From Verif Require Import Base Spec SpecParser SpecStats SpecFit SpecAnalyzer ModelParser ModelDiffusion ModelHdf ModelAnalyzer
  Lemmas ProofsDisp ProofsIntervals ProofsWindows ProofsParser ProofsTraj ProofsBoot ProofsStats ProofsStats2 ProofsFit ProofsFit2 ProofsShape ProofsAnalyzer
  SpecRun SpecSym ProofsSym SpecGrid ProofsGrid SpecPool ProofsCollective ProofsPool SpecTrue ProofsTrue SpecColl ProofsColl SpecNeutral.
From Coq Require Import Reals Lra Lia.
Open Scope Z_scope.

Definition weighted (q : list R) (l : list (V3 R)) : V3 R := sum3 (map (fun p => scale3 (fst p) (snd p)) (combine q l)).

(** ** Reference frames *)
Definition mean_move (N : nat) (pos : nat -> nat -> V3 R) (fw : list Z) (f g : nat) : V3 R :=
  match fw with [] => zero3 | _ => average3 (map (fun i => minus3 (pos g (site N i)) (pos f (site N i))) fw) end.
Lemma relative_mean N pos fw a f g : relative_displacement N pos fw a f g = minus3 (minus3 (pos g a) (pos f a)) (mean_move N pos fw f g).
Proof. unfold relative_displacement, mean_move. destruct fw; [v3eq|reflexivity]. Qed.
Lemma relative_watched N s pos pos' fw fw' f g : watched_from N s pos pos' -> exists w, forall a, (a < N)%nat ->
  relative_displacement N pos' fw' a f g = plus3 (relative_displacement N pos fw a f g) w.
Proof.
  intros H. exists (plus3 (minus3 (s g) (s f)) (minus3 (mean_move N pos fw f g) (mean_move N pos' fw' f g))). intros a Ha.
  rewrite !relative_mean, !(H _ a Ha). v3eq.
Qed.
Lemma weighted_shift w : forall q (l l' : list (V3 R)), length q = length l -> Forall2 (fun v v' => v' = plus3 v w) l l' ->
  weighted q l' = plus3 (weighted q l) (scale3 (rsum q) w).
Proof.
  induction q as [|c q IH]; intros l l' L H.
  - destruct l; [|discriminate]. inversion H; subst. unfold weighted. cbn. v3eq.
  - destruct l as [|v l]; [discriminate|]. inversion H as [|? v' ? l2 E H2]; subst. unfold weighted in *. cbn [combine map fst snd]. rewrite !sum3_cons.
    rewrite (IH l l2) by (try exact H2; now injection L). rewrite rsum_cons. v3eq.
Qed.
Lemma moves_watched N k s pos pos' idx fw fw' f g : watched_from N s pos pos' -> Forall (valid_site N) idx -> exists w,
  Forall2 (fun v v' => v' = plus3 v w) (moves N k pos idx fw f g) (moves N k pos' idx fw' f g).
Proof.
  intros H HI. destruct (relative_watched N s pos pos' fw fw' (f * k) (g * k) H) as (w & W). exists w. unfold moves.
  induction HI as [|i idx Hi HI IH]; [constructor|]. cbn [map]. constructor; [|exact IH]. apply W. now apply ProofsDisp.site_lt.
Qed.
Lemma charge_watched q N k s pos pos' idx fw fw' f g : watched_from N s pos pos' -> Forall (valid_site N) idx -> length q = length idx -> rsum q = 0%R ->
  charge_between q N k pos' idx fw' f g = charge_between q N k pos idx fw f g.
Proof.
  intros H HI L Q. destruct (moves_watched N k s pos pos' idx fw fw' f g H HI) as (w & W). unfold charge_between. f_equal.
  change (weighted q (moves N k pos' idx fw' f g) = weighted q (moves N k pos idx fw f g)).
  rewrite (weighted_shift w q (moves N k pos idx fw f g) (moves N k pos' idx fw' f g)); [rewrite Q; v3eq|unfold moves; now rewrite map_length|exact W].
Qed.
Lemma windows_watched q N k T s pos pos' idx fw fw' m : watched_from N s pos pos' -> Forall (valid_site N) idx -> length q = length idx -> rsum q = 0%R -> (0 < m)%nat ->
  mscd_values q (multi_window N T (corrected N (fun a t => minus3 (pos' (t * k)%nat a) (pos' 0%nat a)) fw') idx m)
  = mscd_values q (multi_window N T (corrected N (fun a t => minus3 (pos (t * k)%nat a) (pos 0%nat a)) fw) idx m).
Proof.
  intros H HI L Q Hm. unfold mscd_values. cbn [multi_window a_obs].
  fold (multi_window N T (corrected N (fun a t => minus3 (pos' (t * k)%nat a) (pos' 0%nat a)) fw') idx m).
  fold (multi_window N T (corrected N (fun a t => minus3 (pos (t * k)%nat a) (pos 0%nat a)) fw) idx m).
  apply tab_ext'. intros o Ho.
  etransitivity; [exact (window_moves N k T pos' idx fw' (fun l => sqlen all_axes (weighted q l)) m o Hm Ho)|].
  etransitivity; [|symmetry; exact (window_moves N k T pos idx fw (fun l => sqlen all_axes (weighted q l)) m o Hm Ho)].
  exact (charge_watched q N k s pos pos' idx fw fw' _ _ H HI L Q).
Qed.
Section Neutral.
  Context {G Seed RS : Type} (X : Ext R G Seed RS).
  Lemma conductivity_read i circ cell types vol n natoms k x a p q u g an g' : faithful_read i circ cell types vol n natoms k x a p ->
    0 < u_sub_sample_dt u -> u_block u = false -> (forall l, q = QArray l -> length l = length (p_indices p)) ->
    conductivity_analyzer X (of_parsed p) q u g = Ok (an, g') -> forall j t, nth_error (b_dt (an_diff an)) j = Some t ->
    exists m no, nth_error (p_intervals p) (j * Z.to_nat (u_sub_sample_dt u)) = Some (Z.of_nat m) /\ (0 < m <= kept n k)%nat /\ nth_error (p_n_o p) j = Some no
      /\ let d := multi_window natoms (kept n k) (corrected natoms (drifting cell k x) (p_drift_indices p)) (p_indices p) m in
         let vals := mscd_values (charges q (length (p_indices p))) d in
         nth_error (b_n (an_diff an)) j = Some (average vals) /\ nth_error (b_v (an_diff an)) j = Some (sample_variance vals / (no / INR (length (p_indices p))))%R.
  Proof.
    intros F Hk Hb Hq H j t Ht. destruct (read_forms _ _ _ _ _ _ _ _ _ _ _ F) as (tis & RF). destruct (form_shape _ _ _ _ _ _ _ _ _ _ RF) as [W L].
    destruct (conductivity_entry X (of_parsed p) _ _ _ _ _ _ Hk Hb W L Hq H) as (axes' & N' & E).
    destruct (collective_entry X _ _ _ _ _ _ _ _ _ _ _ _ _ _ _ RF E j t Ht) as (m & d & E1 & E2 & E3 & E4 & E5).
    destruct (E j t Ht) as (d' & no & D1 & _ & D3 & _ & _ & D6 & D7). cbn [of_parsed an_disp_3d an_n_o] in *.
    exists m, no. rewrite (rf_intervals _ _ _ _ _ _ _ _ _ _ RF), nth_error_map, E1. cbn [option_map]. split; [reflexivity|]. split; [exact E2|]. split; [exact D6|].
    cbv zeta. rewrite <- E4. split; [exact E5|].
    assert (ED : d' = d).
    { destruct RF as [F1 F2 F3 F4 F5 F6]. cbv zeta in F6. destruct F6 as (_ & F7 & _). rewrite F7, nth_error_map in D1.
      destruct (nth_error (firstn _ tis) _) as [m'|] eqn:Em'; [|discriminate]. injection D1 as <-. apply firstn_nth_error in Em'. rewrite E1 in Em'. injection Em' as <-. now rewrite E4. }
    subst d'. rewrite D7. unfold per_atom. rewrite Forall_forall in L. rewrite (L d) by (eapply nth_error_In; exact D1). reflexivity.
  Qed.
  Lemma C102_neutral_proof i i' circ circ' cell cell' types types' vol vol' n natoms k x x' a a' p p' q u u' g an g1 h an' h1 s :
    faithful_read i circ cell types vol n natoms k x a p -> faithful_read i' circ' cell' types' vol' n natoms k x' a' p' ->
    watched_from natoms s (fun f b => cart cell (x f b)) (fun f b => cart cell' (x' f b)) -> p_indices p' = p_indices p ->
    (forall l, q = QArray l -> length l = length (p_indices p)) -> rsum (charges q (length (p_indices p))) = 0%R ->
    0 < u_sub_sample_dt u -> u_block u = false -> 0 < u_sub_sample_dt u' -> u_block u' = false ->
    conductivity_analyzer X (of_parsed p) q u g = Ok (an, g1) -> conductivity_analyzer X (of_parsed p') q u' h = Ok (an', h1) ->
    forall j j' t t', nth_error (b_dt (an_diff an)) j = Some t -> nth_error (b_dt (an_diff an')) j' = Some t' ->
    nth_error (p_intervals p) (j * Z.to_nat (u_sub_sample_dt u)) = nth_error (p_intervals p') (j' * Z.to_nat (u_sub_sample_dt u')) ->
    (exists v, nth_error (b_n (an_diff an)) j = Some v /\ nth_error (b_n (an_diff an')) j' = Some v)
    /\ (nth_error (p_n_o p) j = nth_error (p_n_o p') j' -> exists v, nth_error (b_v (an_diff an)) j = Some v /\ nth_error (b_v (an_diff an')) j' = Some v).
  Proof.
    intros F F' HW HI Hq HQ Hk Hb Hk' Hb' H H' j j' t t' Ht Ht' EI.
    destruct (conductivity_read _ _ _ _ _ _ _ _ _ _ _ _ _ _ _ _ F Hk Hb Hq H j t Ht) as (m & no & A1 & A2 & A3 & A4 & A5).
    assert (Hq' : forall l, q = QArray l -> length l = length (p_indices p')) by (intros l El; rewrite HI; now apply Hq).
    destruct (conductivity_read _ _ _ _ _ _ _ _ _ _ _ _ _ _ _ _ F' Hk' Hb' Hq' H' j' t' Ht') as (m' & no' & B1 & B2 & B3 & B4 & B5).
    rewrite A1, B1 in EI. injection EI as EI. apply Nat2Z.inj in EI. subst m'. rewrite HI in B4, B5.
    assert (LQ : length (charges q (length (p_indices p))) = length (p_indices p)) by (destruct q as [c|l]; cbn; [apply repeat_length|now apply Hq]).
    assert (W : mscd_values (charges q (length (p_indices p))) (multi_window natoms (kept n k) (corrected natoms (drifting cell' k x') (p_drift_indices p')) (p_indices p) m)
      = mscd_values (charges q (length (p_indices p))) (multi_window natoms (kept n k) (corrected natoms (drifting cell k x) (p_drift_indices p)) (p_indices p) m)).
    { exact (windows_watched _ natoms k (kept n k) s _ _ (p_indices p) (p_drift_indices p) (p_drift_indices p') m HW (fr_indices _ _ _ _ _ _ _ _ _ _ _ F) LQ HQ (proj1 A2)). }
    rewrite W in B4, B5. split; [eauto|]. intros EN. rewrite A3, B3 in EN. injection EN as <-. eauto.
  Qed.
End Neutral.

(** ** Several kinds of ions *)
Lemma weighted_mixed s t : forall qa qb (l : list (V3 R)), length qa = length l -> length qb = length l ->
  weighted (mixed_charges s t qa qb) l = plus3 (scale3 s (weighted qa l)) (scale3 t (weighted qb l)).
Proof.
  unfold weighted, mixed_charges. induction qa as [|c qa IH]; intros [|d qb] [|v l] A B; try discriminate; [v3eq|].
  cbn [combine map fst snd]. rewrite !sum3_cons, (IH qb l) by (cbn in A, B; lia). v3eq.
Qed.
Lemma square_mixed axes s t v w : sqlen axes (plus3 (scale3 s v) (scale3 t w))
  = (s * s * sqlen axes v + t * t * sqlen axes w + s * t * (sqlen axes (plus3 (scale3 1 v) (scale3 1 w)) - sqlen axes v - sqlen axes w))%R.
Proof. unfold sqlen. induction axes as [|a axes IH]; cbn [map]; [cbn; ring|]. rewrite !rsum_cons, IH. destruct a; cbn; ring. Qed.
Lemma mscd_mixed axes s t qa qb (d : Arr R) : arr_wf d -> length qa = length (a_rows d) -> length qb = length (a_rows d) ->
  mscd_of axes (mixed_charges s t qa qb) d
  = (s * s * mscd_of axes qa d + t * t * mscd_of axes qb d + s * t * (mscd_of axes (mixed_charges 1 1 qa qb) d - mscd_of axes qa d - mscd_of axes qb d))%R.
Proof.
  intros W A B. unfold mscd_of, average. rewrite !tab_length.
  set (f := fun q t => sqlen axes (weighted q (at_time d t))).
  change (rsum (tab (a_obs d) (f (mixed_charges s t qa qb))) / INR (a_obs d)
    = s * s * (rsum (tab (a_obs d) (f qa)) / INR (a_obs d)) + t * t * (rsum (tab (a_obs d) (f qb)) / INR (a_obs d))
      + s * t * (rsum (tab (a_obs d) (f (mixed_charges 1 1 qa qb))) / INR (a_obs d) - rsum (tab (a_obs d) (f qa)) / INR (a_obs d) - rsum (tab (a_obs d) (f qb)) / INR (a_obs d)))%R.
  assert (K : rsum (tab (a_obs d) (f (mixed_charges s t qa qb)))
    = (s * s * rsum (tab (a_obs d) (f qa)) + t * t * rsum (tab (a_obs d) (f qb)) + s * t * (rsum (tab (a_obs d) (f (mixed_charges 1 1 qa qb))) - rsum (tab (a_obs d) (f qa)) - rsum (tab (a_obs d) (f qb))))%R).
  { assert (P : forall o, (o < a_obs d)%nat -> f (mixed_charges s t qa qb) o = (s * s * f qa o + t * t * f qb o + s * t * (f (mixed_charges 1 1 qa qb) o - f qa o - f qb o))%R).
    { intros o Ho. unfold f. assert (LA : length (at_time d o) = length (a_rows d)) by (now apply at_time_length).
      rewrite !weighted_mixed by congruence. apply square_mixed. }
    unfold tab. revert P. generalize (a_obs d) as n. intros n P.
    assert (Q : forall l, (forall o, In o l -> (o < n)%nat) -> rsum (map (f (mixed_charges s t qa qb)) l)
      = (s * s * rsum (map (f qa) l) + t * t * rsum (map (f qb) l) + s * t * (rsum (map (f (mixed_charges 1 1 qa qb)) l) - rsum (map (f qa) l) - rsum (map (f qb) l)))%R).
    { induction l as [|o l IH]; intros Hl; [cbn; ring|]. cbn [map]. rewrite !rsum_cons, IH by (intros o' Ho'; apply Hl; now right). rewrite (P o) by (apply Hl; now left). ring. }
    apply Q. intros o Ho. apply in_seq in Ho. lia. }
  rewrite K. unfold Rdiv. ring.
Qed.
Section Kinds.
  Context {G Seed RS : Type} (X : Ext R G Seed RS).
  Lemma C102_mixed_proof u dts disps n_o natoms s t qa qb g b g' ga ba ga' gb bb gb' gs bs gs' : 0 < u_sub_sample_dt u -> u_block u = false -> Forall arr_wf disps ->
    Forall (fun d => length (a_rows d) = natoms) disps -> length qa = natoms -> length qb = natoms ->
    mscd_bootstrap X u dts disps (QArray (mixed_charges s t qa qb)) n_o g = Ok (b, g') ->
    mscd_bootstrap X u dts disps (QArray qa) n_o ga = Ok (ba, ga') -> mscd_bootstrap X u dts disps (QArray qb) n_o gb = Ok (bb, gb') ->
    mscd_bootstrap X u dts disps (QArray (mixed_charges 1 1 qa qb)) n_o gs = Ok (bs, gs') ->
    length (b_n ba) = length (b_n b) /\ length (b_n bb) = length (b_n b) /\ length (b_n bs) = length (b_n b)
    /\ forall j va vb vs, nth_error (b_n ba) j = Some va -> nth_error (b_n bb) j = Some vb -> nth_error (b_n bs) j = Some vs ->
         nth_error (b_n b) j = Some (s * s * va + t * t * vb + s * t * (vs - va - vb))%R.
  Proof.
    intros Hk Hb Hwf Hn La Lb H Ha Hbb Hs.
    assert (LM : forall s t, length (mixed_charges s t qa qb) = natoms) by (intros; unfold mixed_charges; rewrite map_length, combine_length, La, Lb; apply Nat.min_id).
    assert (HQ : forall q : list R, length q = natoms -> forall l, QArray q = QArray l -> length l = natoms) by (intros q Lq l E; injection E as <-; exact Lq).
    destruct (C30_proof X _ _ _ _ _ _ _ _ natoms Hk Hb Hwf Hn (HQ _ (LM s t)) H) as (used & shown & A1 & A2 & ->).
    destruct (C30_proof X _ _ _ _ _ _ _ _ natoms Hk Hb Hwf Hn (HQ _ La) Ha) as (used1 & shown1 & A3 & A4 & ->).
    destruct (C30_proof X _ _ _ _ _ _ _ _ natoms Hk Hb Hwf Hn (HQ _ Lb) Hbb) as (used2 & shown2 & A5 & A6 & ->).
    destruct (C30_proof X _ _ _ _ _ _ _ _ natoms Hk Hb Hwf Hn (HQ _ (LM 1%R 1%R)) Hs) as (used3 & shown3 & A7 & A8 & ->).
    assert (used1 = used) by (eapply sub_sample_unique; eauto). assert (used2 = used) by (eapply sub_sample_unique; eauto). assert (used3 = used) by (eapply sub_sample_unique; eauto). subst used1 used2 used3.
    assert (shown1 = shown) by (eapply leading_unique; eauto). assert (shown2 = shown) by (eapply leading_unique; eauto). assert (shown3 = shown) by (eapply leading_unique; eauto). subst shown1 shown2 shown3.
    rewrite !map_length. do 3 (split; [reflexivity|]). intros j va vb vs. rewrite !nth_error_map. destruct (nth_error shown j) as [d|] eqn:Ed; [|discriminate].
    cbn [option_map charges]. intros [= <-] [= <-] [= <-]. f_equal.
    assert (Hd : In d disps).
    { apply nth_error_In in Ed. destruct (leading_In _ _ _ _ A2 Ed) as [Hd _]. apply (sub_sample_In _ _ _ _ A1).
      rewrite <- (firstn_skipn (Nat.div (length used) 2) used). apply in_or_app. now left. }
    rewrite Forall_forall in Hwf, Hn. apply mscd_mixed; [now apply Hwf|now rewrite (Hn d Hd)|now rewrite (Hn d Hd)].
  Qed.
  Lemma two_mixed zp zm kinds : two_charges zp zm kinds = mixed_charges zp zm (two_charges 1 0 kinds) (two_charges 0 1 kinds).
  Proof. unfold two_charges, mixed_charges. induction kinds as [|[] l IH]; [reflexivity| |]; cbn [map combine fst snd]; rewrite <- IH; f_equal; ring. Qed.
  Lemma C102_kinds_proof u dts disps n_o kinds zp zm g b g' ga ba ga' gb bb gb' gs bs gs' : 0 < u_sub_sample_dt u -> u_block u = false -> Forall arr_wf disps ->
    Forall (fun d => length (a_rows d) = length kinds) disps ->
    mscd_bootstrap X u dts disps (QArray (two_charges zp zm kinds)) n_o g = Ok (b, g') ->
    mscd_bootstrap X u dts disps (QArray (two_charges 1 0 kinds)) n_o ga = Ok (ba, ga') ->
    mscd_bootstrap X u dts disps (QArray (two_charges 0 1 kinds)) n_o gb = Ok (bb, gb') ->
    mscd_bootstrap X u dts disps (QScalar 1%R) n_o gs = Ok (bs, gs') ->
    length (b_n ba) = length (b_n b) /\ length (b_n bb) = length (b_n b) /\ length (b_n bs) = length (b_n b)
    /\ forall j va vb vs, nth_error (b_n ba) j = Some va -> nth_error (b_n bb) j = Some vb -> nth_error (b_n bs) j = Some vs ->
         nth_error (b_n b) j = Some (zp * zp * va + zm * zm * vb + zp * zm * (vs - va - vb))%R.
  Proof.
    intros Hk Hb Hwf Hn H Ha Hbb Hs. rewrite two_mixed in H. rewrite (C30_scalar_proof X _ _ _ _ _ _ (length kinds) Hk Hn) in Hs.
    assert (E : repeat 1%R (length kinds) = mixed_charges 1 1 (two_charges 1 0 kinds) (two_charges 0 1 kinds)).
    { unfold two_charges, mixed_charges. clear. induction kinds as [|[] l IH]; [reflexivity| |]; cbn [length repeat map combine fst snd]; rewrite <- IH; f_equal; ring. }
    rewrite E in Hs. refine (C102_mixed_proof _ _ _ _ (length kinds) _ _ _ _ _ _ _ _ _ _ _ _ _ _ _ _ Hk Hb Hwf Hn _ _ H Ha Hbb Hs); unfold two_charges; apply map_length.
  Qed.
End Kinds.

(** ** Example: two Li ions going apart, watched from a moving place and with another framework *)
Definition drifting_pair (s r y : nat -> R) (f a : nat) : V3 R := plus3 (pair_walk s r f a) (mkV 0%R (y f) 0%R).
Definition framed (D : list Z) : ModelParser.Params R := mkParams (Some ["Li"%string]) (PyFloat 1%R) 1 1 1 (upto 2 2) SINone None (PyList D).
Lemma drifting_pair_small s r y n : gentle s -> gentle r -> gentle y -> small_steps n 3 1 (drifting_pair s r y).
Proof.
  intros H H' H2 f a _ Ha. rewrite !Nat.mul_1_r. unfold drifting_pair, pair_walk, within_half. specialize (H f). specialize (H' f). specialize (H2 f).
  destruct a as [|[|a]]; cbn [vx vy vz minus3 zero3 plus3]; lra.
Qed.
Lemma drifting_pair_read circ s r y D : gentle s -> gentle r -> gentle y -> Forall (valid_site 3) D -> exists p,
  faithful_read Ase circ unit_cell ["Li"; "Li"; "O"]%string 1%R 4 3 1 (drifting_pair s r y) (framed D) p
  /\ p_intervals p = [1; 2] /\ p_indices p = [0; 1] /\ p_drift_indices p = D /\ p_delta_t p = [1; 2]%R /\ length (p_disp_3d p) = 2%nat /\ length (p_n_o p) = 2%nat
  /\ Forall (fun d => 1 < length (entries d))%nat (p_disp_3d p) /\ Forall (fun d => 1 < a_obs d)%nat (p_disp_3d p).
Proof.
  intros HG HR HY HD.
  assert (K : exists p, ase_parser geomspace_R circ (frames_of ["Li"; "Li"; "O"]%string 1%R 4 3 (drifting_pair s r y) (fun _ => unit_cell)) (framed D) = Ok p
    /\ p_intervals p = [1; 2] /\ p_indices p = [0; 1] /\ p_drift_indices p = D /\ p_delta_t p = [1; 2]%R /\ length (p_disp_3d p) = 2%nat /\ length (p_n_o p) = 2%nat
    /\ Forall (fun d => 1 < length (entries d))%nat (p_disp_3d p) /\ Forall (fun d => 1 < a_obs d)%nat (p_disp_3d p)).
  { rewrite (ase_run geomspace_R circ unit_cell _ _ 4 3 1 (drifting_pair s r y) _ ["Li"%string] [0; 1] D)
      by (first [exact unit_cell_volume | now apply drifting_pair_small | lia | reflexivity]).
    unfold framed, upto. cbn [a_time_step pynum_val a_step_skip a_opts]. rewrite kept_one.
    rewrite (parser_init_ints geomspace_R 3 4 _ [0; 1] D 1 2 2 "multi-origin" 8 8) by (first [exact HD | repeat constructor; cbn; lia | lia]).
    change (tab _ (lin _ 2 _)) with (map Z.of_nat [1;2]%nat).
    rewrite get_disps_multi' by (repeat constructor; cbn; lia).
    assert (E' : Rltb 8 (in_gigabytes (fold_right Z.add 0 (map (estimate (length [0; 1]) 4 8) [1;2]%nat))) = false).
    { apply Rltb_false. unfold in_gigabytes. cbn. lra. }
    rewrite E'. cbn [bind]. eexists. split; [reflexivity|]. do 3 (split; [reflexivity|]).
    split; [cbn; repeat f_equal; lra|]. split; [reflexivity|]. split; [reflexivity|]. split; repeat constructor. }
  destruct K as (p & H & E1 & E2 & E3 & E4). exists p. split; [|auto].
  split; try (first [exact unit_cell_volume | reflexivity | lia | now apply drifting_pair_small]).
  - left. discriminate.
  - rewrite kept_one. split; unfold min_time, max_time; cbn; try lra; try lia. now left.
  - rewrite E2. repeat constructor; cbn; lia.
  - rewrite E3. exact HD.
  - exists no_image. cbn [parser_by handed_over]. rewrite (frames_of_ext _ _ _ _ _ _ _ (no_image_id (drifting_pair s r y))). exact H.
Qed.
Lemma watched_pair s r y y' : watched_from 3 (fun f => mkV 0%R (y' f - y f)%R 0%R) (fun f b => cart unit_cell (drifting_pair s r y f b)) (fun f b => cart unit_cell (drifting_pair s r y' f b)).
Proof. intros f b _. unfold drifting_pair, cart, unit_cell, pair_walk, zero3. destruct b as [|[|b]]; cbn; v3eq. Qed.
Definition resting (_ : nat) : R := 0%R.
Lemma resting_gentle : gentle resting.
Proof. intros f. unfold resting. lra. Qed.
Definition leftwards (f : nat) : R := (- steady f)%R.
Lemma leftwards_gentle : gentle leftwards.
Proof. intros f. pose proof (steady_gentle f). unfold leftwards. lra. Qed.
Lemma C102_example_proof : forall G Seed RS (X : Ext R G Seed RS) circ (g : G) q, (forall l, q = QArray l -> length l = 2%nat) -> exists p p' an an',
  faithful_read Ase circ unit_cell ["Li"; "Li"; "O"]%string 1%R 4 3 1 (drifting_pair steady leftwards resting) (framed [2]) p
  /\ faithful_read Ase circ unit_cell ["Li"; "Li"; "O"]%string 1%R 4 3 1 (drifting_pair steady leftwards steady) (framed [0]) p'
  /\ watched_from 3 (fun f => mkV 0%R (steady f - resting f)%R 0%R) (fun f b => cart unit_cell (drifting_pair steady leftwards resting f b))
       (fun f b => cart unit_cell (drifting_pair steady leftwards steady f b))
  /\ p_indices p = [0; 1] /\ p_indices p' = [0; 1] /\ p_drift_indices p = [2] /\ p_drift_indices p' = [0] /\ p_intervals p = p_intervals p'
  /\ conductivity_analyzer X (of_parsed p) q (demo_boot 1 "xyz") g = Ok (an, g) /\ conductivity_analyzer X (of_parsed p') q (demo_boot 1 "xyz") g = Ok (an', g)
  /\ nth_error (b_dt (an_diff an)) 0 = Some 1%R /\ nth_error (b_dt (an_diff an')) 0 = Some 1%R
  /\ (q = QArray [1; -1]%R -> nth_error (b_n (an_diff an)) 0 = Some (3 / 100)%R /\ nth_error (b_n (an_diff an')) 0 = Some (3 / 100)%R)
  /\ (q = QScalar 1%R -> nth_error (b_n (an_diff an)) 0 = Some 0%R /\ nth_error (b_n (an_diff an')) 0 = Some (3 / 100)%R).
Proof.
  intros G Seed RS X circ g q Hq.
  assert (V2 : Forall (valid_site 3) [2]) by (repeat constructor; cbn; lia). assert (V0 : Forall (valid_site 3) [0]) by (repeat constructor; cbn; lia).
  destruct (drifting_pair_read circ steady leftwards resting [2] steady_gentle leftwards_gentle resting_gentle V2) as (p & F & E1 & E2 & E3 & E4 & E5 & E6 & E7 & E8).
  destruct (drifting_pair_read circ steady leftwards steady [0] steady_gentle leftwards_gentle steady_gentle V0) as (p' & F' & E1' & E2' & E3' & E4' & E5' & E6' & E7' & E8').
  destruct (read_forms _ _ _ _ _ _ _ _ _ _ _ F) as (tis & RF). destruct (form_shape _ _ _ _ _ _ _ _ _ _ RF) as [W L].
  destruct (read_forms _ _ _ _ _ _ _ _ _ _ _ F') as (tis' & RF'). destruct (form_shape _ _ _ _ _ _ _ _ _ _ RF') as [W' L'].
  assert (Hp : forall l, q = QArray l -> length l = length (p_indices p)) by (rewrite E2; exact Hq).
  assert (Hp' : forall l, q = QArray l -> length l = length (p_indices p')) by (rewrite E2'; exact Hq).
  destruct (three_run X p q g ltac:(now rewrite E4) E5 E6 E7 E8 W L Hp) as (_ & _ & cn & _ & _ & A & _ & _ & T).
  destruct (three_run X p' q g ltac:(now rewrite E4') E5' E6' E7' E8' W' L' Hp') as (_ & _ & cn' & _ & _ & A' & _ & _ & T').
  rewrite E4 in T. rewrite E4' in T'. cbn [firstn] in T, T'.
  assert (T0 : nth_error (b_dt (an_diff cn)) 0 = Some 1%R) by now rewrite T. assert (T0' : nth_error (b_dt (an_diff cn')) 0 = Some 1%R) by now rewrite T'.
  exists p, p', cn, cn'. split; [exact F|]. split; [exact F'|]. split; [apply watched_pair|]. do 4 (split; [assumption|]). split; [now rewrite E1, E1'|]. do 4 (split; [assumption|]).
  destruct (C85_mscd_proof X _ _ _ _ _ _ _ _ _ _ _ _ (demo_boot 1 "xyz") _ _ _ F eq_refl eq_refl Hp A 0%nat 1%R T0) as (m & M1 & _ & _ & M).
  destruct (C85_mscd_proof X _ _ _ _ _ _ _ _ _ _ _ _ (demo_boot 1 "xyz") _ _ _ F' eq_refl eq_refl Hp' A' 0%nat 1%R T0') as (m' & M1' & _ & _ & M').
  rewrite E1 in M1. rewrite E1' in M1'. injection M1 as M1. injection M1' as M1'.
  assert (m = 1%nat) by (cbn in M1; lia). assert (m' = 1%nat) by (cbn in M1'; lia). subst m m'. cbv zeta in M, M'. rewrite E2, E3, kept_one in M. rewrite E2', E3', kept_one in M'.
  rewrite M, M'. unfold over_time, tab, average. cbn [Nat.sub seq map length rsum Nat.add].
  split; intros ->; cbn [charges length repeat];
    unfold charge_between, moves, relative_displacement, average3, average; cbn [map combine length];
    change (site 3 0) with 0%nat; change (site 3 1) with 1%nat; change (site 3 2) with 2%nat;
    unfold sum3, sqlen, cart, unit_cell, drifting_pair, pair_walk, leftwards, steady, resting; cbn; split; f_equal; field.
Qed.
Lemma C102_kinds_example_proof : forall G Seed RS (X : Ext R G Seed RS) (g : G), exists b ba bb bs, let run := fun q => mscd_bootstrap X (demo_boot 1 "xyz") [1;2]%R demo_disps q [4;3]%R g in
  run (QArray (two_charges 2 (-1) [true; false])) = Ok (b, g) /\ run (QArray (two_charges 1 0 [true; false])) = Ok (ba, g)
  /\ run (QArray (two_charges 0 1 [true; false])) = Ok (bb, g) /\ run (QScalar 1%R) = Ok (bs, g)
  /\ b_n b = [15 / 2]%R /\ b_n ba = [5 / 2]%R /\ b_n bb = [3 / 2]%R /\ b_n bs = [6]%R.
Proof.
  intros G Seed RS X g.
  assert (K : forall q, (forall l, q = QArray l -> length l = 2%nat) -> exists b, mscd_bootstrap X (demo_boot 1 "xyz") [1;2]%R demo_disps q [4;3]%R g = Ok (b, g) /\ b_n b = [mscd_of all_axes (charges q 2) demo_pair]).
  { intros q Hq. destruct (mscd_total X (demo_boot 1 "xyz") [1;2]%R demo_disps q [4;3]%R all_axes 2 g) as (b & E);
      try reflexivity; try assumption; [exact names_xyz|discriminate|exact demo_wf|exact demo_atoms|exact demo_obs|].
    exists b. split; [exact E|]. destruct (C30_proof X (demo_boot 1 "xyz") _ _ _ _ _ _ _ 2 eq_refl eq_refl demo_wf demo_atoms Hq E) as (used & shown & U & L & ->).
    change (Z.to_nat (u_sub_sample_dt (demo_boot 1 "xyz"))) with 1%nat in U. apply sub_sample_one in U. subst used.
    change (firstn (Nat.div (length demo_disps) 2) demo_disps) with [demo_pair] in L.
    assert (L' : leading (fun d : Arr R => 1 < a_obs d)%nat [demo_pair] [demo_pair]).
    { exists []. split; [reflexivity|]. split; [repeat constructor|]. constructor. }
    rewrite (leading_unique _ _ _ _ L L'). reflexivity. }
  destruct (K (QArray (two_charges 2 (-1) [true; false]))) as (b & E & V); [intros l [= <-]; reflexivity|].
  destruct (K (QArray (two_charges 1 0 [true; false]))) as (ba & Ea & Va); [intros l [= <-]; reflexivity|].
  destruct (K (QArray (two_charges 0 1 [true; false]))) as (bb & Eb & Vb); [intros l [= <-]; reflexivity|].
  destruct (K (QScalar 1%R)) as (bs & Es & Vs); [intros l [=]|].
  exists b, ba, bb, bs. cbv zeta. do 4 (split; [assumption|]). rewrite V, Va, Vb, Vs.
  repeat split; f_equal; unfold mscd_of, two_charges, demo_pair, charges, over_time, average, sum3, sqlen; cbn; field.
Qed.
