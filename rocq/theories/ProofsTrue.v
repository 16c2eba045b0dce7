(** * ProofsTrue: reported statistics in terms of the true trajectory (C81-C83) *)
From Verif Require Import Base Spec SpecParser SpecStats SpecFit SpecAnalyzer ModelParser ModelDiffusion ModelHdf ModelAnalyzer
  Lemmas ProofsDisp ProofsIntervals ProofsWindows ProofsParser ProofsTraj ProofsBoot ProofsStats ProofsStats2 ProofsFit ProofsFit2 ProofsShape ProofsAnalyzer
  SpecRun SpecSym ProofsSym SpecGrid ProofsGrid SpecPool ProofsCollective ProofsPool SpecTrue.
From Coq Require Import Reals Lra Lia Sorting.Sorted.
Open Scope Z_scope.

(** ** What all three interfaces have in common *)
Definition drifting (cell : M3 R) k (x : nat -> nat -> V3 R) : nat -> nat -> V3 R :=
  fun a t => minus3 (cart cell (x (t * k)%nat a)) (cart cell (x 0%nat a)).
Definition stamped (i : interface) (p : Parsed R) : Parsed R :=
  match i with Pymatgen => set_delta_t p (map (fun d => (d * (n1 / nofZ 1000))%num) (p_delta_t p)) | _ => p end.

Lemma sub_sample_id {T} (l l' : list T) : sub_sample 1 l l' -> l' = l.
Proof. intros H. apply list_ext. intros i. rewrite (H i). now rewrite Nat.mul_1_r. Qed.
Lemma read_raw i circ cell types vol n natoms k x (img : nat -> nat -> V3 Z) a p :
  cell_volume cell <> 0%R -> length types = natoms -> (0 < k)%nat -> a_sub_sample_traj a = Z.of_nat k -> a_sub_sample_atoms a = 1 -> small_steps n natoms k x ->
  parser_by i geomspace_R circ (handed_over i cell types vol n natoms (fun f a => plus3 (x f a) (ivec (img f a)))) a = Ok p ->
  exists st coords latt q, s_types st = types /\ s_volume st = vol
    /\ get_disp coords latt = Ok (table natoms (kept n k) (drifting cell k x))
    /\ finish_parse geomspace_R circ st coords latt a (steps_by i a) = Ok q /\ p = stamped i q.
Proof.
  intros Hc Ht Hk Ek Ea Hs E. destruct i; cbn [parser_by handed_over steps_by stamped] in *.
  - unfold ase_parser in E. rewrite Ek in E. inv_bind E r E1. destruct r as [[st coords] latt].
    destruct (read_displacements _ _ _ _ _ _ _ _ _ _ _ Hc Hk Hs E1) as [-> Hdisp]. exists (mkStructure types vol), coords, latt, p. auto.
  - unfold pymatgen_parser in E. rewrite Ek in E. inv_bind E r E1. destruct r as [[st coords] latt]. inv_bind E q E2.
    destruct (a_time_step a) eqn:Et; [discriminate|]. injection E as <-.
    destruct (read_displacements _ _ _ _ _ _ _ _ _ _ _ Hc Hk Hs E1) as [-> Hdisp]. exists (mkStructure types vol), coords, latt, q. rewrite Ek. auto.
  - unfold mda_parser in E. inv_bind E u0 E0. inv_bind E r E1. destruct r as [[st coords] latt]. rewrite Ea, Ek in E1.
    apply (read_mda_fun types vol n natoms (fun f a => plus3 (x f a) (ivec (img f a))) (fun _ => cell) 1 k st coords latt) in E1; [|lia|exact Hk|exact Ht].
    destruct E1 as (types' & Ht' & S' & E1). apply sub_sample_id in S'. subst types'. rewrite kept_one in E1.
    rewrite (frames_of_ext types vol n natoms _ (fun f a => plus3 (x f a) (ivec (img f a))) (fun _ => cell)) in E1 by (intros; now rewrite Nat.mul_1_r).
    destruct (read_displacements _ _ _ _ _ _ _ _ _ _ _ Hc Hk Hs E1) as [-> Hdisp]. exists (mkStructure types vol), coords, latt, p. auto.
Qed.
Lemma read_core i circ cell types vol n natoms k x a p : faithful_read i circ cell types vol n natoms k x a p ->
  exists st coords latt q, s_types st = types /\ s_volume st = vol
    /\ get_disp coords latt = Ok (table natoms (kept n k) (drifting cell k x))
    /\ finish_parse geomspace_R circ st coords latt a (steps_by i a) = Ok q /\ p = stamped i q.
Proof. intros [Hc Ht Hk Ek Ea Hs Ha Hm HS Hi Hd (img & E)]. exact (read_raw _ _ _ _ _ _ _ _ _ _ _ _ Hc Ht Hk Ek Ea Hs E). Qed.

(** The atoms chosen depend on the species only. *)
Definition chosen (types : list string) (a : ModelParser.Params R) : Res (list Z * list Z) :=
  match a_specie a with
  | Some sp => get_indices types sp (a_framework a)
  | None => match a_specie_indices a with SIFlat l => get_framework (length types) l (a_framework a) | _ => Raise TypeError end
  end.
Lemma choose_chosen circ st (coords : list (list (V3 R))) a c I D : atomic_selection a ->
  choose_atoms circ st coords a = Ok (c, (I, D)) -> chosen (s_types st) a = Ok (I, D).
Proof.
  unfold choose_atoms, chosen. intros HA H. destruct (a_specie a) as [sp|] eqn:Es.
  - inv_bind H ix E. injection H as _ ->. exact E.
  - destruct HA as [HA|(l & HA)]; [congruence|]. rewrite HA in *. destruct l as [|z l]; [discriminate|].
    inv_bind H ix E. injection H as _ ->. exact E.
Qed.
Lemma init_intervals geo (disp disp' : Arr R) I I' D D' (ts : R) ss o p p' :
  arr_wf disp -> arr_wf disp' -> a_obs disp = a_obs disp' ->
  parser_init geo disp I D ts ss o = Ok p -> parser_init geo disp' I' D' ts ss o = Ok p' -> p_intervals p = p_intervals p'.
Proof.
  intros W W' O H H'. unfold parser_init in *. inv_bind H dc E1. inv_bind H' dc' E1'.
  destruct (correct_drift_wf _ _ _ W E1) as [V Vo]. destruct (correct_drift_wf _ _ _ W' E1') as [V' Vo'].
  assert (Odc : a_obs dc' = a_obs dc) by congruence. rewrite Odc in H'.
  inv_bind H q E2. inv_bind H z E3. inv_bind H' q' E2'. assert (q' = q) by congruence. subst q'.
  rewrite E3 in H'. cbn [bind] in H'. destruct (_ <=? z); [discriminate|].
  inv_bind H tis E4. inv_bind H' tis' E4'. assert (tis' = tis) by congruence. subst tis'. inv_bind H r E5. inv_bind H' r' E5'. injection H as <-. injection H' as <-. reflexivity.
Qed.

(** Simulated time of [m] used frames, as reported. *)
Definition clock (i : interface) (a : ModelParser.Params R) (m : nat) : R :=
  let t := (INR m * pynum_val (a_time_step a) * IZR (steps_by i a))%R in match i with Pymatgen => (t * (1 / 1000))%R | _ => t end.
Record read_form i (cell : M3 R) types (n natoms k : nat) x (a : ModelParser.Params R) (p : Parsed R) (tis : list nat) : Prop := {
  rf_range : Forall (fun m => (0 < m <= kept n k)%nat) tis;
  rf_sorted : StronglySorted le tis;
  rf_chosen : chosen types a = Ok (p_indices p, p_drift_indices p);
  rf_intervals : p_intervals p = map Z.of_nat tis;
  rf_times : p_delta_t p = map (clock i a) tis;
  rf_used : let ks := firstn (length (filter (enough (length (p_indices p)) (kept n k)) tis)) tis in
    filter (enough (length (p_indices p)) (kept n k)) tis = ks
    /\ p_disp_3d p = map (multi_window natoms (kept n k) (corrected natoms (drifting cell k x) (p_drift_indices p)) (p_indices p)) ks
    /\ p_n_o p = map (obs_count (length (p_indices p)) (last_interval tis)) ks }.
Lemma read_forms i circ cell types vol n natoms k x a p : faithful_read i circ cell types vol n natoms k x a p ->
  exists tis, read_form i cell types n natoms k x a p tis.
Proof.
  intros F. destruct (read_core _ _ _ _ _ _ _ _ _ _ _ F) as (st & coords & latt & q & Et & _ & Ed & Ef & ->).
  destruct F as [Hc Ht Hk Ek Ea Hs Ha Hm HS Hi Hd _].
  assert (Hi' : Forall (valid_site natoms) (p_indices q)) by (destruct i; exact Hi).
  assert (Hd' : Forall (valid_site natoms) (p_drift_indices q)) by (destruct i; exact Hd).
  destruct (finish_inv _ _ _ _ _ _ _ Ef) as (c' & I & D & disp & r & E1 & E2 & E3 & ->).
  pose proof (choose_atomic circ st coords a _ Ha E1) as Ec. cbn in Ec. subst c'. rewrite Ed in E2. injection E2 as <-.
  destruct (parser_init_sel _ _ _ _ _ _ _ _ E3) as [EI ED]. cbn [set_volume p_indices p_drift_indices] in Hi', Hd'. rewrite EI in Hi'. rewrite ED in Hd'.
  destruct (run_multi natoms (kept n k) _ I D _ _ (a_opts a) Hi' Hd' HS r Hm E3) as (tis & F1 & F2 & Ef' & _ & ->).
  exists tis. apply (choose_chosen _ _ _ _ _ _ _ Ha) in E1. rewrite Et in E1.
  destruct i; split; cbn [stamped set_delta_t set_volume p_intervals p_delta_t p_disp_3d p_n_o p_indices p_drift_indices]; auto.
  unfold delta_ts. rewrite map_map. apply map_ext. intros m. unfold clock. now numR.
Qed.
Lemma same_intervals i circ cell cell' types types' vol vol' n natoms natoms' k x x' a p p' tis tis' :
  faithful_read i circ cell types vol n natoms k x a p -> faithful_read i circ cell' types' vol' n natoms' k x' a p' ->
  read_form i cell types n natoms k x a p tis -> read_form i cell' types' n natoms' k x' a p' tis' -> tis = tis'.
Proof.
  intros F F' [_ _ _ H _ _] [_ _ _ H' _ _].
  destruct (read_core _ _ _ _ _ _ _ _ _ _ _ F) as (st & coords & latt & q & Et & _ & Ed & Ef & ->).
  destruct (read_core _ _ _ _ _ _ _ _ _ _ _ F') as (st' & coords' & latt' & q' & Et' & _ & Ed' & Ef' & ->).
  destruct (finish_inv _ _ _ _ _ _ _ Ef) as (c & I & D & disp & r & E1 & E2 & E3 & ->).
  destruct (finish_inv _ _ _ _ _ _ _ Ef') as (c' & I' & D' & disp' & r' & E1' & E2' & E3' & ->).
  assert (Ec := choose_atomic circ st coords a _ (fr_selection _ _ _ _ _ _ _ _ _ _ _ F) E1). cbn in Ec. subst c.
  assert (Ec := choose_atomic circ st' coords' a _ (fr_selection _ _ _ _ _ _ _ _ _ _ _ F') E1'). cbn in Ec. subst c'.
  rewrite Ed in E2. injection E2 as <-. rewrite Ed' in E2'. injection E2' as <-.
  destruct (get_disp_wf _ _ _ Ed) as [W _]. destruct (get_disp_wf _ _ _ Ed') as [W' _].
  assert (E := init_intervals _ _ _ _ _ _ _ _ _ _ _ _ W W' eq_refl E3 E3').
  assert (K : map Z.of_nat tis = map Z.of_nat tis').
  { rewrite <- H, <- H'. destruct i; cbn [stamped set_delta_t set_volume p_intervals]; exact E. }
  clear -K. revert tis' K. induction tis as [|t tis IH]; intros [|t' tis'] K; try discriminate; [reflexivity|].
  injection K as K1 K2. f_equal; [lia|now apply IH].
Qed.

(** ** The mean over atoms and windows *)
Section Means.
  Context (axes : list axis) (natoms k T : nat) (pos : nat -> nat -> V3 R) (idx fw : list Z).
  Let start := fun a t => minus3 (pos (t * k)%nat a) (pos 0%nat a).
  Let between := square_between axes natoms k pos idx fw.
  Lemma window_square m o : (0 < m)%nat ->
    average (map (fun i => sqlen axes (window_obs (corrected natoms start fw (site natoms i)) m o)) idx)
    = between (match o with O => 0 | S j => j end)%nat (match o with O => m - 1 | S j => j + m end)%nat.
  Proof.
    intros Hm. unfold between, square_between. f_equal. apply map_ext. intros i. f_equal. destruct o; cbn [window_obs].
    - apply corrected_start.
    - apply corrected_difference.
  Qed.
  Lemma window_mean m : (0 < m <= T)%nat ->
    msd_of axes (multi_window natoms T (corrected natoms start fw) idx m)
    = ((INR (T - m) * true_msd axes natoms k pos idx fw T m + between 0 (m - 1)%nat) / INR (T - m + 1))%R.
  Proof.
    intros Hm. unfold msd_of, average at 1, entries. cbn [multi_window a_rows]. rewrite rsum_concat_map, map_length, !map_map.
    rewrite (map_ext _ (fun i => rsum (map (fun o => sqlen axes (window_obs (corrected natoms start fw (site natoms i)) m o)) (seq 0 (T - m + 1))))).
    2:{ intros i. unfold tab. now rewrite map_map. }
    rewrite rsum_swap.
    assert (L : length (List.concat (map (fun i => tab (T - m + 1) (window_obs (corrected natoms start fw (site natoms i)) m)) idx)) = (length idx * (T - m + 1))%nat).
    { clear. induction idx as [|i l IH]; cbn [map List.concat length]; [reflexivity|]. rewrite app_length, tab_length, IH. lia. }
    rewrite L, mult_INR. clear L. unfold Rdiv. rewrite Rinv_mult, <- Rmult_assoc. f_equal.
    rewrite Rmult_comm, <- rsum_map_scal.
    rewrite (map_ext _ (fun o => between (match o with O => 0 | S j => j end)%nat (match o with O => m - 1 | S j => j + m end)%nat)).
    2:{ intros o. rewrite <- window_square by lia. unfold average. rewrite map_length. unfold Rdiv. apply Rmult_comm. }
    rewrite Nat.add_1_r. fold (tab (S (T - m)) (fun o => between (match o with O => 0 | S j => j end)%nat (match o with O => m - 1 | S j => j + m end)%nat)).
    rewrite tab_S, rsum_cons. unfold true_msd, average. rewrite tab_length. fold between.
    destruct (T - m)%nat eqn:E; [cbn; ring|]. rewrite <- E. field. apply not_0_INR. lia.
  Qed.
End Means.

Definition positions (cell : M3 R) (x : nat -> nat -> V3 R) : nat -> nat -> V3 R := fun f b => cart cell (x f b).
Section Reported.
  Context {G Seed RS : Type} (X : Ext R G Seed RS).
  (** One entry of the report, with its interval. *)
  Lemma reported_entry i cell types n natoms k x a p tis u axes g an g' :
    read_form i cell types n natoms k x a p tis -> 0 < u_sub_sample_dt u -> u_block u = false -> names (pystr_text (u_dimension u)) axes ->
    diffusion_analyzer X (of_parsed p) u g = Ok (an, g') -> forall j t, nth_error (b_dt (an_diff an)) j = Some t ->
    exists m d no, nth_error tis (j * Z.to_nat (u_sub_sample_dt u)) = Some m /\ (0 < m <= kept n k)%nat /\ t = clock i a m
      /\ nth_error (p_disp_3d p) (j * Z.to_nat (u_sub_sample_dt u)) = Some d
      /\ d = multi_window natoms (kept n k) (corrected natoms (drifting cell k x) (p_drift_indices p)) (p_indices p) m
      /\ nth_error (b_n (an_diff an)) j = Some (msd_of axes d) /\ nth_error (b_ngp (an_diff an)) j = Some (non_gaussian (map (sqlen axes) (entries d)))
      /\ nth_error (p_n_o p) j = Some no /\ nth_error (b_v (an_diff an)) j = Some (sample_variance (map (sqlen axes) (entries d)) / no)%R.
  Proof.
    intros [F1 F2 F3 F4 F5 F6] Hk Hb Hn H j t Ht. destruct (diffusion_entry X _ _ _ _ _ Hk Hb H) as (axes' & Hn' & E).
    assert (axes' = axes) by (eapply names_unique; eassumption). subst axes'.
    destruct (E j t Ht) as (d & no & E1 & E2 & E3 & E4 & _ & E5 & E6). cbn [of_parsed an_disp_3d an_delta_t an_n_o] in *.
    set (q := (j * Z.to_nat (u_sub_sample_dt u))%nat) in *. cbv zeta in F6. destruct F6 as (F6 & F7 & F8).
    rewrite F5, nth_error_map in E2. destruct (nth_error tis q) as [m|] eqn:Em; [|discriminate]. injection E2 as <-.
    exists m, d, no. split; [reflexivity|]. rewrite Forall_forall in F1. split; [apply F1; eapply nth_error_In; exact Em|]. split; [reflexivity|].
    split; [exact E1|]. split; [|auto].
    rewrite F7, nth_error_map in E1. destruct (nth_error (firstn _ tis) q) as [m'|] eqn:Em'; [|discriminate]. injection E1 as <-.
    apply firstn_nth_error in Em'. congruence.
  Qed.
  Lemma C81_reported_proof i circ cell types vol n natoms k x a p u axes g an g' :
    faithful_read i circ cell types vol n natoms k x a p -> 0 < u_sub_sample_dt u -> u_block u = false -> names (pystr_text (u_dimension u)) axes ->
    diffusion_analyzer X (of_parsed p) u g = Ok (an, g') -> forall j t, nth_error (b_dt (an_diff an)) j = Some t ->
    exists m, nth_error (p_intervals p) (j * Z.to_nat (u_sub_sample_dt u)) = Some (Z.of_nat m) /\ nth_error (p_delta_t p) (j * Z.to_nat (u_sub_sample_dt u)) = Some t
      /\ (0 < m <= kept n k)%nat
      /\ let T := kept n k in let pos f b := cart cell (x f b) in
         nth_error (b_n (an_diff an)) j = Some ((INR (T - m) * true_msd axes natoms k pos (p_indices p) (p_drift_indices p) T m
             + square_between axes natoms k pos (p_indices p) (p_drift_indices p) 0 (m - 1)) / INR (T - m + 1))%R.
  Proof.
    intros F Hk Hb Hn H j t Ht. destruct (read_forms _ _ _ _ _ _ _ _ _ _ _ F) as (tis & RF).
    destruct (reported_entry _ _ _ _ _ _ _ _ _ _ _ _ _ _ _ RF Hk Hb Hn H j t Ht) as (m & d & no & E1 & E2 & E3 & E4 & E5 & E6 & _).
    exists m. rewrite (rf_intervals _ _ _ _ _ _ _ _ _ _ RF), (rf_times _ _ _ _ _ _ _ _ _ _ RF), !nth_error_map, E1. cbn [option_map].
    split; [reflexivity|]. split; [now rewrite E3|]. split; [exact E2|]. cbv zeta. rewrite E6. f_equal. rewrite E5. exact (window_mean axes natoms k (kept n k) (positions cell x) _ _ m E2).
  Qed.

  Lemma true_total axes natoms k pos idx fw T m :
    (INR (T - m) * true_msd axes natoms k pos idx fw T m = rsum (map (fun j => square_between axes natoms k pos idx fw j (j + m)) (seq 0 (T - m))))%R.
  Proof.
    unfold true_msd, average. rewrite tab_length. destruct (T - m)%nat eqn:E; [cbn; ring|]. rewrite <- E. unfold tab. field. apply not_0_INR. lia.
  Qed.
  Lemma C81_one_frame_proof i circ cell types vol n natoms k x a p u axes g an g' :
    faithful_read i circ cell types vol n natoms k x a p -> 0 < u_sub_sample_dt u -> u_block u = false -> names (pystr_text (u_dimension u)) axes ->
    diffusion_analyzer X (of_parsed p) u g = Ok (an, g') -> forall j t, nth_error (b_dt (an_diff an)) j = Some t ->
    nth_error (p_intervals p) (j * Z.to_nat (u_sub_sample_dt u)) = Some 1 ->
    let T := kept n k in let pos f b := cart cell (x f b) in
    nth_error (b_n (an_diff an)) j = Some (INR (T - 1) / INR T * true_msd axes natoms k pos (p_indices p) (p_drift_indices p) T 1)%R.
  Proof.
    intros F Hk Hb Hn H j t Ht Hm. destruct (C81_reported_proof _ _ _ _ _ _ _ _ _ _ _ _ _ _ _ _ F Hk Hb Hn H j t Ht) as (m & E1 & _ & E2 & E3).
    rewrite Hm in E1. injection E1 as E1. assert (m = 1%nat) by lia. subst m. cbv zeta. rewrite E3. f_equal.
    replace (kept n k - 1 + 1)%nat with (kept n k) by lia. cbn [Nat.sub].
    assert (Z : forall pos idx fw, square_between axes natoms k pos idx fw 0 0 = 0%R).
    { intros pos idx fw. unfold square_between, average. rewrite (map_ext _ (fun _ => 0%R)).
      - rewrite rsum_const. unfold Rdiv. ring.
      - intros z. assert (E0 : relative_displacement natoms pos fw (site natoms z) (0 * k) (0 * k) = zero3).
        { unfold relative_displacement. destruct fw as [|i0 fw]; [v3eq|]. set (l := i0 :: fw).
          rewrite (average3_minus (fun i => pos (0 * k)%nat (site natoms i)) (fun i => pos (0 * k)%nat (site natoms i)) l). v3eq. }
        rewrite E0. unfold sqlen. clear. induction axes as [|[] l IH]; cbn in *; [reflexivity|..]; rewrite IH; ring. }
    rewrite Z. unfold Rdiv. ring.
  Qed.

  (** ** Averages over many runs *)
  Context {E : Type} (es : list E) (w : E -> R) (x : E -> nat -> nat -> V3 R) (p : E -> Parsed R) (an : E -> Analyzer R) (v : E -> R).
  Lemma C81_expected_proof i circ cell types vol n natoms k a u axes j (M : nat -> R) : es <> [] ->
    (forall e, In e es -> faithful_read i circ cell types vol n natoms k (x e) a (p e)) ->
    0 < u_sub_sample_dt u -> u_block u = false -> names (pystr_text (u_dimension u)) axes ->
    (forall e, In e es -> exists g g' t, diffusion_analyzer X (of_parsed (p e)) u g = Ok (an e, g')
       /\ nth_error (b_dt (an_diff (an e))) j = Some t /\ nth_error (b_n (an_diff (an e))) j = Some (v e)) ->
    (forall f l, (f + l < kept n k)%nat -> rsum (map (fun e => w e
        * square_between axes natoms k (fun f b => cart cell (x e f b)) (p_indices (p e)) (p_drift_indices (p e)) f (f + l))%R es) = M l) ->
    exists m, (0 < m <= kept n k)%nat /\ (forall e, In e es -> nth_error (p_intervals (p e)) (j * Z.to_nat (u_sub_sample_dt u)) = Some (Z.of_nat m))
      /\ rsum (map (fun e => w e * v e)%R es) = ((INR (kept n k - m) * M m + M (m - 1)%nat) / INR (kept n k - m + 1))%R.
  Proof.
    intros NE F Hk Hb Hn R HM.
    assert (K : exists m, (0 < m <= kept n k)%nat /\ (forall e, In e es -> nth_error (p_intervals (p e)) (j * Z.to_nat (u_sub_sample_dt u)) = Some (Z.of_nat m))).
    { destruct es as [|e0 l]; [congruence|]. destruct (R e0 (or_introl eq_refl)) as (g & g' & t & R1 & R2 & R3).
      destruct (C81_reported_proof _ _ _ _ _ _ _ _ _ _ _ _ _ _ _ _ (F e0 (or_introl eq_refl)) Hk Hb Hn R1 j t R2) as (m & E1 & _ & E2 & _).
      exists m. split; [exact E2|]. intros e He. rewrite <- E1. f_equal.
      destruct (read_forms _ _ _ _ _ _ _ _ _ _ _ (F e He)) as (tis & RF). destruct (read_forms _ _ _ _ _ _ _ _ _ _ _ (F e0 (or_introl eq_refl))) as (tis0 & RF0).
      rewrite (rf_intervals _ _ _ _ _ _ _ _ _ _ RF), (rf_intervals _ _ _ _ _ _ _ _ _ _ RF0). f_equal.
      exact (same_intervals _ _ _ _ _ _ _ _ _ _ _ _ _ _ _ _ _ _ _ (F e He) (F e0 (or_introl eq_refl)) RF RF0). }
    destruct K as (m & Hm & K). exists m. split; [exact Hm|]. split; [exact K|].
    set (T := kept n k) in *. set (sq := fun e => square_between axes natoms k (fun f b => cart cell (x e f b)) (p_indices (p e)) (p_drift_indices (p e))).
    assert (HM' : forall f l, (f + l < T)%nat -> rsum (map (fun e => w e * sq e f (f + l)%nat)%R es) = M l) by exact HM.
    rewrite (map_ext_in _ (fun e => / INR (T - m + 1) * (rsum (map (fun q => w e * sq e q (q + m)%nat) (seq 0 (T - m))) + w e * sq e 0%nat (0 + (m - 1))%nat))%R).
    2:{ intros e He. destruct (R e He) as (g & g' & t & R1 & R2 & R3).
      destruct (C81_reported_proof _ _ _ _ _ _ _ _ _ _ _ _ _ _ _ _ (F e He) Hk Hb Hn R1 j t R2) as (m' & E1 & _ & E2 & E3).
      rewrite (K e He) in E1. injection E1 as E1. apply Nat2Z.inj in E1. subst m'. cbv zeta in E3. rewrite true_total in E3. fold T in E3. fold (sq e) in E3.
      rewrite R3 in E3. injection E3 as ->. rewrite rsum_map_scal. cbn [Nat.add]. unfold Rdiv. ring. }
    rewrite rsum_map_scal, rsum_map_plus, rsum_swap. rewrite (HM' 0%nat (m - 1)%nat) by lia.
    rewrite (map_ext_in _ (fun _ => M m)).
    2:{ intros q Hq. apply in_seq in Hq. apply HM'. lia. }
    rewrite rsum_const, seq_length. unfold Rdiv. ring.
  Qed.
End Reported.

(** ** C82: time reversal *)
Definition opposite (v : V3 R) : V3 R := (mkV (- vx v) (- vy v) (- vz v))%R.
Lemma sqlen_opposite axes v : sqlen axes (opposite v) = sqlen axes v.
Proof. unfold sqlen. f_equal. apply map_ext. intros []; cbn; ring. Qed.
Lemma relative_swap N pos fw b f g : relative_displacement N pos fw b f g = opposite (relative_displacement N pos fw b g f).
Proof.
  unfold relative_displacement. destruct fw as [|i0 fw]; [v3eq|]. set (l := i0 :: fw).
  rewrite (average3_minus (fun i => pos g (site N i)) (fun i => pos f (site N i)) l).
  rewrite (average3_minus (fun i => pos f (site N i)) (fun i => pos g (site N i)) l). v3eq.
Qed.
Lemma between_swap axes N k pos idx fw f g : square_between axes N k pos idx fw f g = square_between axes N k pos idx fw g f.
Proof. unfold square_between. f_equal. apply map_ext. intros i. now rewrite relative_swap, sqlen_opposite. Qed.
Lemma rsum_tab_reverse n (f : nat -> R) : rsum (map f (seq 0 n)) = rsum (map (fun j => f (n - 1 - j)%nat) (seq 0 n)).
Proof.
  induction n as [|n IH]; [reflexivity|].
  assert (A : rsum (map f (seq 0 (S n))) = (rsum (map f (seq 0 n)) + f n)%R) by (rewrite seq_S, map_app, rsum_app; cbn; ring).
  rewrite A, IH. rewrite <- cons_seq, <- seq_shift. cbn [map]. rewrite rsum_cons, map_map.
  replace (S n - 1 - 0)%nat with n by lia.
  rewrite (map_ext (fun j => f (S n - 1 - S j)%nat) (fun j => f (n - 1 - j)%nat)) by (intros; f_equal; lia). ring.
Qed.
Definition backwards (n : nat) (x : nat -> nat -> V3 R) : nat -> nat -> V3 R := fun f b => x (n - 1 - f)%nat b.
Lemma between_backwards axes N n (pos : nat -> nat -> V3 R) idx fw f g :
  square_between axes N 1 (fun f b => pos (n - 1 - f)%nat b) idx fw f g = square_between axes N 1 pos idx fw (n - 1 - f)%nat (n - 1 - g)%nat.
Proof. unfold square_between. f_equal. apply map_ext. intros i. now rewrite !Nat.mul_1_r. Qed.
Lemma true_backwards axes N n pos idx fw m : (0 < m <= n)%nat ->
  (INR (n - m) * true_msd axes N 1 (fun f b => pos (n - 1 - f)%nat b) idx fw n m = INR (n - m) * true_msd axes N 1 pos idx fw n m)%R.
Proof.
  intros Hm. rewrite !true_total. symmetry. rewrite rsum_tab_reverse. f_equal. apply map_ext_in. intros j Hj. apply in_seq in Hj.
  rewrite between_backwards, between_swap. f_equal; lia.
Qed.
Section Reversal.
  Context {G Seed RS : Type} (X : Ext R G Seed RS).
  Lemma C82_difference_proof i circ cell types vol n natoms x a p p' u axes g h an g' h' an' :
    faithful_read i circ cell types vol n natoms 1 x a p -> faithful_read i circ cell types vol n natoms 1 (fun f => x (n - 1 - f)%nat) a p' ->
    0 < u_sub_sample_dt u -> u_block u = false -> names (pystr_text (u_dimension u)) axes ->
    diffusion_analyzer X (of_parsed p) u g = Ok (an, g') -> diffusion_analyzer X (of_parsed p') u h = Ok (an', h') ->
    forall j t, nth_error (b_dt (an_diff an)) j = Some t -> nth_error (b_dt (an_diff an')) j <> None ->
    nth_error (b_dt (an_diff an')) j = Some t
    /\ exists m v v', nth_error (p_intervals p) (j * Z.to_nat (u_sub_sample_dt u)) = Some (Z.of_nat m) /\ (0 < m <= n)%nat
      /\ nth_error (b_n (an_diff an)) j = Some v /\ nth_error (b_n (an_diff an')) j = Some v'
      /\ let pos f b := cart cell (x f b) in let between := square_between axes natoms 1 pos (p_indices p) (p_drift_indices p) in
         ((v - v') * INR (n - m + 1) = between 0%nat (m - 1)%nat - between (n - m)%nat (n - 1)%nat)%R.
  Proof.
    intros F F' Hk Hb Hn H H' j t Ht Ht'. destruct (nth_error (b_dt (an_diff an')) j) as [t'|] eqn:E'; [|congruence]. clear Ht'.
    destruct (read_forms _ _ _ _ _ _ _ _ _ _ _ F) as (tis & RF). destruct (read_forms _ _ _ _ _ _ _ _ _ _ _ F') as (tis' & RF').
    assert (ET := same_intervals _ _ _ _ _ _ _ _ _ _ _ _ _ _ _ _ _ _ _ F F' RF RF'). subst tis'.
    destruct (reported_entry X _ _ _ _ _ _ _ _ _ _ _ _ _ _ _ RF Hk Hb Hn H j t Ht) as (m & d & no & E1 & E2 & E3 & _).
    destruct (reported_entry X _ _ _ _ _ _ _ _ _ _ _ _ _ _ _ RF' Hk Hb Hn H' j t' E') as (m' & d' & no' & E1' & E2' & E3' & _).
    assert (m' = m) by congruence. subst m'. split; [congruence|].
    destruct (C81_reported_proof X _ _ _ _ _ _ _ _ _ _ _ _ _ _ _ _ F Hk Hb Hn H j t Ht) as (m1 & D1 & _ & D2 & D3).
    destruct (C81_reported_proof X _ _ _ _ _ _ _ _ _ _ _ _ _ _ _ _ F' Hk Hb Hn H' j t' E') as (m2 & D1' & _ & D2' & D3').
    assert (DI := D1).
    rewrite (rf_intervals _ _ _ _ _ _ _ _ _ _ RF), nth_error_map, E1 in D1. injection D1 as D1. apply Nat2Z.inj in D1. subst m1.
    rewrite (rf_intervals _ _ _ _ _ _ _ _ _ _ RF'), nth_error_map, E1 in D1'. injection D1' as D1'. apply Nat2Z.inj in D1'. subst m2.
    rewrite kept_one in *. cbv zeta in *.
    assert (C := rf_chosen _ _ _ _ _ _ _ _ _ _ RF). rewrite (rf_chosen _ _ _ _ _ _ _ _ _ _ RF') in C. injection C as C1 C2. rewrite C1, C2 in D3'.
    do 3 eexists. split; [exact DI|]. split; [exact D2|]. split; [exact D3|]. split; [exact D3'|]. cbv zeta.
    rewrite (true_backwards axes natoms n (fun f b => cart cell (x f b)) (p_indices p) (p_drift_indices p) m D2).
    rewrite (between_backwards axes natoms n (fun f b => cart cell (x f b)) (p_indices p) (p_drift_indices p) 0 (m - 1)).
    rewrite (between_swap _ _ _ _ _ _ (n - 1 - 0)%nat). replace (n - 1 - (m - 1))%nat with (n - m)%nat by lia. rewrite Nat.sub_0_r.
    field. apply not_0_INR. lia.
  Qed.
End Reversal.

(** ** Examples: a Li atom moving along x beside a resting O atom *)
Definition walk (s : nat -> R) (f a : nat) : V3 R := match a with O => mkV (s f) 0%R 0%R | _ => zero3 end.
Definition gentle (s : nat -> R) : Prop := forall f, (- (1 / 2) < s (S f) - s f < 1 / 2)%R.
Definition walk_params : ModelParser.Params R := hop_params 1 (PyFloat 1%R) (upto 2 2).
Lemma walk_small s n : gentle s -> small_steps n 2 1 (walk s).
Proof.
  intros H f a _ Ha. rewrite !Nat.mul_1_r. unfold walk, within_half. specialize (H f). destruct a; cbn [vx vy vz minus3 zero3]; lra.
Qed.
Lemma walk_square s f g : square_between all_axes 2 1 (fun f b => cart unit_cell (walk s f b)) [0] [1] f g = ((s g - s f) * (s g - s f))%R.
Proof.
  unfold square_between. cbn [map]. unfold average. cbn [length]. change (site 2 0) with 0%nat. rewrite !Nat.mul_1_r.
  unfold relative_displacement, average3. cbn [map]. change (site 2 1) with 1%nat. unfold average.
  cbn [walk zero3 cart unit_cell minus3 vx vy vz length map rsum fold_right sqlen all_axes coord]. unfold sqlen, all_axes. cbn. field.
Qed.
Lemma dt_shown {G Seed RS} (X : Ext R G Seed RS) u dts (disps : list (Arr R)) n_o g b g' : u_sub_sample_dt u = 1 ->
  msd_bootstrap X u dts disps n_o g = Ok (b, g') -> Forall (fun d => 1 < length (entries d))%nat disps -> b_dt b = firstn (length disps) dts.
Proof.
  intros Hk H Hd. destruct (msd_run X u dts disps n_o g b g' ltac:(lia) H) as (axes & shown & N1 & N2 & N3 & N4 & N5 & N6).
  rewrite (br_dt _ _ _ _ _ _ _ _ _ _ N6). destruct (br_shown _ _ _ _ _ _ _ _ _ _ N6) as (rest & E & F1 & F2).
  rewrite Hk in N3, N4. change (Z.to_nat 1) with 1%nat in N3, N4. apply sub_sample_id in N3, N4. rewrite N3 in E. rewrite N4.
  destruct rest as [|r rest]; [now rewrite E, app_nil_r|]. exfalso. inversion F2 as [|? ? K _]; subst. apply K. unfold msd_values. rewrite map_length.
  rewrite Forall_forall in Hd. apply Hd. rewrite E. apply in_or_app. right. now left.
Qed.
Lemma walk_read circ s : gentle s -> exists p,
  faithful_read Ase circ unit_cell ["Li"; "O"]%string 1%R 4 2 1 (walk s) walk_params p
  /\ p_intervals p = [1; 2] /\ p_indices p = [0] /\ p_drift_indices p = [1] /\ p_delta_t p = [1; 2]%R /\ length (p_disp_3d p) = 2%nat /\ length (p_n_o p) = 2%nat
  /\ Forall (fun d => 1 < length (entries d))%nat (p_disp_3d p) /\ Forall (fun d => 1 < a_obs d)%nat (p_disp_3d p).
Proof.
  intros HG.
  assert (K : exists p, ase_parser geomspace_R circ (frames_of ["Li"; "O"]%string 1%R 4 2 (walk s) (fun _ => unit_cell)) walk_params = Ok p
    /\ p_intervals p = [1; 2] /\ p_indices p = [0] /\ p_drift_indices p = [1] /\ p_delta_t p = [1; 2]%R /\ length (p_disp_3d p) = 2%nat /\ length (p_n_o p) = 2%nat
    /\ Forall (fun d => 1 < length (entries d))%nat (p_disp_3d p) /\ Forall (fun d => 1 < a_obs d)%nat (p_disp_3d p)).
  { rewrite (ase_run geomspace_R circ unit_cell _ _ 4 2 1 (walk s) _ ["Li"%string] [0] [1])
      by (first [exact unit_cell_volume | now apply walk_small | lia | reflexivity]).
    unfold walk_params, upto. cbn [hop_params a_time_step pynum_val a_step_skip a_opts]. rewrite kept_one.
    rewrite (parser_init_ints geomspace_R 2 4 _ [0] [1] 1 2 2 "multi-origin" 8 8) by (first [repeat constructor; cbn; lia | lia]).
    change (tab _ (lin _ 2 _)) with (map Z.of_nat [1;2]%nat).
    rewrite get_disps_multi' by (repeat constructor; cbn; lia).
    assert (E' : Rltb 8 (in_gigabytes (fold_right Z.add 0 (map (estimate (length [0]) 4 8) [1;2]%nat))) = false).
    { apply Rltb_false. unfold in_gigabytes. cbn. lra. }
    rewrite E'. cbn [bind]. eexists. split; [reflexivity|]. do 3 (split; [reflexivity|]).
    split; [cbn; repeat f_equal; lra|]. split; [reflexivity|]. split; [reflexivity|]. split; repeat constructor. }
  destruct K as (p & H & E1 & E2 & E3 & E4). exists p. split; [|auto].
  split; try (first [exact unit_cell_volume | reflexivity | lia | now apply walk_small]).
  - left. discriminate.
  - rewrite kept_one. split; unfold min_time, max_time; cbn; try lra; try lia. now left.
  - rewrite E2. repeat constructor; cbn; lia.
  - rewrite E3. repeat constructor; cbn; lia.
  - exists no_image. cbn [parser_by handed_over]. rewrite (frames_of_ext _ _ _ _ _ _ _ (no_image_id (walk s))). exact H.
Qed.
Lemma walk_run G Seed RS (X : Ext R G Seed RS) circ (g : G) s : gentle s -> exists p an,
  faithful_read Ase circ unit_cell ["Li"; "O"]%string 1%R 4 2 1 (walk s) walk_params p
  /\ p_intervals p = [1; 2] /\ p_indices p = [0] /\ p_drift_indices p = [1]
  /\ diffusion_analyzer X (of_parsed p) (demo_boot 1 "xyz") g = Ok (an, g) /\ b_dt (an_diff an) = [1; 2]%R.
Proof.
  intros HG. destruct (walk_read circ s HG) as (p & F & E1 & E2 & E3 & E4 & E5 & E6 & E7 & _). exists p.
  destruct (msd_total X (demo_boot 1 "xyz") (p_delta_t p) (p_disp_3d p) (p_n_o p) all_axes g eq_refl eq_refl names_xyz) as (b & B).
  { intros C. rewrite C in E5. discriminate. } { exact E7. } { rewrite E4, E5. cbn. lia. } { rewrite E5, E6. lia. }
  exists (mkAn (of_parsed p) b). split; [exact F|]. do 3 (split; [assumption|]). split.
  - unfold diffusion_analyzer. cbn [of_parsed an_delta_t an_disp_3d an_n_o]. rewrite B. reflexivity.
  - cbn [an_diff]. rewrite (dt_shown X (demo_boot 1 "xyz") _ _ _ _ _ _ eq_refl B E7), E4, E5. reflexivity.
Qed.

(** What is reported for the walk, and its true value. *)
Definition walked {G Seed RS} (X : Ext R G Seed RS) circ (g : G) (s : nat -> R) (p : Parsed R) (an : Analyzer R) : Prop :=
  faithful_read Ase circ unit_cell ["Li"; "O"]%string 1%R 4 2 1 (walk s) walk_params p
  /\ p_intervals p = [1; 2] /\ p_indices p = [0] /\ p_drift_indices p = [1]
  /\ diffusion_analyzer X (of_parsed p) (demo_boot 1 "xyz") g = Ok (an, g) /\ b_dt (an_diff an) = [1; 2]%R.
Lemma walked_values {G Seed RS} (X : Ext R G Seed RS) circ (g : G) s p an : walked X circ g s p an ->
  let d f l := ((s (f + l)%nat - s f) * (s (f + l)%nat - s f))%R in
  nth_error (b_n (an_diff an)) 0 = Some ((d 0%nat 1%nat + d 1%nat 1%nat + d 2%nat 1%nat) / 4)%R
  /\ nth_error (b_n (an_diff an)) 1 = Some ((d 0%nat 1%nat + d 0%nat 2%nat + d 1%nat 2%nat) / 3)%R.
Proof.
  intros (F & E1 & E2 & E3 & H & Ht) d. split.
  - destruct (C81_reported_proof X _ _ _ _ _ _ _ _ _ _ _ (demo_boot 1 "xyz") _ _ _ _ F eq_refl eq_refl names_xyz H 0%nat 1%R ltac:(now rewrite Ht)) as (m & D1 & _ & _ & D).
    rewrite E1 in D1. injection D1 as D1. assert (m = 1%nat) by (cbn in D1; lia). subst m. cbv zeta in D. rewrite D. f_equal.
    rewrite true_total, E2, E3, kept_one. cbn [Nat.sub seq map]. rewrite !walk_square. unfold d. cbn [rsum fold_right Nat.add INR]. field.
  - destruct (C81_reported_proof X _ _ _ _ _ _ _ _ _ _ _ (demo_boot 1 "xyz") _ _ _ _ F eq_refl eq_refl names_xyz H 1%nat 2%R ltac:(now rewrite Ht)) as (m & D1 & _ & _ & D).
    rewrite E1 in D1. injection D1 as D1. assert (m = 2%nat) by (cbn in D1; lia). subst m. cbv zeta in D. rewrite D. f_equal.
    rewrite true_total, E2, E3, kept_one. cbn [Nat.sub seq map]. rewrite !walk_square. unfold d. cbn [rsum fold_right Nat.add INR]. field.
Qed.
Definition steady (f : nat) : R := (INR f / 10)%R.
Lemma steady_gentle : gentle steady.
Proof. intros f. unfold steady. rewrite S_INR. lra. Qed.
Lemma C81_refuted_proof : forall G Seed RS (X : Ext R G Seed RS) circ (g : G), exists x a p an,
  faithful_read Ase circ unit_cell ["Li"; "O"]%string 1%R 4 2 1 x a p
  /\ diffusion_analyzer X (of_parsed p) (demo_boot 1 "xyz") g = Ok (an, g)
  /\ nth_error (p_intervals p) 0 = Some 1 /\ nth_error (b_dt (an_diff an)) 0 = Some 1%R
  /\ nth_error (b_n (an_diff an)) 0 = Some (3 / 400)%R
  /\ true_msd all_axes 2 1 (fun f b => cart unit_cell (x f b)) (p_indices p) (p_drift_indices p) 4 1 = (1 / 100)%R.
Proof.
  intros G Seed RS X circ g. destruct (walk_run G Seed RS X circ g steady steady_gentle) as (p & an & W).
  exists (walk steady), walk_params, p, an. destruct (walked_values X circ g steady p an W) as [V _]. destruct W as (F & E1 & E2 & E3 & H & Ht).
  split; [exact F|]. split; [exact H|]. split; [now rewrite E1|]. split; [now rewrite Ht|]. split.
  - rewrite V. f_equal. unfold steady. cbn [Nat.add INR]. field.
  - assert (T := true_total all_axes 2 1 (fun f b => cart unit_cell (walk steady f b)) (p_indices p) (p_drift_indices p) 4 1).
    rewrite E2, E3 in *. cbn [Nat.sub seq map] in T. rewrite !walk_square in T. unfold steady in T. cbn [rsum fold_right Nat.add INR] in T. unfold steady. lra.
Qed.
(** A Li atom going 1/10 right or left at every frame, all eight walks equally likely. *)
Definition toss (b : bool) : R := if b then (1 / 10)%R else (- (1 / 10))%R.
Definition tosses : list (bool * bool * bool) :=
  [(true,true,true);(true,true,false);(true,false,true);(true,false,false);(false,true,true);(false,true,false);(false,false,true);(false,false,false)].
Definition random_walk (e : bool * bool * bool) (f : nat) : R :=
  let '(a, b, c) := e in match f with O => 0 | S O => toss a | S (S O) => toss a + toss b | _ => toss a + toss b + toss c end%R.
Lemma random_gentle e : gentle (random_walk e).
Proof. destruct e as [[a b] c]. intros f. unfold random_walk, toss. destruct f as [|[|[|f]]], a, b, c; lra. Qed.
Lemma C81_expected_example_proof : forall G Seed RS (X : Ext R G Seed RS) circ (g : G), exists p an,
  (forall e, In e tosses -> faithful_read Ase circ unit_cell ["Li"; "O"]%string 1%R 4 2 1 (walk (random_walk e)) walk_params (p e))
  /\ (forall e, In e tosses -> exists t v, diffusion_analyzer X (of_parsed (p e)) (demo_boot 1 "xyz") g = Ok (an e, g)
       /\ nth_error (b_dt (an_diff (an e))) 1 = Some t /\ nth_error (b_n (an_diff (an e))) 1 = Some v)
  /\ (forall f l, (f + l < 4)%nat -> rsum (map (fun e => 1 / 8
        * square_between all_axes 2 1 (fun f b => cart unit_cell (walk (random_walk e) f b)) (p_indices (p e)) (p_drift_indices (p e)) f (f + l))%R tosses)
      = (1 / 100 * INR l)%R).
Proof.
  intros G Seed RS X circ g.
  assert (K : exists p an, forall e, In e tosses -> walked X circ g (random_walk e) (p e) (an e)).
  { assert (L : forall es, exists p an, forall e, In e es -> walked X circ g (random_walk e) (p e) (an e)).
    { induction es as [|e0 es (p & an & IH)].
      - destruct (walk_run G Seed RS X circ g steady steady_gentle) as (p & an & _). exists (fun _ => p), (fun _ => an). intros e [].
      - destruct (walk_run G Seed RS X circ g _ (random_gentle e0)) as (p0 & an0 & W).
        assert (D : forall e : bool * bool * bool, {e = e0} + {e <> e0}) by (intros; repeat decide equality).
        exists (fun e => if D e then p0 else p e), (fun e => if D e then an0 else an e). intros e [<-|He].
        + destruct (D e0); [exact W|congruence].
        + destruct (D e) as [->|_]; [exact W|now apply IH]. }
    apply L. }
  destruct K as (p & an & K). exists p, an. split; [intros e He; apply (K e He)|]. split.
  - intros e He. destruct (walked_values X circ g _ _ _ (K e He)) as [_ V]. destruct (K e He) as (_ & _ & _ & _ & H & Ht). do 2 eexists.
    split; [exact H|]. split; [now rewrite Ht|]. exact V.
  - intros f l Hl. rewrite (map_ext_in _ (fun e => 1 / 8 * ((random_walk e (f + l)%nat - random_walk e f) * (random_walk e (f + l)%nat - random_walk e f)))%R).
    2:{ intros e He. destruct (K e He) as (_ & _ & E2 & E3 & _). rewrite E2, E3, walk_square. reflexivity. }
    unfold tosses. destruct f as [|[|[|[|f]]]], l as [|[|[|[|l]]]]; try (exfalso; lia); cbn [Nat.add map random_walk toss rsum fold_right INR]; lra.
Qed.

(** 0, 1/10, 1/10, 3/10 *)
Definition uneven (f : nat) : R := match f with O => 0 | S (S (S _)) => 3 / 10 | _ => 1 / 10 end%R.
Lemma uneven_gentle : gentle uneven. Proof. intros [|[|[|f]]]; unfold uneven; lra. Qed.
Lemma uneven_back_gentle : gentle (fun f => uneven (3 - f)). Proof. intros [|[|[|f]]]; cbn [Nat.sub]; unfold uneven; try lra; destruct f; lra. Qed.
Lemma C82_refuted_proof : forall G Seed RS (X : Ext R G Seed RS) circ (g : G), exists x a p an p' an' v v',
  faithful_read Ase circ unit_cell ["Li"; "O"]%string 1%R 4 2 1 x a p
  /\ faithful_read Ase circ unit_cell ["Li"; "O"]%string 1%R 4 2 1 (fun f => x (4 - 1 - f)%nat) a p'
  /\ diffusion_analyzer X (of_parsed p) (demo_boot 1 "xyz") g = Ok (an, g)
  /\ diffusion_analyzer X (of_parsed p') (demo_boot 1 "xyz") g = Ok (an', g)
  /\ nth_error (b_dt (an_diff an)) 1 = Some 2%R /\ nth_error (b_dt (an_diff an')) 1 = Some 2%R
  /\ nth_error (b_n (an_diff an)) 1 = Some v /\ nth_error (b_n (an_diff an')) 1 = Some v' /\ v = (1 / 50)%R /\ v' = (3 / 100)%R.
Proof.
  intros G Seed RS X circ g. destruct (walk_run G Seed RS X circ g uneven uneven_gentle) as (p & an & W).
  destruct (walk_run G Seed RS X circ g _ uneven_back_gentle) as (p' & an' & W').
  destruct (walked_values X circ g _ p an W) as [_ V]. destruct (walked_values X circ g _ p' an' W') as [_ V'].
  destruct W as (F & E1 & E2 & E3 & H & Ht). destruct W' as (F' & E1' & E2' & E3' & H' & Ht').
  exists (walk uneven), walk_params, p, an, p', an'. do 2 eexists. split; [exact F|]. split.
  { exact F'. }
  split; [exact H|]. split; [exact H'|]. split; [now rewrite Ht|]. split; [now rewrite Ht'|]. split; [exact V|]. split; [exact V'|].
  split; cbn [Nat.add Nat.sub uneven]; lra.
Qed.
Lemma C81_diffusive_proof : forall G Seed RS (X : Ext R G Seed RS) (E : Type) (es : list E) (w : E -> R) x (p : E -> Parsed R) (an : E -> Analyzer R) (v : E -> R)
    i circ cell types vol n natoms k a u axes j (c : R), es <> [] ->
  (forall e, In e es -> faithful_read i circ cell types vol n natoms k (x e) a (p e)) ->
  0 < u_sub_sample_dt u -> u_block u = false -> names (pystr_text (u_dimension u)) axes ->
  (forall e, In e es -> exists g g' t, diffusion_analyzer X (of_parsed (p e)) u g = Ok (an e, g')
     /\ nth_error (b_dt (an_diff (an e))) j = Some t /\ nth_error (b_n (an_diff (an e))) j = Some (v e)) ->
  (forall f l, (f + l < kept n k)%nat -> rsum (map (fun e => w e
      * square_between axes natoms k (fun f b => cart cell (x e f b)) (p_indices (p e)) (p_drift_indices (p e)) f (f + l))%R es) = (c * INR l)%R) ->
  exists m, (0 < m <= kept n k)%nat /\ (forall e, In e es -> nth_error (p_intervals (p e)) (j * Z.to_nat (u_sub_sample_dt u)) = Some (Z.of_nat m))
    /\ rsum (map (fun e => w e * v e)%R es) = (c * (INR m - 1 / INR (kept n k - m + 1)))%R.
Proof.
  intros G Seed RS X E es w x p an v i circ cell types vol n natoms k a u axes j c H1 H2 H3 H4 H5 H6 H7.
  destruct (C81_expected_proof X es w x p an v i circ cell types vol n natoms k a u axes j (fun l => c * INR l)%R H1 H2 H3 H4 H5 H6 H7) as (m & M1 & M2 & M3).
  exists m. split; [exact M1|]. split; [exact M2|]. rewrite M3. rewrite (minus_INR m 1), plus_INR by lia. cbn [INR].
  assert (0 <= INR (kept n k - m))%R by apply pos_INR. field. lra.
Qed.
