(** * ProofsGrid: C78 *)
From Verif Require Import Base Spec SpecParser SpecStats ModelParser ModelDiffusion ModelHdf ModelAnalyzer
  Lemmas ProofsDisp ProofsIntervals ProofsWindows ProofsParser ProofsTraj ProofsBoot ProofsStats ProofsFit ProofsAnalyzer ProofsShape SpecRun SpecGrid.
From Coq Require Import Reals Lra Lia Sorting.Sorted.
Open Scope Z_scope.

(** ** Shapes of multi-origin windows *)
Lemma py_index_le {A} (l : list A) i x : 0 <= i -> py_index l i = Ok x -> i < Z.of_nat (length l).
Proof.
  intros Hi H. unfold py_index in H. destruct (i <? 0) eqn:E; [apply Z.ltb_lt in E; lia|].
  destruct ((0 <=? i) && (i <? Z.of_nat (length l)))%bool eqn:F; [|discriminate]. apply andb_prop in F as [_ F]. now apply Z.ltb_lt in F.
Qed.
Lemma multi_origin_inv ti (sel : list (list (V3 R))) T d : 0 < ti -> multi_origin ti sel T = Ok d ->
  Z.of_nat (a_obs d) = 1 + (Z.of_nat T - ti) /\ length (a_rows d) = length sel /\ ti <= Z.of_nat T.
Proof.
  intros Hp H. unfold multi_origin in H. inv_bind H shape E1. inv_bind H u E2. inv_bind H rows E3. injection H as <-.
  cbn [a_obs a_rows]. apply mapM_length in E3. apply py_index_le in E2; [|lia]. rewrite seq_length in E2.
  split; [|split; [congruence|lia]].
  assert (L : length shape = (T - Z.to_nat ti)%nat).
  { unfold broadcast2 in E1. unfold py_from, py_to, py_bound in E1. rewrite !skipn_length, !firstn_length, !seq_length in E1.
    destruct (ti <? 0) eqn:N1; [apply Z.ltb_lt in N1; lia|]. destruct (- ti <? 0) eqn:N2; [|apply Z.ltb_ge in N2; lia].
    replace (Z.to_nat (Z.min (Z.of_nat T) (Z.max 0 ti))) with (Z.to_nat ti) in E1 by lia.
    replace (Z.to_nat (Z.min (Z.of_nat T) (Z.max 0 (- ti + Z.of_nat T)))) with (T - Z.to_nat ti)%nat in E1 by lia.
    destruct (Nat.eqb _ _) eqn:N3; [|apply Nat.eqb_neq in N3; lia].
    injection E1 as <-. rewrite zip_with_length, skipn_length, firstn_length, seq_length. lia. }
  rewrite Nat2Z.inj_succ, L. lia.
Qed.
Lemma stride_count_mono ti tj n m c c' : 0 < ti <= tj -> (m <= n)%nat -> stride_count ti n = Ok c -> stride_count tj m = Ok c' -> c' <= c.
Proof.
  intros Ht Hm. unfold stride_count. destruct (ti =? 0) eqn:E1; [apply Z.eqb_eq in E1; lia|]. destruct (tj =? 0) eqn:E2; [apply Z.eqb_eq in E2; lia|].
  intros [= <-] [= <-]. rewrite !Z.abs_eq by lia.
  replace (Z.of_nat m + tj - 1) with ((Z.of_nat m - 1) + 1 * tj) by lia. replace (Z.of_nat n + ti - 1) with ((Z.of_nat n - 1) + 1 * ti) by lia.
  rewrite !Z.div_add by lia. apply Zplus_le_compat_r. destruct m as [|m].
  - destruct n as [|n]; cbn [Z.of_nat]. + replace (0 - 1) with (-1) by lia.
      assert (-1 / tj = -1) by (symmetry; apply Z.div_unique with (tj - 1); lia). assert (-1 / ti = -1) by (symmetry; apply Z.div_unique with (ti - 1); lia). lia.
    + assert (-1 / tj = -1) by (symmetry; apply Z.div_unique with (tj - 1); lia). change (0 - 1) with (-1). rewrite H.
      assert (0 <= (Z.pos (Pos.of_succ_nat n) - 1) / ti) by (apply Z.div_pos; lia). lia.
  - transitivity ((Z.of_nat (S m) - 1) / ti); [apply Z.div_le_compat_l; lia|apply Z.div_le_mono; lia].
Qed.

(** ** The loop over the intervals *)
Lemma nth_nil {A} k : nth_error (@nil A) k = None.
Proof. now destruct k. Qed.
Definition skip (n : nat) (cnt : Z) : bool := (Z.of_nat n * cnt <=? 1).
Lemma loop_nothing (sel : list (list (V3 R))) T lst ti d c : 0 < ti -> multi_origin ti sel T = Ok d -> stride_count ti (a_obs d) = Ok c ->
  skip (length (a_rows d)) c = true -> forall tis i r, Forall (Z.le ti) tis -> disps_loop "multi-origin" sel T lst i tis = Ok r -> r = ([], []).
Proof.
  intros Hp H1 H2 H3. induction tis as [|tj tis IH]; intros i r HF H; cbn [disps_loop] in H; [congruence|].
  inversion HF as [|? ? Hj HF']; subst. inv_bind H dj E1. inv_bind H cj E2. inv_bind H t E3. rewrite (IH _ _ HF' E3) in H.
  change (window "multi-origin" i tj sel T) with (multi_origin tj sel T) in E1.
  destruct (multi_origin_inv _ _ _ _ Hp H1) as (O1 & L1 & B1). destruct (multi_origin_inv _ _ _ _ (Z.lt_le_trans _ _ _ Hp Hj) E1) as (O2 & L2 & B2).
  assert (C : cj <= c) by (eapply stride_count_mono; [| |exact H2|exact E2]; lia).
  unfold skip in H3. apply Z.leb_le in H3. rewrite L2 in H. rewrite L1 in H3.
  destruct (_ <=? 1) eqn:E; [congruence|]. apply Z.leb_gt in E. nia.
Qed.
Lemma loop_aligned (sel : list (list (V3 R))) T lst tis : ascending tis -> forall i r, disps_loop "multi-origin" sel T lst i tis = Ok r ->
  forall k ti, nth_error tis k = Some ti -> exists d c, multi_origin ti sel T = Ok d /\ stride_count ti (a_obs d) = Ok c
    /\ nth_error (fst r) k = (if skip (length (a_rows d)) c then None else Some d)
    /\ nth_error (snd r) k = (if skip (length (a_rows d)) c then None else Some (INR (length (a_rows d)) * IZR lst / IZR ti)%R).
Proof.
  intros [HP HS]. induction tis as [|ti tis IH]; intros i r H k tk Hk; [now rewrite nth_nil in Hk|].
  inversion HP as [|? ? HP1 HP2]; subst. inversion HS as [|? ? HS1 HS2]; subst. specialize (IH HP2 HS1).
  cbn [disps_loop] in H. inv_bind H d E1. inv_bind H c E2. inv_bind H t E3. fold (skip (length (a_rows d)) c) in H.
  change (window "multi-origin" i ti sel T) with (multi_origin ti sel T) in E1.
  destruct (skip (length (a_rows d)) c) eqn:ES.
  - injection H as <-. assert (N := loop_nothing _ _ _ _ _ _ HP1 E1 E2 ES _ _ _ HS2 E3). destruct k as [|k].
    + injection Hk as <-. exists d, c. rewrite N, ES. cbn [fst snd nth_error]. auto.
    + destruct (IH _ _ E3 k tk Hk) as (d' & c' & I1 & I2 & I3 & I4). exists d', c'. split; [exact I1|]. split; [exact I2|].
      subst t. cbn [fst snd] in *. rewrite nth_nil in I3. rewrite nth_nil in I4. split; [exact I3|exact I4].
  - injection H as <-. destruct k as [|k].
    + injection Hk as <-. exists d, c. rewrite ES. cbn [fst snd nth_error]. split; [exact E1|]. split; [exact E2|]. split; [reflexivity|]. f_equal. now rewrite <- INR_IZR_INZ.
    + cbn [nth_error] in Hk. cbn [fst snd nth_error]. exact (IH _ _ E3 k tk Hk).
Qed.

(** ** The parsers *)
Record grid (p p' : Parsed R) : Prop := {
  gr_idx : p_indices p' = p_indices p;
  gr_disp : forall k k' n, nth_error (p_intervals p) k = Some n -> nth_error (p_intervals p') k' = Some n ->
    nth_error (p_disp_3d p) k = nth_error (p_disp_3d p') k';
  gr_delta : forall k k' n, nth_error (p_intervals p) k = Some n -> nth_error (p_intervals p') k' = Some n ->
    exists t, nth_error (p_delta_t p) k = Some t /\ nth_error (p_delta_t p') k' = Some t;
  gr_n_o : forall k k' n, nth_error (p_intervals p) k = Some n -> nth_error (p_intervals p') k' = Some n ->
    forall c, nth_error (p_n_o p) k = Some c -> exists c' N, nth_error (p_n_o p') k' = Some c' /\ (0 < N)%R
      /\ c = (N * longest p / IZR n)%R /\ c' = (N * longest p' / IZR n)%R;
  gr_inj : forall k k' t, nth_error (p_delta_t p) k = Some t -> nth_error (p_delta_t p') k' = Some t ->
    exists n, nth_error (p_intervals p) k = Some n /\ nth_error (p_intervals p') k' = Some n }.

Lemma get_disps_grid (ts : R) ss idx mem isz tis dc r : ascending tis -> get_disps ts ss idx "multi-origin" mem isz tis dc = Ok r ->
  fst (fst r) = map (fun ti => (IZR ti * ts * IZR ss)%R) tis
  /\ forall k ti, nth_error tis k = Some ti -> exists sel d c, gather (a_rows dc) idx = Ok sel /\ multi_origin ti sel (a_obs dc) = Ok d /\ stride_count ti (a_obs d) = Ok c
    /\ nth_error (snd (fst r)) k = (if skip (length (a_rows d)) c then None else Some d)
    /\ nth_error (snd r) k = (if skip (length (a_rows d)) c then None else Some (INR (length (a_rows d)) * IZR (last tis 0%Z) / IZR ti)%R).
Proof.
  intros HA H. unfold get_disps in H. destruct tis as [|t0 tis].
  - destruct (_ <? _)%num; [discriminate|]. injection H as <-. split; [reflexivity|]. intros k ti Hk. now rewrite nth_nil in Hk.
  - inv_bind H sel S. destruct (_ <? _)%num; [discriminate|]. inv_bind H l L. injection H as <-. split; [reflexivity|].
    intros k ti Hk. destruct (loop_aligned _ _ _ _ HA _ _ L k ti Hk) as (d & c & H1 & H2 & H3 & H4). exists sel, d, c. auto.
Qed.
Lemma init_grid geo (disp : Arr R) I D (ts : R) ss o o' p p' :
  o_sampling o = "multi-origin"%string -> o_sampling o' = "multi-origin"%string ->
  parser_init geo disp I D ts ss o = Ok p -> parser_init geo disp I D ts ss o' = Ok p' ->
  ascending (p_intervals p) -> ascending (p_intervals p') -> grid p p'.
Proof.
  intros S S' H H' A A'. unfold parser_init in H, H'. inv_bind H dc E1. inv_bind H' dc' E1'. assert (dc' = dc) by congruence. subst dc'.
  inv_bind H q E2. inv_bind H z E3. inv_bind H' q' E2'. inv_bind H' z' E3'.
  destruct (_ <=? z); [discriminate|]. destruct (_ <=? z'); [discriminate|].
  inv_bind H tis E4. inv_bind H' tis' E4'. inv_bind H r E5. inv_bind H' r' E5'. injection H as <-. injection H' as <-.
  rewrite S in E5. rewrite S' in E5'. cbn [p_intervals] in A, A'.
  destruct (get_disps_grid _ _ _ _ _ _ _ _ A E5) as [F1 F2]. destruct (get_disps_grid _ _ _ _ _ _ _ _ A' E5') as [F1' F2'].
  assert (U : (IZR ss * ts <> 0)%R).
  { intros Z. unfold py_div in E2. numR. rewrite (proj2 (neqb_R_true _ _)) in E2 by exact Z. discriminate. }
  split; unfold longest; cbn [p_intervals p_disp_3d p_delta_t p_n_o p_indices]; [reflexivity|..].
  - intros k k' n Hk Hk'. destruct (F2 k n Hk) as (sel & d & c & G1 & G2 & G3 & G4 & G5). destruct (F2' k' n Hk') as (sel' & d' & c' & G1' & G2' & G3' & G4' & G5').
    assert (sel' = sel) by congruence. subst. assert (d' = d) by congruence. subst. assert (c' = c) by congruence. subst. congruence.
  - intros k k' n Hk Hk'. rewrite F1, F1', !nth_error_map, Hk, Hk'. cbn. eauto.
  - intros k k' n Hk Hk' x Hx. destruct (F2 k n Hk) as (sel & d & c & G1 & G2 & G3 & G4 & G5). destruct (F2' k' n Hk') as (sel' & d' & c' & G1' & G2' & G3' & G4' & G5').
    assert (sel' = sel) by congruence. subst. assert (d' = d) by congruence. subst. assert (c' = c) by congruence. subst.
    rewrite G5 in Hx. rewrite G5'. destruct (skip (length (a_rows d)) c) eqn:ES; [discriminate|]. injection Hx as <-.
    exists (INR (length (a_rows d)) * IZR (last tis' 0%Z) / IZR n)%R, (INR (length (a_rows d))). split; [reflexivity|]. split; [|auto].
    apply lt_0_INR. destruct (length (a_rows d)); [discriminate ES|lia].
  - intros k k' t Hk Hk'. rewrite F1, nth_error_map in Hk. rewrite F1', nth_error_map in Hk'.
    destruct (nth_error tis k) as [n|] eqn:N; [|discriminate]. destruct (nth_error tis' k') as [n'|] eqn:N'; [|discriminate].
    injection Hk as Hk. injection Hk' as Hk'. exists n. split; [reflexivity|]. f_equal. apply eq_IZR.
    assert (Z : ((IZR n' - IZR n) * (IZR ss * ts) = 0)%R) by (rewrite <- Hk in Hk'; lra). apply Rmult_integral in Z as [Z|Z]; [lra|contradiction].
Qed.
Lemma finish_grid geo circ st coords latt (a : ModelParser.Params R) ss o o' p p' :
  o_sampling o = "multi-origin"%string -> o_sampling o' = "multi-origin"%string ->
  finish_parse geo circ st coords latt (with_options o a) ss = Ok p -> finish_parse geo circ st coords latt (with_options o' a) ss = Ok p' ->
  ascending (p_intervals p) -> ascending (p_intervals p') -> grid p p'.
Proof.
  intros S S' H H' A A'. unfold finish_parse in H, H'.
  change (choose_atoms circ st coords (with_options o a)) with (choose_atoms circ st coords a) in H.
  change (choose_atoms circ st coords (with_options o' a)) with (choose_atoms circ st coords a) in H'.
  inv_bind H sel E1. rewrite E1 in H'. cbn [bind] in H'. inv_bind H disp E2. rewrite E2 in H'. cbn [bind] in H'.
  inv_bind H q E3. inv_bind H' q' E3'. injection H as <-. injection H' as <-. cbn [with_options a_time_step a_opts] in E3, E3'.
  cbn [set_volume p_intervals] in A, A'. destruct (init_grid _ _ _ _ _ _ _ _ _ _ S S' E3 E3' A A') as [G0 G1 G2 G3 G4].
  split; assumption.
Qed.
Ltac seen a o := try change (a_sub_sample_traj (with_options o a)) with (a_sub_sample_traj a) in *;
  try change (a_step_skip (with_options o a)) with (a_step_skip a) in *;
  try change (a_sub_sample_atoms (with_options o a)) with (a_sub_sample_atoms a) in *;
  try change (a_time_step (with_options o a)) with (a_time_step a) in *.
Lemma parsers_grid (parse : parser_of) geo circ t (a : ModelParser.Params R) o o' p p' : In parse parsers ->
  o_sampling o = "multi-origin"%string -> o_sampling o' = "multi-origin"%string ->
  parse geo circ t (with_options o a) = Ok p -> parse geo circ t (with_options o' a) = Ok p' ->
  ascending (p_intervals p) -> ascending (p_intervals p') -> grid p p'.
Proof.
  intros HP S S' H H' A A'. destruct HP as [<-|[<-|[<-|[]]]].
  - unfold ase_parser in *. seen a o. seen a o'. inv_bind H x E. rewrite E in H'. destruct x as [[st co] la]. cbn [bind] in H'.
    exact (finish_grid _ _ _ _ _ _ _ _ _ _ _ S S' H H' A A').
  - unfold pymatgen_parser in *. seen a o. seen a o'. inv_bind H x E. rewrite E in H'. destruct x as [[st co] la]. cbn [bind] in H'.
    inv_bind H q E3. inv_bind H' q' E3'. destruct (a_time_step a); try discriminate. injection H as <-. injection H' as <-.
    cbn [set_delta_t p_intervals] in A, A'. destruct (finish_grid _ _ _ _ _ _ _ _ _ _ _ S S' E3 E3' A A') as [G0 G1 G2 G3 G4].
    split; cbn [set_delta_t p_intervals p_disp_3d p_delta_t p_n_o]; unfold longest in *; cbn [set_delta_t p_intervals]; try assumption.
    + intros k k' n Hk Hk'. rewrite !nth_error_map. destruct (G2 k k' n Hk Hk') as (t0 & -> & ->). cbn. eauto.
    + intros k k' t0 Hk Hk'. rewrite nth_error_map in Hk, Hk'.
      destruct (nth_error (p_delta_t q) k) as [x|] eqn:X; [|discriminate]. destruct (nth_error (p_delta_t q') k') as [y|] eqn:Y; [|discriminate].
      injection Hk as Hk. injection Hk' as Hk'. assert (y = x) by (numR; lra). subst y. eapply G4; eassumption.
  - unfold mda_parser in *. seen a o. seen a o'. inv_bind H u0 E0. inv_bind H' u0' E0'. inv_bind H x E. rewrite E in H'. destruct x as [[st co] la]. cbn [bind] in H'.
    exact (finish_grid _ _ _ _ _ _ _ _ _ _ _ S S' H H' A A').
Qed.

(** ** The analysers *)
Section Analysers.
  Context {G Seed RS : Type} (X : Ext R G Seed RS).
  Lemma report_entry u ns n_o axes Qf m shown b k (disps : list (Arr R)) dts i t : u_block u = false ->
    sub_sample k disps (b_displacements b) -> sub_sample k dts (b_delta_t b) ->
    boot_report X u ns n_o (b_delta_t b) axes Qf (firstn m (b_displacements b)) shown b -> nth_error (b_dt b) i = Some t ->
    exists d no, nth_error disps (i * k) = Some d /\ nth_error dts (i * k) = Some t
      /\ nth_error (b_n b) i = Some (average (Qf d)) /\ nth_error (b_ngp b) i = Some (non_gaussian (map (sqlen axes) (entries d)))
      /\ nth_error (b_euclidian b) i = Some (map (fun v => x_sqrt X (sqlen axes v)) (entries d))
      /\ nth_error n_o i = Some no /\ nth_error (b_v b) i = Some (sample_variance (Qf d) / ns no (length (a_rows d)))%R.
  Proof.
    intros HB S1 S2 H Ht. assert (L := br_dt_len _ _ _ _ _ _ _ _ _ _ H).
    assert (Hi : (i < length shown)%nat) by (rewrite <- L; apply nth_error_Some; congruence).
    destruct (nth_error shown i) as [d|] eqn:Ed; [|apply nth_error_None in Ed; lia].
    destruct (br_v _ _ _ _ _ _ _ _ _ _ H HB i d Ed) as (no & N1 & V1). exists d, no.
    split; [|split].
    - destruct (br_shown _ _ _ _ _ _ _ _ _ _ H) as (rest & E & _). rewrite <- S1.
      assert (E2 : nth_error (firstn m (b_displacements b)) i = Some d) by (rewrite E, nth_error_app1; assumption).
      assert (i < m)%nat. { assert (i < length (firstn m (b_displacements b)))%nat by (apply nth_error_Some; congruence). rewrite firstn_length in *. lia. }
      rewrite firstn_nth in E2 by assumption. exact E2.
    - rewrite <- S2. rewrite (br_dt _ _ _ _ _ _ _ _ _ _ H), firstn_nth in Ht by assumption. exact Ht.
    - rewrite (br_n _ _ _ _ _ _ _ _ _ _ H HB), (br_ngp _ _ _ _ _ _ _ _ _ _ H), (br_eucl _ _ _ _ _ _ _ _ _ _ H), !nth_error_map, Ed. cbn. auto.
  Qed.
  Definition bare (no : R) (_ : nat) := no.
  Definition per_atom (no : R) (n : nat) := (no / INR n)%R.
  (** What the three classes have in common. *)
  Definition entry_of (axes : list axis) (d : AnalyzerData R) (k : nat) (ns : R -> nat -> R) (Qf : Arr R -> list R) (b : Boot R) : Prop :=
    forall i t, nth_error (b_dt b) i = Some t -> exists x no, nth_error (an_disp_3d d) (i * k) = Some x /\ nth_error (an_delta_t d) (i * k) = Some t
      /\ nth_error (b_n b) i = Some (average (Qf x)) /\ nth_error (b_ngp b) i = Some (non_gaussian (map (sqlen axes) (entries x)))
      /\ nth_error (b_euclidian b) i = Some (map (fun v => x_sqrt X (sqlen axes v)) (entries x))
      /\ nth_error (an_n_o d) i = Some no /\ nth_error (b_v b) i = Some (sample_variance (Qf x) / ns no (length (a_rows x)))%R.
  Lemma diffusion_entry d u g an g' : 0 < u_sub_sample_dt u -> u_block u = false -> diffusion_analyzer X d u g = Ok (an, g') ->
    exists axes, names (pystr_text (u_dimension u)) axes /\ entry_of axes d (Z.to_nat (u_sub_sample_dt u)) bare (msd_values axes) (an_diff an).
  Proof.
    intros Hk Hb H. unfold diffusion_analyzer in H. inv_bind H r E. destruct r as [b g1]. injection H as <- <-. cbn [an_diff].
    destruct (msd_run X u _ _ _ _ _ _ Hk E) as (axes & shown & N1 & N2 & N3 & N4 & N5 & N6). exists axes. split; [exact N1|].
    rewrite <- (firstn_all (b_displacements b)) in N6. intros i t Ht. exact (report_entry _ _ _ _ _ _ _ _ _ _ _ _ _ Hb N3 N4 N6 Ht).
  Qed.
  Lemma jump_entry d u g an g' : 0 < u_sub_sample_dt u -> u_block u = false -> Forall arr_wf (an_disp_3d d) -> jump_diffusion_analyzer X d u g = Ok (an, g') ->
    exists axes, names (pystr_text (u_dimension u)) axes /\ entry_of axes d (Z.to_nat (u_sub_sample_dt u)) per_atom (mstd_values axes) (an_diff an).
  Proof.
    intros Hk Hb W H. unfold jump_diffusion_analyzer in H. inv_bind H r E. destruct r as [b g1]. injection H as <- <-. cbn [an_diff].
    destruct (mstd_run X u _ _ _ _ _ _ Hk W E) as (axes & shown & N1 & N2 & N3 & N4 & N5 & N6). exists axes. split; [exact N1|].
    intros i t Ht. exact (report_entry _ _ _ _ _ _ _ _ _ _ _ _ _ Hb N3 N4 N6 Ht).
  Qed.
  Lemma conductivity_entry d q u g an g' n : 0 < u_sub_sample_dt u -> u_block u = false -> Forall arr_wf (an_disp_3d d) ->
    Forall (fun x => length (a_rows x) = n) (an_disp_3d d) -> (forall l, q = QArray l -> length l = n) ->
    conductivity_analyzer X d q u g = Ok (an, g') ->
    exists axes, names (pystr_text (u_dimension u)) axes /\ entry_of axes d (Z.to_nat (u_sub_sample_dt u)) per_atom (mscd_values (charges q n)) (an_diff an).
  Proof.
    intros Hk Hb W Hn Hq H. unfold conductivity_analyzer in H. inv_bind H r E. destruct r as [b g1]. injection H as <- <-. cbn [an_diff].
    destruct (mscd_run X u _ _ _ _ _ _ _ _ Hk W Hn Hq E) as (axes & shown & N1 & N2 & N3 & N4 & N5 & N6). exists axes. split; [exact N1|].
    intros i t Ht. exact (report_entry _ _ _ _ _ _ _ _ _ _ _ _ _ Hb N3 N4 N6 Ht).
  Qed.
  Lemma alike_entries d d' q u u' an an' n : 0 < u_sub_sample_dt u -> 0 < u_sub_sample_dt u' -> u_block u = false -> u_block u' = false ->
    pystr_text (u_dimension u) = pystr_text (u_dimension u') -> Forall arr_wf (an_disp_3d d) -> Forall arr_wf (an_disp_3d d') ->
    Forall (fun x => length (a_rows x) = n) (an_disp_3d d) -> Forall (fun x => length (a_rows x) = n) (an_disp_3d d') -> (forall l, q = QArray l -> length l = n) ->
    analysed_alike X d d' q u u' an an' ->
    exists axes ns Qf, entry_of axes d (Z.to_nat (u_sub_sample_dt u)) ns Qf (an_diff an) /\ entry_of axes d' (Z.to_nat (u_sub_sample_dt u')) ns Qf (an_diff an')
      /\ (ns = bare \/ ns = per_atom).
  Proof.
    intros Hk Hk' Hb Hb' Hd W W' Hn Hn' Hq (g & g' & h & h' & [[H H']|[[H H']|[H H']]]).
    - destruct (diffusion_entry _ _ _ _ _ Hk Hb H) as (ax & N & E). destruct (diffusion_entry _ _ _ _ _ Hk' Hb' H') as (ax' & N' & E').
      rewrite <- Hd in N'. rewrite (names_unique _ _ _ N' N) in E'. eauto 10.
    - destruct (jump_entry _ _ _ _ _ Hk Hb W H) as (ax & N & E). destruct (jump_entry _ _ _ _ _ Hk' Hb' W' H') as (ax' & N' & E').
      rewrite <- Hd in N'. rewrite (names_unique _ _ _ N' N) in E'. eauto 10.
    - destruct (conductivity_entry _ _ _ _ _ _ _ Hk Hb W Hn Hq H) as (ax & N & E). destruct (conductivity_entry _ _ _ _ _ _ _ Hk' Hb' W' Hn' Hq H') as (ax' & N' & E').
      rewrite <- Hd in N'. rewrite (names_unique _ _ _ N' N) in E'. eauto 10.
  Qed.
  Lemma grid_entries p p' k k' axes ns Qf b b' : grid p p' -> entry_of axes (of_parsed p) k ns Qf b -> entry_of axes (of_parsed p') k' ns Qf b' ->
    same_where_shared b_n b b' /\ same_where_shared b_ngp b b' /\ same_where_shared b_euclidian b b'.
  Proof.
    intros GR E E'.
    assert (K : forall i j t, nth_error (b_dt b) i = Some t -> nth_error (b_dt b') j = Some t ->
       nth_error (b_n b) i = nth_error (b_n b') j /\ nth_error (b_ngp b) i = nth_error (b_ngp b') j /\ nth_error (b_euclidian b) i = nth_error (b_euclidian b') j).
    { intros i j t Hi Hj. destruct (E i t Hi) as (x & no & F1 & F2 & F3 & F4 & F5 & _). destruct (E' j t Hj) as (x' & no' & F1' & F2' & F3' & F4' & F5' & _).
      cbn [of_parsed an_disp_3d an_delta_t] in *. destruct (gr_inj _ _ GR _ _ _ F2 F2') as (n & I1 & I2).
      rewrite (gr_disp _ _ GR _ _ _ I1 I2), F1' in F1. injection F1 as ->. split; [congruence|]. split; congruence. }
    repeat split; intros i j t Hi Hj; apply (K i j t Hi Hj).
  Qed.
  Lemma ascending_last l n k : ascending l -> nth_error l k = Some n -> 0 < n /\ 0 < last l 0.
  Proof.
    intros [HP _] Hk. rewrite Forall_forall in HP. split; [apply HP; eapply nth_error_In; eauto|].
    apply HP. assert (NE : l <> []) by (intros ->; now rewrite nth_nil in Hk).
    rewrite (app_removelast_last 0 NE) at 2. apply in_or_app. right. now left.
  Qed.
  Lemma grid_variances p p' axes ns Qf b b' : grid p p' -> ascending (p_intervals p) -> ascending (p_intervals p') -> ns = bare \/ ns = per_atom ->
    entry_of axes (of_parsed p) 1 ns Qf b -> entry_of axes (of_parsed p') 1 ns Qf b' ->
    forall i j t, nth_error (b_dt b) i = Some t -> nth_error (b_dt b') j = Some t ->
      exists v v', nth_error (b_v b) i = Some v /\ nth_error (b_v b') j = Some v' /\ (v * longest p = v' * longest p')%R.
  Proof.
    intros GR A A' HN E E' i j t Hi Hj. destruct (E i t Hi) as (x & no & F1 & F2 & _ & _ & _ & F6 & F7). destruct (E' j t Hj) as (x' & no' & F1' & F2' & _ & _ & _ & F6' & F7').
    cbn [of_parsed an_disp_3d an_delta_t an_n_o] in *. rewrite Nat.mul_1_r in *. destruct (gr_inj _ _ GR _ _ _ F2 F2') as (n & I1 & I2).
    rewrite (gr_disp _ _ GR _ _ _ I1 I2), F1' in F1. injection F1 as ->.
    destruct (gr_n_o _ _ GR _ _ _ I1 I2 _ F6) as (c' & N & C1 & C2 & C3 & C4). assert (no' = c') by congruence. subst no'.
    do 2 eexists. split; [exact F7|]. split; [exact F7'|].
    destruct (ascending_last _ _ _ A I1) as [P1 P2]. destruct (ascending_last _ _ _ A' I2) as [_ P3].
    apply IZR_lt in P1, P2, P3. fold (longest p) in P2. fold (longest p') in P3.
    destruct HN as [-> | ->]; unfold bare, per_atom; rewrite C3, C4.
    - field. repeat split; lra.
    - destruct (length (a_rows x)) as [|m] eqn:Em.
      + cbn [INR]. unfold Rdiv. rewrite Rinv_0. rewrite !Rmult_0_r, Rinv_0. ring.
      + assert (0 < INR (S m))%R by (apply lt_0_INR; lia). field. repeat split; lra.
  Qed.
End Analysers.

Lemma C78_displacements_proof : forall (parse : parser_of) geo circ t (a : ModelParser.Params R) o o' p p', In parse parsers ->
  o_sampling o = "multi-origin"%string -> o_sampling o' = "multi-origin"%string ->
  parse geo circ t (with_options o a) = Ok p -> parse geo circ t (with_options o' a) = Ok p' ->
  ascending (p_intervals p) -> ascending (p_intervals p') ->
  forall k k' n, nth_error (p_intervals p) k = Some n -> nth_error (p_intervals p') k' = Some n ->
    nth_error (p_disp_3d p) k = nth_error (p_disp_3d p') k' /\ nth_error (p_delta_t p) k = nth_error (p_delta_t p') k'.
Proof.
  intros parse geo circ t a o o' p p' HP S S' H H' A A' k k' n Hk Hk'. pose proof (parsers_grid _ _ _ _ _ _ _ _ _ HP S S' H H' A A') as [G0 G1 G2 G3 G4].
  split; [eapply G1; eassumption|]. destruct (G2 _ _ _ Hk Hk') as (x & -> & ->). reflexivity.
Qed.
Lemma C78_origins_proof : forall (parse : parser_of) geo circ t (a : ModelParser.Params R) o o' p p', In parse parsers ->
  o_sampling o = "multi-origin"%string -> o_sampling o' = "multi-origin"%string ->
  parse geo circ t (with_options o a) = Ok p -> parse geo circ t (with_options o' a) = Ok p' ->
  ascending (p_intervals p) -> ascending (p_intervals p') ->
  forall k k' n c, nth_error (p_intervals p) k = Some n -> nth_error (p_intervals p') k' = Some n -> nth_error (p_n_o p) k = Some c ->
    exists c', nth_error (p_n_o p') k' = Some c' /\ (c * longest p' = c' * longest p)%R.
Proof.
  intros parse geo circ t a o o' p p' HP S S' H H' A A' k k' n c Hk Hk' Hc. pose proof (parsers_grid _ _ _ _ _ _ _ _ _ HP S S' H H' A A') as [G0 G1 G2 G3 G4].
  destruct (G3 _ _ _ Hk Hk' _ Hc) as (c' & N & C1 & C2 & C3 & C4). exists c'. split; [exact C1|]. rewrite C3, C4. unfold Rdiv. ring.
Qed.
Lemma C78_statistics_proof : forall G Seed RS (X : Ext R G Seed RS) (parse : parser_of) circ t (a : ModelParser.Params R) o o' p p' q u u' an an', In parse parsers ->
  o_sampling o = "multi-origin"%string -> o_sampling o' = "multi-origin"%string ->
  parse geomspace_R circ t (with_options o a) = Ok p -> parse geomspace_R circ t (with_options o' a) = Ok p' ->
  ascending (p_intervals p) -> ascending (p_intervals p') ->
  0 < u_sub_sample_dt u -> 0 < u_sub_sample_dt u' -> u_block u = false -> u_block u' = false ->
  pystr_text (u_dimension u) = pystr_text (u_dimension u') -> (forall l, q = QArray l -> length l = length (p_indices p)) ->
  analysed_alike X (of_parsed p) (of_parsed p') q u u' an an' ->
  same_where_shared b_n (an_diff an) (an_diff an') /\ same_where_shared b_ngp (an_diff an) (an_diff an')
  /\ same_where_shared b_euclidian (an_diff an) (an_diff an').
Proof.
  intros G Seed RS X parse circ t a o o' p p' q u u' an an' HP S S' H H' A A' Hk Hk' Hb Hb' Hd Hq HA.
  pose proof (parsers_grid _ _ _ _ _ _ _ _ _ HP S S' H H' A A') as GR. assert (R' := parsers_rows _ _ _ _ _ HP H'). rewrite (gr_idx _ _ GR) in R'.
  destruct (alike_entries X (of_parsed p) (of_parsed p') q u u' an an' _ Hk Hk' Hb Hb' Hd (parsers_shapes _ _ _ _ _ _ HP H) (parsers_shapes _ _ _ _ _ _ HP H') (parsers_rows _ _ _ _ _ HP H) R' Hq HA)
    as (axes & ns & Qf & E & E' & _).
  exact (grid_entries X _ _ _ _ _ _ _ _ _ GR E E').
Qed.
Lemma C78_variances_proof : forall G Seed RS (X : Ext R G Seed RS) (parse : parser_of) circ t (a : ModelParser.Params R) o o' p p' q u u' an an', In parse parsers ->
  o_sampling o = "multi-origin"%string -> o_sampling o' = "multi-origin"%string ->
  parse geomspace_R circ t (with_options o a) = Ok p -> parse geomspace_R circ t (with_options o' a) = Ok p' ->
  ascending (p_intervals p) -> ascending (p_intervals p') ->
  u_sub_sample_dt u = 1 -> u_sub_sample_dt u' = 1 -> u_block u = false -> u_block u' = false ->
  pystr_text (u_dimension u) = pystr_text (u_dimension u') -> (forall l, q = QArray l -> length l = length (p_indices p)) ->
  analysed_alike X (of_parsed p) (of_parsed p') q u u' an an' ->
  forall i j x, nth_error (b_dt (an_diff an)) i = Some x -> nth_error (b_dt (an_diff an')) j = Some x ->
    exists v v', nth_error (b_v (an_diff an)) i = Some v /\ nth_error (b_v (an_diff an')) j = Some v' /\ (v * longest p = v' * longest p')%R.
Proof.
  intros G Seed RS X parse circ t a o o' p p' q u u' an an' HP S S' H H' A A' Hk Hk' Hb Hb' Hd Hq HA.
  pose proof (parsers_grid _ _ _ _ _ _ _ _ _ HP S S' H H' A A') as GR. assert (R' := parsers_rows _ _ _ _ _ HP H'). rewrite (gr_idx _ _ GR) in R'.
  destruct (alike_entries X (of_parsed p) (of_parsed p') q u u' an an' _ ltac:(lia) ltac:(lia) Hb Hb' Hd (parsers_shapes _ _ _ _ _ _ HP H) (parsers_shapes _ _ _ _ _ _ HP H') (parsers_rows _ _ _ _ _ HP H) R' Hq HA)
    as (axes & ns & Qf & E & E' & HN). rewrite Hk in E. rewrite Hk' in E'.
  exact (grid_variances X _ _ _ _ _ _ _ GR A A' HN E E').
Qed.

Ltac sorted := split; repeat first [apply SSorted_nil|apply SSorted_cons|apply Forall_nil|apply Forall_cons|lia].
Definition upto (m n : Z) : Options R := mkOptions (Some 1%R) (Some (IZR m)) n "linear" "multi-origin" 8%R 8.
Lemma C78_refuted_proof : forall circ, let a := hop_params 1 (PyFloat 1%R) one_step in
  exists p p', ase_parser geomspace_R circ (hop_frames 3) (with_options (upto 3 3) a) = Ok p
    /\ ase_parser geomspace_R circ (hop_frames 3) (with_options (upto 2 2) a) = Ok p'
    /\ p_intervals p = [1; 2; 3] /\ p_intervals p' = [1; 2] /\ ascending (p_intervals p) /\ ascending (p_intervals p')
    /\ nth_error (p_disp_3d p) 0 = nth_error (p_disp_3d p') 0 /\ length (p_disp_3d p') = 1%nat
    /\ nth_error (p_n_o p) 0 = Some 3%R /\ nth_error (p_n_o p') 0 = Some 2%R.
Proof.
  intros circ a. unfold hop_frames.
  rewrite (ase_run geomspace_R circ unit_cell _ _ 3 2 1 hop _ ["Li"%string] [0] [1])
    by (first [exact unit_cell_volume | apply hop_small; lia | lia | reflexivity]).
  rewrite (ase_run geomspace_R circ unit_cell _ _ 3 2 1 hop _ ["Li"%string] [0] [1])
    by (first [exact unit_cell_volume | apply hop_small; lia | lia | reflexivity]).
  subst a. unfold upto. cbn [with_options hop_params a_time_step pynum_val a_step_skip a_opts]. rewrite kept_one.
  rewrite (parser_init_ints geomspace_R 2 3 _ [0] [1] 1 3 3 "multi-origin" 8 8) by (first [repeat constructor; cbn; lia | lia]).
  rewrite (parser_init_ints geomspace_R 2 3 _ [0] [1] 1 2 2 "multi-origin" 8 8) by (first [repeat constructor; cbn; lia | lia]).
  change (tab _ (lin _ 3 _)) with (map Z.of_nat [1;2;3]%nat). change (tab _ (lin _ 2 _)) with (map Z.of_nat [1;2]%nat).
  rewrite !get_disps_multi' by (repeat constructor; cbn; lia).
  assert (E : Rltb 8 (in_gigabytes (fold_right Z.add 0 (map (estimate (length [0]) 3 8) [1;2;3]%nat))) = false).
  { apply Rltb_false. unfold in_gigabytes. cbn. lra. }
  assert (E' : Rltb 8 (in_gigabytes (fold_right Z.add 0 (map (estimate (length [0]) 3 8) [1;2]%nat))) = false).
  { apply Rltb_false. unfold in_gigabytes. cbn. lra. }
  rewrite E, E'. cbn [bind]. do 2 eexists. split; [reflexivity|]. split; [reflexivity|]. do 2 (split; [reflexivity|]).
  split; [change (ascending [1;2;3]); sorted|]. split; [change (ascending [1;2]); sorted|].
  split; [reflexivity|]. split; [reflexivity|]. split; cbn; f_equal; unfold obs_count; cbn; lra.
Qed.
Lemma first_dt {G Seed RS} (X : Ext R G Seed RS) u dts (disps : list (Arr R)) n_o g b g' (t : R) d : u_sub_sample_dt u = 1 ->
  msd_bootstrap X u dts disps n_o g = Ok (b, g') -> nth_error dts 0 = Some t -> nth_error disps 0 = Some d -> (1 < length (entries d))%nat -> nth_error (b_dt b) 0 = Some t.
Proof.
  intros Hk H Ht Hd Hl. destruct (msd_run X u dts disps n_o g b g' ltac:(lia) H) as (axes & shown & N1 & N2 & N3 & N4 & N5 & N6).
  rewrite (br_dt _ _ _ _ _ _ _ _ _ _ N6). destruct (br_shown _ _ _ _ _ _ _ _ _ _ N6) as (rest & E & F1 & F2).
  specialize (N3 0%nat). specialize (N4 0%nat). cbn [Nat.mul] in N3, N4. rewrite Hd in N3. rewrite Ht in N4. destruct shown as [|s shown].
  - cbn [app] in E. subst rest. destruct (b_displacements b) as [|x l]; [discriminate|]. injection N3 as ->.
    inversion F2 as [|? ? K _]; subst. exfalso. apply K. unfold msd_values. now rewrite map_length.
  - destruct (b_delta_t b); [discriminate|]. exact N4.
Qed.
Lemma C78_example_proof : forall G Seed RS (X : Ext R G Seed RS) circ (g : G), let a := hop_params 1 (PyFloat 1%R) one_step in
  exists p p' an an', ase_parser geomspace_R circ (hop_frames 3) (with_options (upto 3 3) a) = Ok p
    /\ ase_parser geomspace_R circ (hop_frames 3) (with_options (upto 2 2) a) = Ok p'
    /\ ascending (p_intervals p) /\ ascending (p_intervals p')
    /\ analysed_alike X (of_parsed p) (of_parsed p') (QScalar 1%R) (demo_boot 1 "xyz") (demo_boot 1 "xyz") an an'
    /\ nth_error (b_dt (an_diff an)) 0 = Some 1%R /\ nth_error (b_dt (an_diff an')) 0 = Some 1%R.
Proof.
  intros G Seed RS X circ g a. unfold hop_frames.
  rewrite (ase_run geomspace_R circ unit_cell _ _ 3 2 1 hop _ ["Li"%string] [0] [1])
    by (first [exact unit_cell_volume | apply hop_small; lia | lia | reflexivity]).
  rewrite (ase_run geomspace_R circ unit_cell _ _ 3 2 1 hop _ ["Li"%string] [0] [1])
    by (first [exact unit_cell_volume | apply hop_small; lia | lia | reflexivity]).
  subst a. unfold upto. cbn [with_options hop_params a_time_step pynum_val a_step_skip a_opts]. rewrite kept_one.
  rewrite (parser_init_ints geomspace_R 2 3 _ [0] [1] 1 3 3 "multi-origin" 8 8) by (first [repeat constructor; cbn; lia | lia]).
  rewrite (parser_init_ints geomspace_R 2 3 _ [0] [1] 1 2 2 "multi-origin" 8 8) by (first [repeat constructor; cbn; lia | lia]).
  change (tab _ (lin _ 3 _)) with (map Z.of_nat [1;2;3]%nat). change (tab _ (lin _ 2 _)) with (map Z.of_nat [1;2]%nat).
  rewrite !get_disps_multi' by (repeat constructor; cbn; lia).
  assert (E : Rltb 8 (in_gigabytes (fold_right Z.add 0 (map (estimate (length [0]) 3 8) [1;2;3]%nat))) = false).
  { apply Rltb_false. unfold in_gigabytes. cbn. lra. }
  assert (E' : Rltb 8 (in_gigabytes (fold_right Z.add 0 (map (estimate (length [0]) 3 8) [1;2]%nat))) = false).
  { apply Rltb_false. unfold in_gigabytes. cbn. lra. }
  rewrite E, E'. cbn [bind]. do 2 eexists.
  match goal with |- exists an an', Ok ?p = Ok _ /\ Ok ?p' = Ok _ /\ _ => 
    destruct (msd_total X (demo_boot 1 "xyz") (p_delta_t p) (p_disp_3d p) (p_n_o p) all_axes g eq_refl eq_refl names_xyz) as (b & B);
    [discriminate|repeat constructor; fail|cbn; lia|cbn; lia|];
    destruct (msd_total X (demo_boot 1 "xyz") (p_delta_t p') (p_disp_3d p') (p_n_o p') all_axes g eq_refl eq_refl names_xyz) as (b' & B');
    [discriminate|repeat constructor; fail|cbn; lia|cbn; lia|];
    exists (mkAn (of_parsed p) b), (mkAn (of_parsed p') b')
  end.
  split; [reflexivity|]. split; [reflexivity|].
  split; [change (ascending [1;2;3]); sorted|]. split; [change (ascending [1;2]); sorted|].
  split.
  { exists g, g, g, g. left. unfold diffusion_analyzer. cbn [of_parsed an_delta_t an_disp_3d an_n_o]. rewrite B, B'. split; reflexivity. }
  cbn [an_diff]. split; eapply first_dt; try (exact B || exact B' || reflexivity); cbn; try (f_equal; lra); repeat constructor.
Qed.
