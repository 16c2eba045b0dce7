(** * ProofsNpt: trajectories with a changing cell (C92) *)
From Verif Require Import Base Spec SpecParser SpecStats SpecFit SpecAnalyzer ModelParser ModelDiffusion ModelHdf ModelAnalyzer
  Lemmas ProofsDisp ProofsIntervals ProofsWindows ProofsParser ProofsTraj ProofsBoot ProofsStats ProofsStats2 ProofsFit ProofsFit2 ProofsShape ProofsAnalyzer
  SpecRun SpecSym ProofsSym SpecGrid ProofsGrid SpecPool ProofsCollective ProofsPool ProofsReplica SpecTrue ProofsTrue SpecNpt.
From Coq Require Import Reals Lra Lia Sorting.Sorted.
Open Scope Z_scope.

(** ** Reading *)
Lemma npt_frames_read i types vol n natoms c l k : (0 < k)%nat ->
  get_structure_coords_latt (npt_frames i types vol n natoms c l) (Z.of_nat k)
  = get_structure_coords_latt (frames_of types (vol 0%nat) n natoms (fun f a => match i with MDAnalysis => cart (l f) (c f a) | _ => c f a end) l) (Z.of_nat k).
Proof.
  intros Hk. unfold get_structure_coords_latt, npt_frames, frames_of. rewrite !py_stride_tab by exact Hk. cbn [bind].
  assert (M : forall (T : Type) (g : Frame R -> T) m (h h' : nat -> Frame R), (forall j, g (h j) = g (h' j)) -> map g (tab m h) = map g (tab m h')).
  { intros T g m h h' E. unfold tab. rewrite !map_map. apply map_ext. exact E. }
  match goal with |- bind (?P (map f_pos (tab ?m ?h))) _ = bind (_ (map f_pos (tab _ ?h'))) _ =>
    rewrite (M _ f_pos m h h') by reflexivity; rewrite (M _ f_cell m h h') by reflexivity end.
  destruct (kept n k); [reflexivity|]. rewrite !tab_S. cbn [f_types f_volume]. now rewrite Nat.mul_0_l.
Qed.
Lemma npt_frames_mda types vol n natoms c l ka k : (0 < k)%nat ->
  get_structure_coords_latt_mda (npt_frames MDAnalysis types vol n natoms c l) ka (Z.of_nat k)
  = get_structure_coords_latt_mda (frames_of types (vol 0%nat) n natoms (fun f a => cart (l f) (c f a)) l) ka (Z.of_nat k).
Proof.
  intros Hk. unfold get_structure_coords_latt_mda, npt_frames, frames_of. rewrite !py_stride_tab by exact Hk. cbn [bind].
  assert (M : forall (g g' : Frame R -> Res (list (V3 R))) m (h h' : nat -> Frame R), (forall j, g (h j) = g' (h' j)) -> mapM g (tab m h) = mapM g' (tab m h')).
  { intros g g' m h h' E. unfold tab. generalize (seq 0 m). intros s. induction s as [|j s IH]; [reflexivity|]. cbn [map mapM]. now rewrite E, IH. }
  match goal with |- bind ?u _ = bind ?v _ => assert (E : u = v) by (apply M; reflexivity); rewrite E; destruct v as [s|e]; [|reflexivity] end.
  cbn [bind]. assert (M' : forall (h h' : nat -> Frame R) m, (forall j, f_cell (h j) = f_cell (h' j)) -> map f_cell (tab m h) = map f_cell (tab m h')).
  { intros h h' m E'. unfold tab. rewrite !map_map. apply map_ext. exact E'. }
  match goal with |- context [map f_cell (tab ?m ?h)] => match goal with |- _ = ?rhs => match rhs with context [map f_cell (tab _ ?h')] => rewrite (M' h h' m) by reflexivity end end end.
  destruct (kept n k); [reflexivity|]. rewrite !tab_S. cbn [f_types f_volume]. now rewrite Nat.mul_0_l.
Qed.

(** ** The displacements *)
Lemma tor_path_step l k x img a t :
  minus3 (tor_path l k x img a (S t)) (tor_path l k x img a t)
  = minus3 (minus3 (cart (l (S t * k)%nat) (plus3 (x (S t * k)%nat a) (ivec (img (S t * k)%nat a)))) (cart (l (t * k)%nat) (plus3 (x (t * k)%nat a) (ivec (img (t * k)%nat a)))))
           (cart (l (S t * k)%nat) (minus3 (ivec (img (S t * k)%nat a)) (ivec (img (t * k)%nat a)))).
Proof. unfold tor_path, cartesian_path. cbn [breathing]. v3eq. Qed.
Lemma ivec_minus u v : minus3 (ivec u) (ivec v) = ivec (mkV (vx u - vx v) (vy u - vy v) (vz u - vz v)).
Proof. unfold ivec, minus3. cbn [vx vy vz]. now rewrite !minus_IZR. Qed.
Lemma C92_displacements_proof (l : nat -> M3 R) types vol n natoms k x (img : nat -> nat -> V3 Z) : (0 < n)%nat -> (0 < k)%nat ->
  (forall f, (f < n)%nat -> cell_volume (l f) <> 0%R) -> small_npt_steps n natoms k l x img ->
  displacements (Z.of_nat k) (frames_of types vol n natoms (fun f a => plus3 (x f a) (ivec (img f a))) l)
  = Ok (table natoms (kept n k) (tor_path l k x img)).
Proof.
  intros Hn Hk Hc Hs. rewrite displacements_stride by exact Hk.
  assert (K : forall f, (f < kept n k)%nat -> (f * k < n)%nat) by (intros f Hf; now apply (kept_spec n k Hk f)).
  destruct (C03_proof types vol (kept n k) natoms (fun f a => plus3 (x (f * k)%nat a) (ivec (img (f * k)%nat a))) (fun f => l (f * k)%nat)) as (y & E & H0 & HS).
  { now apply kept_pos. } { intros f Hf. apply Hc. now apply K. }
  rewrite E. f_equal. apply table_ext. intros a t Ha. induction t as [|t IH]; intros Ht.
  - rewrite H0. unfold tor_path, cartesian_path. cbn [breathing Nat.mul]. v3eq.
  - specialize (IH ltac:(lia)). assert (S1 := HS t a Ht). cbv beta in S1.
    assert (S2 : minimum_image_of (l (S t * k)%nat) (minus3 (cart (l (S t * k)%nat) (plus3 (x (S t * k)%nat a) (ivec (img (S t * k)%nat a)))) (cart (l (t * k)%nat) (plus3 (x (t * k)%nat a) (ivec (img (t * k)%nat a)))))
        (minus3 (tor_path l k x img a (S t)) (tor_path l k x img a t))).
    { split.
      - rewrite tor_path_step, ivec_minus. eexists. reflexivity.
      - exact (Hs t a (K _ Ht) Ha). }
    assert (EQ := minimum_image_unique _ _ _ _ (Hc _ (K _ Ht)) S1 S2). rewrite IH in EQ.
    apply (f_equal (fun v => plus3 v (tor_path l k x img a t))) in EQ.
    transitivity (plus3 (minus3 (y a (S t)) (tor_path l k x img a t)) (tor_path l k x img a t)); [v3eq|]. rewrite EQ. v3eq.
Qed.
Lemma npt_positive n k (frames : list (Frame R)) natoms types vol c l st coords latt : (0 < k)%nat -> frames = frames_of types vol n natoms c l ->
  get_structure_coords_latt frames (Z.of_nat k) = Ok (st, coords, latt) -> (0 < n)%nat /\ st = mkStructure types vol.
Proof.
  intros Hk -> E. assert (Hn : (0 < n)%nat).
  { destruct n; [|lia]. unfold get_structure_coords_latt in E. unfold frames_of in E. rewrite py_stride_tab in E by exact Hk. cbn [bind] in E.
    assert (K0 : kept 0 k = 0%nat).
    { destruct (kept 0 k) eqn:EK; [reflexivity|]. exfalso. pose proof (proj1 (kept_spec 0 k Hk 0)). lia. }
    rewrite K0 in E. discriminate E. }
  split; [exact Hn|]. unfold get_structure_coords_latt in E. unfold frames_of in E. rewrite py_stride_tab in E by exact Hk. cbn [bind] in E.
  inv_bind E u1 F1. inv_bind E u2 F2. pose proof (kept_pos n k Hk Hn) as HK. destruct (kept n k); [lia|]. rewrite tab_S in E. now injection E as <- _ _.
Qed.
Lemma npt_displacements l types vol n natoms k x img st coords latt : (0 < k)%nat ->
  (forall f, (f < n)%nat -> cell_volume (l f) <> 0%R) -> small_npt_steps n natoms k l x img ->
  get_structure_coords_latt (frames_of types vol n natoms (fun f a => plus3 (x f a) (ivec (img f a))) l) (Z.of_nat k) = Ok (st, coords, latt) ->
  st = mkStructure types vol /\ get_disp coords latt = Ok (table natoms (kept n k) (tor_path l k x img)).
Proof.
  intros Hk Hc Hs E. destruct (npt_positive n k _ _ _ _ _ _ _ _ _ Hk eq_refl E) as [Hn ->]. split; [reflexivity|].
  rewrite <- (displacements_read _ _ _ _ _ E). now apply C92_displacements_proof.
Qed.
Lemma npt_core i circ l types vol n natoms k x img a p : npt_read i circ l types vol n natoms k x img a p ->
  exists st coords latt q, s_types st = types /\ get_disp coords latt = Ok (table natoms (kept n k) (tor_path l k x img))
    /\ finish_parse geomspace_R circ st coords latt a (steps_by i a) = Ok q /\ p = stamped i q.
Proof.
  intros [Hc Ht Hk Ek Ea Hs Ha Hm HS Hi Hd E]. destruct i; cbn [parser_by steps_by stamped] in *.
  - unfold ase_parser in E. rewrite Ek in E. inv_bind E r E1. destruct r as [[st coords] latt]. rewrite npt_frames_read in E1 by exact Hk.
    destruct (npt_displacements _ _ _ _ _ _ _ _ _ _ _ Hk Hc Hs E1) as [-> D]. exists (mkStructure types (vol 0%nat)), coords, latt, p. auto.
  - unfold pymatgen_parser in E. rewrite Ek in E. inv_bind E r E1. destruct r as [[st coords] latt]. inv_bind E q E2.
    destruct (a_time_step a) eqn:Et; [discriminate|]. injection E as <-. rewrite npt_frames_read in E1 by exact Hk.
    destruct (npt_displacements _ _ _ _ _ _ _ _ _ _ _ Hk Hc Hs E1) as [-> D]. exists (mkStructure types (vol 0%nat)), coords, latt, q. rewrite Ek. auto.
  - unfold mda_parser in E. inv_bind E u0 E0. inv_bind E r E1. destruct r as [[st coords] latt]. rewrite Ea, Ek in E1. rewrite npt_frames_mda in E1 by exact Hk.
    apply (read_mda_fun types (vol 0%nat) n natoms (fun f a => plus3 (x f a) (ivec (img f a))) l 1 k st coords latt) in E1; [|lia|exact Hk|exact Ht].
    destruct E1 as (types' & Ht' & S' & E1). apply sub_sample_id in S'. subst types'. rewrite kept_one in E1.
    rewrite (frames_of_ext types (vol 0%nat) n natoms _ (fun f a => plus3 (x f a) (ivec (img f a))) l) in E1 by (intros; now rewrite Nat.mul_1_r).
    destruct (npt_displacements _ _ _ _ _ _ _ _ _ _ _ Hk Hc Hs E1) as [-> D]. exists (mkStructure types (vol 0%nat)), coords, latt, p. auto.
Qed.

(** The same displacements as those of atoms moving along [tor_path] in a fixed unit cell. *)
Definition straightened (l : nat -> M3 R) k x img (f a : nat) : V3 R := tor_path l k x img a (f / k)%nat.
Lemma cart_unit v : cart unit_cell v = v.
Proof. v3eq. Qed.
Lemma straightened_drift l k x img a t : (0 < k)%nat -> drifting unit_cell k (straightened l k x img) a t = tor_path l k x img a t.
Proof.
  intros Hk. unfold drifting, straightened. rewrite Nat.div_mul, Nat.div_0_l by lia. rewrite !cart_unit.
  unfold tor_path at 2, cartesian_path. cbn [breathing Nat.mul]. v3eq.
Qed.
Lemma npt_form i circ l types vol n natoms k x img a p : npt_read i circ l types vol n natoms k x img a p ->
  exists tis, read_form i unit_cell types n natoms k (straightened l k x img) a p tis.
Proof.
  intros F. destruct (npt_core _ _ _ _ _ _ _ _ _ _ _ _ F) as (st & coords & latt & q & Et & Ed & Ef & ->).
  destruct F as [Hc Ht Hk Ek Ea Hs Ha Hm HS Hi Hd _].
  rewrite <- (table_ext natoms (kept n k) (drifting unit_cell k (straightened l k x img))) in Ed by (intros; now rewrite straightened_drift).
  assert (Hi' : Forall (valid_site natoms) (p_indices q)) by (destruct i; exact Hi).
  assert (Hd' : Forall (valid_site natoms) (p_drift_indices q)) by (destruct i; exact Hd).
  destruct (finish_inv _ _ _ _ _ _ _ Ef) as (c' & I & D & disp & r & E1 & E2 & E3 & ->).
  pose proof (choose_atomic circ st coords a _ Ha E1) as Ec. cbn in Ec. subst c'. rewrite Ed in E2. injection E2 as <-.
  destruct (parser_init_sel _ _ _ _ _ _ _ _ E3) as [EI ED]. cbn [set_volume p_indices p_drift_indices] in Hi', Hd'. rewrite EI in Hi'. rewrite ED in Hd'.
  destruct (run_multi natoms (kept n k) _ I D _ _ (a_opts a) Hi' Hd' HS r Hm E3) as (tis & F1 & F2 & Ef' & _ & ->).
  exists tis. apply (choose_chosen _ _ _ _ _ _ _ Ha) in E1. rewrite Et in E1.
  destruct i; split; cbn [stamped set_delta_t set_volume p_intervals p_delta_t p_disp_3d p_n_o p_indices p_drift_indices]; auto.
  unfold delta_ts. rewrite map_map. apply map_ext. intros m. unfold clock. now numR.
Qed.
Lemma between_straightened axes natoms l k x img idx fw f g : (0 < k)%nat ->
  square_between axes natoms k (positions unit_cell (straightened l k x img)) idx fw f g
  = square_between axes natoms 1 (fun t b => tor_path l k x img b t) idx fw f g.
Proof.
  intros Hk. unfold square_between. f_equal. apply map_ext. intros i. f_equal. unfold relative_displacement, positions, straightened.
  rewrite !Nat.div_mul by lia. rewrite !Nat.mul_1_r. destruct fw; rewrite ?cart_unit; [reflexivity|]. f_equal. f_equal. apply map_ext. intros j. now rewrite !cart_unit.
Qed.
Lemma true_straightened axes natoms l k x img idx fw T m : (0 < k)%nat ->
  true_msd axes natoms k (positions unit_cell (straightened l k x img)) idx fw T m
  = true_msd axes natoms 1 (fun t b => tor_path l k x img b t) idx fw T m.
Proof. intros Hk. unfold true_msd. f_equal. apply tab_ext. intros j _. now apply between_straightened. Qed.

Section Reported.
  Context {G Seed RS : Type} (X : Ext R G Seed RS).
  Lemma C92_reported_proof i circ l types vol n natoms k x img a p u axes g an g' :
    npt_read i circ l types vol n natoms k x img a p -> 0 < u_sub_sample_dt u -> u_block u = false -> names (pystr_text (u_dimension u)) axes ->
    diffusion_analyzer X (of_parsed p) u g = Ok (an, g') -> forall j t, nth_error (b_dt (an_diff an)) j = Some t ->
    exists m, nth_error (p_intervals p) (j * Z.to_nat (u_sub_sample_dt u)) = Some (Z.of_nat m) /\ nth_error (p_delta_t p) (j * Z.to_nat (u_sub_sample_dt u)) = Some t
      /\ (0 < m <= kept n k)%nat
      /\ let T := kept n k in let pos t b := tor_path l k x img b t in
         nth_error (b_n (an_diff an)) j = Some ((INR (T - m) * true_msd axes natoms 1 pos (p_indices p) (p_drift_indices p) T m
             + square_between axes natoms 1 pos (p_indices p) (p_drift_indices p) 0 (m - 1)) / INR (T - m + 1))%R.
  Proof.
    intros F Hk Hb Hn H j t Ht. destruct (npt_form _ _ _ _ _ _ _ _ _ _ _ _ F) as (tis & RF).
    destruct (reported_entry X _ _ _ _ _ _ _ _ _ _ _ _ _ _ _ RF Hk Hb Hn H j t Ht) as (m & d & no & E1 & E2 & E3 & E4 & E5 & E6 & _).
    exists m. rewrite (rf_intervals _ _ _ _ _ _ _ _ _ _ RF), (rf_times _ _ _ _ _ _ _ _ _ _ RF), !nth_error_map, E1. cbn [option_map].
    split; [reflexivity|]. split; [now rewrite E3|]. split; [exact E2|]. cbv zeta. rewrite E6. f_equal. rewrite E5.
    assert (K := nr_k _ _ _ _ _ _ _ _ _ _ _ _ F).
    rewrite <- true_straightened, <- between_straightened by exact K. exact (window_mean axes natoms k (kept n k) (positions unit_cell (straightened l k x img)) _ _ m E2).
  Qed.
End Reported.

(** ** Special cases *)
Lemma breathing_none l k img a t : (forall f, (f < t)%nat -> img (f * k)%nat a = mkV 0 0 0) -> breathing l k img a t = zero3.
Proof.
  induction t as [|t IH]; intros H; [reflexivity|]. cbn [breathing]. rewrite IH by (intros; apply H; lia). rewrite (H t) by lia. v3eq.
Qed.
Lemma breathing_fixed l k img a t : (forall f, l f = l 0%nat) -> breathing l k img a t = zero3.
Proof. intros H. induction t as [|t IH]; [reflexivity|]. cbn [breathing]. rewrite IH, !H, (H (t * k)%nat). v3eq. Qed.
Lemma breathing_same l k img a v t : (forall f, (f < t)%nat -> img (f * k)%nat a = v) ->
  breathing l k img a t = minus3 (cart (l (t * k)%nat) (ivec v)) (cart (l 0%nat) (ivec v)).
Proof.
  induction t as [|t IH]; intros H; [cbn [breathing Nat.mul]; v3eq|]. cbn [breathing]. rewrite IH by (intros; apply H; lia). rewrite (H t) by lia. v3eq.
Qed.
Lemma plus_zero v : plus3 v zero3 = v.
Proof. v3eq. Qed.
Lemma C92_unwrapped_proof l k x img a t : (forall f, (f < t)%nat -> img (f * k)%nat a = mkV 0 0 0) -> tor_path l k x img a t = cartesian_path l k x a t.
Proof. intros H. unfold tor_path. rewrite breathing_none by exact H. apply plus_zero. Qed.
Lemma C92_fixed_cell_proof l k x img a t : (forall f, l f = l 0%nat) -> tor_path l k x img a t = cart (l 0%nat) (minus3 (x (t * k)%nat a) (x 0%nat a)).
Proof. intros H. unfold tor_path. rewrite breathing_fixed by exact H. unfold cartesian_path. rewrite H. v3eq. Qed.
Lemma C92_never_crossing_proof l k x img a v t : (forall f, (f < t)%nat -> img (f * k)%nat a = v) ->
  tor_path l k x img a t = minus3 (cart (l (t * k)%nat) (plus3 (x (t * k)%nat a) (ivec v))) (cart (l 0%nat) (plus3 (x 0%nat a) (ivec v))).
Proof. intros H. unfold tor_path. rewrite (breathing_same _ _ _ _ v) by exact H. unfold cartesian_path. v3eq. Qed.
Lemma C92_volume_proof i circ l types vol n natoms k x img a p : npt_read i circ l types vol n natoms k x img a p -> p_volume p = Some (vol 0%nat).
Proof.
  intros [Hc Ht Hk Ek Ea Hs Ha Hm HS Hi Hd E].
  assert (P : In (parser_by i) parsers) by (destruct i; cbn; auto).
  rewrite (parsers_volume (parser_by i) geomspace_R circ a _ p P ltac:(lia) E).
  destruct n as [|n]; [|unfold npt_frames; now rewrite tab_S]. exfalso.
  assert (K0 : kept 0 k = 0%nat). { destruct (kept 0 k) eqn:EK; [reflexivity|]. exfalso. pose proof (proj1 (kept_spec 0 k Hk 0)). lia. }
  destruct i; cbn [parser_by] in E; unfold ase_parser, pymatgen_parser, mda_parser in E; rewrite ?Ek, ?Ea in E.
  - unfold get_structure_coords_latt, npt_frames in E. rewrite py_stride_tab, K0 in E by exact Hk. discriminate E.
  - unfold get_structure_coords_latt, npt_frames in E. rewrite py_stride_tab, K0 in E by exact Hk. discriminate E.
  - inv_bind E u0 E0. unfold get_structure_coords_latt_mda, npt_frames in E. rewrite py_stride_tab, K0 in E by exact Hk. discriminate E.
Qed.

(** ** Example *)
Lemma growing_volume f : cell_volume (growing f) <> 0%R.
Proof. unfold cell_volume, growing. cbn [mr0 mr1 mr2 vx vy vz]. pose proof (pos_INR f). lra. Qed.
Lemma resting_path a t : (a < 2)%nat -> tor_path growing 1 resting no_image a t = minus3 (cart unit_cell (walk (fun f => INR f / 20)%R (t * 1)%nat a)) (cart unit_cell (walk (fun f => INR f / 20)%R 0%nat a)).
Proof.
  intros Ha. rewrite C92_unwrapped_proof by reflexivity. unfold cartesian_path. rewrite Nat.mul_1_r.
  destruct a as [|a]; cbn [resting walk]; unfold growing, unit_cell; apply V3_eq; cbn [cart minus3 zero3 mr0 mr1 mr2 vx vy vz INR]; field.
Qed.
Lemma resting_small n : small_npt_steps n 2 1 growing resting no_image.
Proof.
  intros f a _ Ha. rewrite !resting_path by exact Ha. rewrite !Nat.mul_1_r. assert (P := pos_INR f). rewrite !cart_unit.
  destruct a as [|a]; cbn [walk].
  - exists (mkV (1 / 20 / (1 + INR (S f) / 10)) 0 0)%R. rewrite S_INR. split.
    + unfold within_half. cbn [vx vy vz]. repeat split; try lra.
      * apply Rle_trans with 0%R; [lra|]. apply Rlt_le. apply Rdiv_lt_0_compat; lra.
      * apply (Rmult_lt_reg_r (1 + (INR f + 1) / 10)); [lra|]. unfold Rdiv at 1. rewrite Rmult_assoc, Rinv_l by lra. lra.
    + unfold growing. rewrite S_INR. apply V3_eq; cbn [cart minus3 zero3 mr0 mr1 mr2 vx vy vz]; field; lra.
  - exists zero3. split; [unfold within_half; cbn [vx vy vz zero3]; lra|]. v3eq.
Qed.
Lemma resting_run circ : exists p, npt_read Ase circ growing ["Li"; "O"]%string growing_volumes 4 2 1 resting no_image walk_params p
  /\ p_intervals p = [1; 2] /\ p_indices p = [0] /\ p_drift_indices p = [1] /\ p_delta_t p = [1; 2]%R /\ length (p_disp_3d p) = 2%nat /\ length (p_n_o p) = 2%nat
  /\ Forall (fun d => 1 < length (entries d))%nat (p_disp_3d p).
Proof.
  assert (K : exists p, ase_parser geomspace_R circ (npt_frames Ase ["Li"; "O"]%string growing_volumes 4 2 (fun f a => plus3 (resting f a) (ivec (no_image f a))) growing) walk_params = Ok p
    /\ p_intervals p = [1; 2] /\ p_indices p = [0] /\ p_drift_indices p = [1] /\ p_delta_t p = [1; 2]%R /\ length (p_disp_3d p) = 2%nat /\ length (p_n_o p) = 2%nat
    /\ Forall (fun d => 1 < length (entries d))%nat (p_disp_3d p)).
  { unfold ase_parser. cbn [walk_params hop_params a_sub_sample_traj a_step_skip]. change 1 with (Z.of_nat 1) at 1. rewrite npt_frames_read by lia.
    assert (R0 : exists coords latt, get_structure_coords_latt (frames_of ["Li"; "O"]%string (growing_volumes 0) 4 2 (fun f a => plus3 (resting f a) (ivec (no_image f a))) growing) (Z.of_nat 1)
       = Ok (mkStructure ["Li"; "O"]%string (growing_volumes 0), coords, latt)) by (eexists; eexists; reflexivity).
    destruct R0 as (coords & latt & R0). rewrite R0. cbn [bind]. unfold finish_parse, choose_atoms. cbn [walk_params hop_params a_specie s_types a_framework].
    replace (get_indices ["Li"; "O"]%string ["Li"%string] PyNone) with (Ok ([0], [1])) by reflexivity. cbn [bind fst snd].
    destruct (npt_displacements growing _ _ 4 2 1 resting no_image _ _ _ ltac:(lia) (fun f _ => growing_volume f) (resting_small 4) R0) as [_ D].
    rewrite D. rewrite kept_one. cbn [bind].
    unfold upto. cbn [hop_params a_time_step pynum_val a_step_skip a_opts].
    rewrite (parser_init_ints geomspace_R 2 4 _ [0] [1] 1 2 2 "multi-origin" 8 8) by (first [repeat constructor; cbn; lia | lia]).
    change (tab _ (lin _ 2 _)) with (map Z.of_nat [1;2]%nat).
    rewrite get_disps_multi' by (repeat constructor; cbn; lia).
    assert (E' : Rltb 8 (in_gigabytes (fold_right Z.add 0 (map (estimate (length [0]) 4 8) [1;2]%nat))) = false).
    { apply Rltb_false. unfold in_gigabytes. cbn. lra. }
    rewrite E'. cbn [bind]. eexists. split; [reflexivity|]. do 3 (split; [reflexivity|]).
    split; [cbn; repeat f_equal; lra|]. split; [reflexivity|]. split; [reflexivity|]. repeat constructor. }
  destruct K as (p & H & E1 & E2 & E3 & E4). exists p. split; [|auto].
  split; try (first [reflexivity | lia | exact (resting_small 4) | intros; apply growing_volume]).
  - left. discriminate.
  - rewrite kept_one. split; unfold min_time, max_time; cbn; try lra; try lia. now left.
  - rewrite E2. repeat constructor; cbn; lia.
  - rewrite E3. repeat constructor; cbn; lia.
  - exact H.
Qed.
Lemma C92_refuted_proof : forall G Seed RS (X : Ext R G Seed RS) circ (g : G), exists p an,
  npt_read Ase circ growing ["Li"; "O"]%string growing_volumes 4 2 1 resting no_image walk_params p
  /\ p_drift_indices p = [1] /\ diffusion_analyzer X (of_parsed p) (demo_boot 1 "xyz") g = Ok (an, g)
  /\ nth_error (b_n (an_diff an)) 0 = Some (3 / 1600)%R /\ nth_error (b_n (an_diff an)) 1 = Some (3 / 400)%R /\ p_volume p = Some 1%R /\ average (tab 4 growing_volumes) = (23 / 20)%R.
Proof.
  intros G Seed RS X circ g. destruct (resting_run circ) as (p & F & E1 & E2 & E3 & E4 & E5 & E6 & E7). exists p.
  destruct (msd_total X (demo_boot 1 "xyz") (p_delta_t p) (p_disp_3d p) (p_n_o p) all_axes g eq_refl eq_refl names_xyz) as (b & B).
  { intros C. rewrite C in E5. discriminate. } { exact E7. } { rewrite E4, E5. cbn. lia. } { rewrite E5, E6. lia. }
  exists (mkAn (of_parsed p) b).
  assert (H : diffusion_analyzer X (of_parsed p) (demo_boot 1 "xyz") g = Ok (mkAn (of_parsed p) b, g)).
  { unfold diffusion_analyzer. cbn [of_parsed an_delta_t an_disp_3d an_n_o]. rewrite B. reflexivity. }
  assert (Ht : b_dt b = [1; 2]%R).
  { rewrite (dt_shown X (demo_boot 1 "xyz") _ _ _ _ _ _ eq_refl B E7), E4, E5. reflexivity. }
  split; [exact F|]. split; [exact E3|]. split; [exact H|]. cbn [an_diff].
  assert (SQ : forall f h, square_between all_axes 2 1 (fun t b => tor_path growing 1 resting no_image b t) [0] [1] f h = ((INR h / 20 - INR f / 20) * (INR h / 20 - INR f / 20))%R).
  { intros f h. rewrite <- (walk_square (fun f => INR f / 20)%R). unfold square_between. cbn [map]. f_equal. f_equal. f_equal.
    change (site 2 0) with 0%nat. unfold relative_displacement. cbn [map]. change (site 2 1) with 1%nat. rewrite !resting_path by lia. rewrite !Nat.mul_1_r.
    rewrite !cart_unit. unfold average3, average. cbn [map length rsum]. v3eq. }
  assert (V0 : nth_error (b_n b) 0 = Some (3 / 1600)%R).
  { destruct (C92_reported_proof X _ _ _ _ _ _ _ _ _ _ _ _ (demo_boot 1 "xyz") _ _ _ _ F eq_refl eq_refl names_xyz H 0%nat 1%R ltac:(cbn [an_diff]; now rewrite Ht)) as (m & D1 & _ & _ & D).
    rewrite E1 in D1. injection D1 as D1. assert (m = 1%nat) by (cbn in D1; lia). subst m. cbv zeta in D. cbn [an_diff] in D. rewrite D. f_equal.
    rewrite true_total, E2, E3, kept_one. cbn [Nat.sub seq map]. rewrite !SQ. cbn [rsum fold_right Nat.add INR]. field. }
  assert (V1 : nth_error (b_n b) 1 = Some (3 / 400)%R).
  { destruct (C92_reported_proof X _ _ _ _ _ _ _ _ _ _ _ _ (demo_boot 1 "xyz") _ _ _ _ F eq_refl eq_refl names_xyz H 1%nat 2%R ltac:(cbn [an_diff]; now rewrite Ht)) as (m & D1 & _ & _ & D).
    rewrite E1 in D1. injection D1 as D1. assert (m = 2%nat) by (cbn in D1; lia). subst m. cbv zeta in D. cbn [an_diff] in D. rewrite D. f_equal.
    rewrite true_total, E2, E3, kept_one. cbn [Nat.sub seq map]. rewrite !SQ. cbn [rsum fold_right Nat.add INR]. field. }
  split; [exact V0|]. split; [exact V1|]. split; [rewrite (C92_volume_proof _ _ _ _ _ _ _ _ _ _ _ _ F); unfold growing_volumes; cbn; f_equal; field|].
  unfold average, tab, growing_volumes. cbn [map seq length rsum INR]. field.
Qed.
Lemma crossing_small : small_npt_steps 3 1 1 growing crossing folded.
Proof.
  intros f a Hf _. rewrite Nat.mul_1_r in *. destruct f as [|[|f]]; [| |lia].
  - exists (mkV (7 / 22) 0 0)%R. split; [unfold within_half; cbn [vx vy vz]; lra|].
    unfold tor_path, cartesian_path, growing, crossing. cbn [breathing folded Nat.mul Nat.add]. apply V3_eq; cbn; field.
  - exists (mkV (1 / 4) 0 0)%R. split; [unfold within_half; cbn [vx vy vz]; lra|].
    unfold tor_path, cartesian_path, growing, crossing. cbn [breathing folded Nat.mul Nat.add]. apply V3_eq; cbn; field.
Qed.
Lemma C92_crossing_refuted_proof : exists (l : nat -> M3 R) (x : nat -> nat -> V3 R) (img : nat -> nat -> V3 Z),
  (forall f, cell_volume (l f) <> 0%R) /\ small_npt_steps 3 1 1 l x img
  /\ (forall f, (f < 3)%nat -> let c := plus3 (x f 0%nat) (ivec (img f 0%nat)) in (0 <= vx c < 1 /\ 0 <= vy c < 1 /\ 0 <= vz c < 1)%R)
  /\ exists d, displacements 1 (frames_of ["Li"]%string 1%R 3 1 (fun f a => plus3 (x f a) (ivec (img f a))) l) = Ok d
    /\ arr_entry d 0 2 = Some (mkV (13 / 20) 0 0)%R /\ cartesian_path l 1 x 0 2 = mkV (3 / 4)%R 0%R 0%R.
Proof.
  exists growing, crossing, folded. split; [exact growing_volume|]. split; [exact crossing_small|]. split.
  { intros f Hf. destruct f as [|[|[|f]]]; [| | |lia]; unfold crossing; cbn; lra. }
  eexists. split; [exact (C92_displacements_proof growing ["Li"]%string 1%R 3 1 1 crossing folded ltac:(lia) ltac:(lia) (fun f _ => growing_volume f) crossing_small)|].
  rewrite kept_one. split.
  - unfold arr_entry, table, entry, tab. cbn [a_rows map seq nth_error]. f_equal.
    unfold tor_path, cartesian_path, growing, crossing. cbn [breathing folded Nat.mul Nat.add]. apply V3_eq; cbn; field.
  - unfold cartesian_path, growing, crossing. apply V3_eq; cbn; field.
Qed.
