(** * ProofsInterfaces: the three interfaces (C69) *)
From Verif Require Import Base Spec SpecParser SpecStats SpecFit SpecAnalyzer ModelParser ModelDiffusion ModelHdf ModelAnalyzer
  Lemmas ProofsDisp ProofsIntervals ProofsWindows ProofsParser ProofsTraj ProofsStats ProofsFit ProofsFit2 ProofsAnalyzer
  SpecRun SpecSym ProofsSym ProofsTime SpecOrder ProofsOrder SpecInterfaces.
From Coq Require Import Reals Lra Lia Permutation.
Open Scope Z_scope.

Lemma read_cartesian (t : list (Frame R)) k : proper_cells t ->
  get_structure_coords_latt_mda (map cartesian t) 1 k = get_structure_coords_latt t k.
Proof.
  intros HC. unfold get_structure_coords_latt_mda, get_structure_coords_latt. rewrite py_stride_map.
  destruct (py_stride k t) as [sub|e] eqn:E; [|reflexivity]. cbn [bind].
  rewrite mapM_map, (mapM_total _ (fun f => f_pos f)).
  2:{ intros f Hf. unfold proper_cells in HC. rewrite Forall_forall in HC. specialize (HC f (py_stride_In _ _ _ _ E Hf)).
      destruct (minv_ok _ HC) as (i & Ei & H1 & _). cbn [cartesian f_cell f_pos]. rewrite Ei. cbn [bind]. rewrite py_stride_one. cbn [bind].
      f_equal. rewrite map_map. rewrite <- (map_id (f_pos f)) at 2. apply map_ext. intros v. rewrite vecmat_cart. apply H1. }
  cbn [bind]. destruct (duplicate_first (map (fun f => f_pos f) sub)); [|reflexivity]. cbn [bind].
  rewrite map_map. change (map (fun x => f_cell (cartesian x)) sub) with (map (fun x => f_cell x) sub).
  destruct (duplicate_first _); [|reflexivity]. cbn [bind].
  destruct sub as [|f sub]; [reflexivity|]. cbn [map]. rewrite py_stride_one. reflexivity.
Qed.
Definition stamp (p : Parsed R) : Parsed R := set_delta_t p (map (fun d => (d * (n1 / nofZ 1000))%num) (p_delta_t p)).
Lemma pymatgen_mda geo circ t (a : ModelParser.Params R) ts : proper_cells t -> a_sub_sample_atoms a = 1 -> a_time_step a = PyFloat ts ->
  pymatgen_parser geo circ t a = outcome stamp (mda_parser geo circ (map cartesian t) a).
Proof.
  intros HC Ha Ht. unfold pymatgen_parser, mda_parser. rewrite Ha, Ht. cbn [Z.eqb Pos.eqb orb guard bind].
  rewrite read_cartesian by exact HC. rewrite outcome_bind. apply bind_ext. intros [[st c] l] _.
  destruct (finish_parse _ _ _ _ _ _ _); reflexivity.
Qed.
Lemma finish_skip geo circ st c l a s s' : finish_parse geo circ st c l (with_step_skip s a) s' = finish_parse geo circ st c l a s'.
Proof. reflexivity. Qed.
Lemma pymatgen_ase geo circ t (a : ModelParser.Params R) ts : a_time_step a = PyFloat ts ->
  pymatgen_parser geo circ t a = outcome stamp (ase_parser geo circ t (with_step_skip (a_step_skip a * a_sub_sample_traj a) a)).
Proof.
  intros Ht. unfold pymatgen_parser, ase_parser. cbn [with_step_skip a_sub_sample_traj a_step_skip]. rewrite Ht, outcome_bind.
  apply bind_ext. intros [[st c] l] _. rewrite finish_skip. destruct (finish_parse _ _ _ _ _ _ _); reflexivity.
Qed.
Lemma stamp_retime p : let q := stamp (retime_parsed 1000 p) in same_measurement p q.
Proof.
  unfold same_measurement. cbn [stamp set_delta_t retime_parsed p_intervals p_delta_t p_disp_3d p_n_o p_dc p_indices p_drift_indices p_volume].
  repeat split. rewrite map_map. rewrite <- (map_id (p_delta_t p)) at 2. apply map_ext. intros x. numR. lra.
Qed.
Lemma both_outcome {S} (rel : S -> S -> Prop) (f : S -> S) (r : Res S) : (forall x, rel x (f x)) -> both rel r (outcome f r).
Proof. intros H. destruct r; cbn; auto. Qed.
Lemma k1000 : (1000 <> 0)%R. Proof. lra. Qed.
Lemma C69_mda_proof : forall geo circ t (a : ModelParser.Params R), proper_cells t -> a_sub_sample_atoms a = 1 ->
  both same_measurement (mda_parser geo circ (map cartesian t) a) (pymatgen_parser geo circ t (retime 1000 a)).
Proof.
  intros geo circ t a HC Ha. rewrite (pymatgen_mda geo circ t (retime 1000 a) (1000 * pynum_val (a_time_step a))%R); [|exact HC|exact Ha|reflexivity].
  rewrite (C61_mda_proof 1000 k1000), outcome_outcome. apply both_outcome. apply stamp_retime.
Qed.
Lemma C69_ase_proof : forall geo circ t (a : ModelParser.Params R),
  both same_measurement (ase_parser geo circ t (with_step_skip (a_step_skip a * a_sub_sample_traj a) a)) (pymatgen_parser geo circ t (retime 1000 a)).
Proof.
  intros geo circ t a. rewrite (pymatgen_ase geo circ t (retime 1000 a) (1000 * pynum_val (a_time_step a))%R) by reflexivity.
  change (with_step_skip (a_step_skip (retime 1000 a) * a_sub_sample_traj (retime 1000 a)) (retime 1000 a))
    with (retime 1000 (with_step_skip (a_step_skip a * a_sub_sample_traj a) a)).
  rewrite (C61_ase_proof 1000 k1000), outcome_outcome. apply both_outcome. apply stamp_retime.
Qed.
Lemma C69_ase_every_frame_proof : forall geo circ t (a : ModelParser.Params R), a_sub_sample_traj a = 1 ->
  both same_measurement (ase_parser geo circ t a) (pymatgen_parser geo circ t (retime 1000 a)).
Proof.
  intros geo circ t a H. pose proof (C69_ase_proof geo circ t a) as E. rewrite H, Z.mul_1_r in E. now destruct a.
Qed.

(** The same for what an analysis is given. *)
Lemma both_bind {S} (r r' : Res (Parsed R)) (f : Parsed R -> Res S) : both same_measurement r r' ->
  (forall p p', same_measurement p p' -> f p = f p') -> bind r f = bind r' f.
Proof. destruct r, r'; cbn; intros H E; try contradiction; [now apply E|congruence]. Qed.
Lemma same_of_parsed (p p' : Parsed R) : same_measurement p p' -> of_parsed p = of_parsed p'.
Proof. intros (_ & E1 & E2 & E3 & _ & _ & _ & E4). unfold of_parsed. now rewrite E1, E2, E3, E4. Qed.
Lemma single_same {U V} (f : U -> Res (Parsed R)) (g : V -> Res (Parsed R)) u v : both same_measurement (f u) (g v) ->
  (let! p := f u in Ok (of_parsed p)) = (let! p := g v in Ok (of_parsed p)).
Proof.
  intros H. destruct (f u), (g v); cbn in *; try contradiction; [|congruence]. f_equal. now apply same_of_parsed.
Qed.
Lemma mapM_same {U V} (f : U -> Res (Parsed R)) (g : V -> Res (Parsed R)) us vs : Forall2 (fun u v => both same_measurement (f u) (g v)) us vs ->
  match mapM f us, mapM g vs with Ok ps, Ok qs => Forall2 same_measurement ps qs | Raise e, Raise e' => e = e' | _, _ => False end.
Proof.
  induction 1 as [|u v us vs H _ IH]; cbn; [constructor|]. destruct (f u), (g v); cbn in H; try contradiction; [|exact H]. cbn [bind].
  destruct (mapM f us), (mapM g vs); cbn; try contradiction; [|exact IH]. now constructor.
Qed.
Lemma sum_same ps qs acc : Forall2 same_measurement ps qs -> sum_n_o acc ps = sum_n_o acc qs.
Proof.
  intros H. revert acc. induction H as [|p q ps qs (_ & _ & _ & E & _) _ IH]; intros acc; cbn; [reflexivity|]. rewrite E. apply bind_ext. intros; apply IH.
Qed.
Lemma mapM_F2 {U V T} (f : U -> Res T) (g : V -> Res T) us vs : Forall2 (fun u v => f u = g v) us vs -> mapM f us = mapM g vs.
Proof. induction 1 as [|u v us vs E _ IH]; cbn; [reflexivity|]. now rewrite E, IH. Qed.
Lemma F2_impl {U V} (P Q : U -> V -> Prop) us vs : (forall u v, P u v -> Q u v) -> Forall2 P us vs -> Forall2 Q us vs.
Proof. intros H. induction 1; constructor; auto. Qed.
Lemma stack_one_same ps qs i d : Forall2 same_measurement ps qs -> stack_one ps i d = stack_one qs i d.
Proof.
  intros H. unfold stack_one. f_equal. apply mapM_F2. revert H. apply F2_impl. intros p q (_ & _ & E & _). now rewrite E.
Qed.
Lemma stack_same ps qs : Forall2 same_measurement ps qs -> stack_trajectories ps = stack_trajectories qs.
Proof.
  intros H. assert (K := fun i d => stack_one_same _ _ i d H). destruct H as [|p q ps qs (_ & _ & E & _) H]; [reflexivity|].
  unfold stack_trajectories. rewrite E. apply mapM_ext. intros [i d] _. apply K.
Qed.
Lemma identical_same {U V} (f : U -> Res (Parsed R)) (g : V -> Res (Parsed R)) us vs : Forall2 (fun u v => both same_measurement (f u) (g v)) us vs ->
  identical f us = identical g vs.
Proof.
  intros H. apply mapM_same in H. unfold identical. destruct (mapM f us) as [ps|], (mapM g vs) as [qs|]; try contradiction; [|cbn; congruence].
  cbn [bind]. pose proof (stack_same _ _ H) as K. pose proof (fun acc => sum_same _ _ acc H) as N.
  destruct H as [|p q ps qs (E0 & E1 & E2 & E3 & _ & _ & _ & E4) H]; [reflexivity|].
  rewrite E1, E3, E4, N, K. reflexivity.
Qed.
Lemma F2_refl {U V} (h : U -> V) (P : U -> V -> Prop) us : (forall u, In u us -> P u (h u)) -> Forall2 P us (map h us).
Proof. induction us as [|u us IH]; cbn; intros H; constructor; auto. Qed.

Lemma C69_mda_data_proof : forall geo circ (a : ModelParser.Params R), a_sub_sample_atoms a = 1 ->
  (forall t, proper_cells t ->
     from_frames (fun t => pymatgen_parser geo circ t (retime 1000 a)) (TSingle t) None
     = from_universe (fun t => mda_parser geo circ t a) (TSingle (map cartesian t)) None)
  /\ (forall ts, Forall proper_cells ts ->
     from_frames (fun t => pymatgen_parser geo circ t (retime 1000 a)) (TMulti ts) (Some "identical"%string)
     = from_universe (fun t => mda_parser geo circ t a) (TMulti (map (map cartesian) ts)) (Some "identical"%string)).
Proof.
  intros geo circ a Ha. split.
  - intros t HC. cbn. symmetry. apply (single_same (fun t => mda_parser geo circ t a) (fun t => pymatgen_parser geo circ t (retime 1000 a))). now apply C69_mda_proof.
  - intros ts HC. rewrite Forall_forall in HC. cbn. symmetry.
    assert (K : Forall2 (fun v u => both same_measurement (mda_parser geo circ u a) (pymatgen_parser geo circ v (retime 1000 a))) ts (map (map cartesian) ts)).
    { apply F2_refl. intros u Hu. apply C69_mda_proof; auto. }
    apply identical_same. clear HC. revert K. generalize (map (map (@cartesian)) ts). intros l K. induction K; constructor; auto.
Qed.
Lemma C69_ase_data_proof : forall geo circ (a : ModelParser.Params R) t dtype, a_sub_sample_traj a = 1 ->
  from_frames (fun t => pymatgen_parser geo circ t (retime 1000 a)) t dtype = from_frames (fun t => ase_parser geo circ t a) t dtype.
Proof.
  intros geo circ a t dtype H1. assert (K := fun t => C69_ase_every_frame_proof geo circ t a H1).
  unfold from_frames. destruct dtype as [d|].
  - destruct (d =? "identical")%string.
    + destruct t as [t|ts]; [reflexivity|]. symmetry. apply identical_same. rewrite <- (map_id ts) at 2. apply F2_refl. intros u _. apply K.
    + destruct (d =? "consecutive")%string; [|reflexivity]. destruct t as [t|ts]; [reflexivity|].
      symmetry. apply (single_same (fun t => ase_parser geo circ t a) (fun t => pymatgen_parser geo circ t (retime 1000 a))), K.
  - destruct t as [t|ts]; [|reflexivity]. symmetry. apply (single_same (fun t => ase_parser geo circ t a) (fun t => pymatgen_parser geo circ t (retime 1000 a))), K.
Qed.
Lemma C69_example_proof : forall circ, let a := hop_params 1 (PyFloat 1%R) one_step in
  proper_cells (hop_frames 3) /\ exists p, mda_parser geomspace_R circ (map cartesian (hop_frames 3)) a = Ok p
    /\ exists d, nth_error (p_disp_3d p) 0 = Some d /\ length (a_rows d) = 1%nat.
Proof.
  intros circ a.
  assert (HC : proper_cells (hop_frames 3)). { repeat constructor; exact unit_cell_volume. }
  split; [exact HC|].
  destruct (hop_one circ) as (p & d & x & y & z & P & D & Rw & _).
  pose proof (C69_mda_proof geomspace_R circ (hop_frames 3) a HC eq_refl) as H.
  pose proof (C69_ase_every_frame_proof geomspace_R circ (hop_frames 3) a eq_refl) as H'.
  unfold a in H'. rewrite P in H'. fold a in H'.
  destruct (pymatgen_parser geomspace_R circ (hop_frames 3) (retime 1000 a)) as [q|]; [|contradiction].
  destruct (mda_parser geomspace_R circ (map cartesian (hop_frames 3)) a) as [r|]; [|contradiction].
  exists r. split; [reflexivity|]. cbn in H, H'. destruct H as (_ & _ & E & _). destruct H' as (_ & _ & E' & _).
  exists d. rewrite <- E, E', D. split; [reflexivity|]. now rewrite Rw.
Qed.
