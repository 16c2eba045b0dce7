(** * ProofsSym: linear maps of space (C59, C60) *)
From Verif Require Import Base Spec SpecParser SpecStats SpecFit ModelParser ModelDiffusion ModelHdf ModelAnalyzer
  Lemmas ProofsDisp ProofsWindows ProofsParser ProofsTraj ProofsBoot ProofsStats SpecRun SpecSym.
From Coq Require Import Reals Lra Lia ZArith.
Open Scope Z_scope.

(** ** Monad *)
Lemma outcome_bind {S T U} (f : T -> U) (m : Res S) (k : S -> Res T) :
  outcome f (bind m k) = bind m (fun x => outcome f (k x)).
Proof. destruct m; reflexivity. Qed.
Lemma bind_outcome {S T U} (f : S -> T) (m : Res S) (k : T -> Res U) :
  bind (outcome f m) k = bind m (fun x => k (f x)).
Proof. destruct m; reflexivity. Qed.
Lemma bind_ext {S T} (m : Res S) (k k' : S -> Res T) : (forall x, m = Ok x -> k x = k' x) -> bind m k = bind m k'.
Proof. destruct m; cbn; auto. Qed.
Lemma outcome_id {S} (m : Res S) : outcome (fun x => x) m = m.
Proof. destruct m; reflexivity. Qed.
Lemma outcome_outcome {S T U} (f : S -> T) (h : T -> U) m : outcome h (outcome f m) = outcome (fun x => h (f x)) m.
Proof. destruct m; reflexivity. Qed.
Lemma mapM_outcome {S T U} (f : S -> Res T) (h : T -> U) l : mapM (fun x => outcome h (f x)) l = outcome (map h) (mapM f l).
Proof.
  induction l as [|x l IH]; cbn; [reflexivity|]. destruct (f x); cbn; [|reflexivity].
  rewrite IH. destruct (mapM f l); reflexivity.
Qed.
Lemma gather_outcome {S T} (f : S -> T) l idx : gather (map f l) idx = outcome (map f) (gather l idx).
Proof. apply gather_map. Qed.
Lemma index_outcome {S T} (f : S -> T) l i : py_index (map f l) i = outcome f (py_index l i).
Proof. apply py_index_map. Qed.
Lemma stride_outcome {S T} (f : S -> T) l k : py_stride k (map f l) = outcome (map f) (py_stride k l).
Proof. apply py_stride_map. Qed.
Lemma zip_with_maps {S T U S' T' U'} (f : S -> T -> U) (f' : S' -> T' -> U') (h : S -> S') (k : T -> T') (j : U -> U') :
  (forall x y, f' (h x) (k y) = j (f x y)) -> forall a b, zip_with f' (map h a) (map k b) = map j (zip_with f a b).
Proof.
  intros H. unfold zip_with. induction a as [|x a IH]; intros [|y b]; cbn; try reflexivity. rewrite H. f_equal. apply IH.
Qed.
Lemma tl_maps {S T} (f : S -> T) l : tl (map f l) = map f (tl l).
Proof. destruct l; reflexivity. Qed.
Lemma broadcast2_maps {S T U S' T' U'} (f : S -> T -> U) (f' : S' -> T' -> U') (h : S -> S') (k : T -> T') (j : U -> U') :
  (forall x y, f' (h x) (k y) = j (f x y)) -> forall a b, broadcast2 f' (map h a) (map k b) = outcome (map j) (broadcast2 f a b).
Proof.
  intros H a b. unfold broadcast2. rewrite !map_length. destruct (Nat.eqb _ _).
  - cbn. f_equal. now apply zip_with_maps.
  - destruct a as [|x [|x' a]], b as [|y [|y' b]]; cbn; rewrite ?map_map, ?H; try reflexivity;
    f_equal; f_equal; try (apply f_equal); apply map_ext; intros; apply H.
Qed.
Lemma py_from_map {S T} (f : S -> T) e l : py_from e (map f l) = map f (py_from e l).
Proof. unfold py_from. rewrite map_length. apply skipn_map. Qed.
Lemma py_to_map {S T} (f : S -> T) e l : py_to e (map f l) = map f (py_to e l).
Proof. unfold py_to. rewrite map_length. apply firstn_map. Qed.

(** ** Cells *)
Lemma cart_turn Q c v : cart (turn_cell Q c) v = cart Q (cart c v).
Proof. v3eq. Qed.
Lemma volume_turn Q c : cell_volume (turn_cell Q c) = (cell_volume Q * cell_volume c)%R.
Proof. unfold cell_volume, turn_cell, cart; cbn. ring. Qed.
Lemma minv_singular c : cell_volume c = 0%R -> minv c = Raise LinAlgError.
Proof. intros H. unfold minv. rewrite <- mdet_volume in H.
  destruct (neqb (mdet c) n0) eqn:E; [reflexivity|]. apply neqb_R_false in E. contradiction. Qed.
Lemma cart_zero m : cart m zero3 = zero3.
Proof. v3eq. Qed.

Section Linear.
  Context (Q : M3 R) (HQ : invertible Q).
  Definition turned_inverse (ci ci' : M3 R) : Prop := forall v, cart ci' (cart Q v) = cart ci v.
  Lemma minv_turn c : (exists e, minv c = Raise e /\ minv (turn_cell Q c) = Raise e)
    \/ exists ci ci', minv c = Ok ci /\ minv (turn_cell Q c) = Ok ci' /\ turned_inverse ci ci'.
  Proof.
    destruct (Req_dec (cell_volume c) 0) as [E|E].
    - left. exists LinAlgError. split; apply minv_singular; [exact E|rewrite volume_turn, E; ring].
    - right. destruct (minv_ok c E) as (ci & H1 & H2 & H3).
      destruct (minv_ok (turn_cell Q c)) as (ci' & G1 & G2 & G3).
      { rewrite volume_turn. now apply Rmult_integral_contrapositive. }
      exists ci, ci'. split; [exact H1|]. split; [exact G1|]. intros v.
      rewrite <- (H3 v) at 1. rewrite <- (cart_turn Q c). apply G2.
  Qed.
  Lemma minvs_turn cs : (exists e, mapM minv cs = Raise e /\ mapM minv (map (turn_cell Q) cs) = Raise e)
    \/ exists is is', mapM minv cs = Ok is /\ mapM minv (map (turn_cell Q) cs) = Ok is' /\ Forall2 turned_inverse is is'.
  Proof.
    induction cs as [|c cs [(e & E1 & E2)|(is & is' & E1 & E2 & E3)]].
    - right. exists [], []. repeat split; constructor.
    - left. cbn. destruct (minv_turn c) as [(e' & F1 & F2)|(ci & ci' & F1 & F2 & F3)]; rewrite F1, F2; cbn.
      + exists e'. auto. + exists e. rewrite E1, E2. auto.
    - cbn. destruct (minv_turn c) as [(e' & F1 & F2)|(ci & ci' & F1 & F2 & F3)]; rewrite F1, F2; cbn.
      + left. exists e'. auto. + right. rewrite E1, E2. exists (ci :: is), (ci' :: is'). repeat split. now constructor.
  Qed.

  (** ** get_disp *)
  Lemma cumsum_from_turn l : forall a, cumsum_from (cart Q a) (map (cart Q) l) = map (cart Q) (cumsum_from a l).
  Proof.
    induction l as [|x l IH]; intros a; cbn; [reflexivity|]. rewrite !vadd_plus3, <- cart_plus, IH. reflexivity.
  Qed.
  Lemma cumsum_turn l : cumsum (map (cart Q) l) = map (cart Q) (cumsum l).
  Proof. destruct l; cbn; [reflexivity|]. now rewrite cumsum_from_turn. Qed.
  Lemma get_disp_row_turn cs latt is is' : Forall2 turned_inverse is is' ->
    get_disp_row cs (map (turn_cell Q) latt) is' = map (cart Q) (get_disp_row cs latt is).
  Proof.
    intros H. unfold get_disp_row.
    assert (W : zip_with vecmat cs (map (turn_cell Q) latt) = map (cart Q) (zip_with vecmat cs latt)).
    { rewrite <- (map_id cs) at 1. apply zip_with_maps. intros x y. rewrite !vecmat_cart. apply cart_turn. }
    rewrite W. set (w := zip_with vecmat cs latt).
    assert (D : np_diff (map (cart Q) w) = map (cart Q) (np_diff w)).
    { unfold np_diff. rewrite tl_maps. apply zip_with_maps. intros x y. rewrite !vsub_minus3. symmetry. apply cart_minus. }
    rewrite D. set (d := np_diff w). rewrite tl_maps.
    assert (HT : Forall2 turned_inverse (tl is) (tl is')) by (destruct H; [constructor|assumption]).
    assert (C : map (fun p => image_correction (fst p) (fst (snd p)) (snd (snd p)))
                  (combine (map (cart Q) d) (combine (map (turn_cell Q) (tl latt)) (tl is')))
                = map (cart Q) (map (fun p => image_correction (fst p) (fst (snd p)) (snd (snd p)))
                  (combine d (combine (tl latt) (tl is))))).
    { clearbody d. clear W D H w. revert d HT. generalize (tl is), (tl is'), (tl latt). clear is is' latt cs.
      intros is is' latt d HT. revert d latt. induction HT as [|i i' is is' Hi HT IH]; intros d latt.
      - destruct d as [|v d]; [reflexivity|]. destruct latt; reflexivity.
      - destruct d as [|v d]; [reflexivity|]. destruct latt as [|c latt]; [reflexivity|].
        cbn [map combine fst snd]. rewrite IH. f_equal. rewrite !image_correction_cart, cart_turn. now rewrite Hi. }
    rewrite C. rewrite (zip_with_maps vsub vsub (cart Q) (cart Q) (cart Q)).
    - apply cumsum_turn.
    - intros x y. rewrite !vsub_minus3. symmetry. apply cart_minus.
  Qed.
  Lemma get_disp_turn coords latt : get_disp coords (map (turn_cell Q) latt) = outcome (turn_arr Q) (get_disp coords latt).
  Proof.
    unfold get_disp. destruct coords as [|f0 coords]; [reflexivity|].
    destruct (guard _ _); [|reflexivity]. cbn [bind].
    destruct (minvs_turn latt) as [(e & E1 & E2)|(is & is' & E1 & E2 & E3)]; rewrite E1, E2; [reflexivity|].
    cbn [bind]. rewrite map_length. destruct (guard _ _); [|reflexivity]. cbn [bind outcome turn_arr a_obs a_rows].
    unfold turn_arr. cbn [a_obs a_rows]. rewrite map_map. do 2 f_equal. apply map_ext. intros i. now apply get_disp_row_turn.
  Qed.

  (** ** correct_drift *)
  Lemma nth_turn t r : nth t (map (cart Q) r) v0 = cart Q (nth t r v0).
  Proof. rewrite <- (map_nth (cart Q)). change (@v0 R NumR) with zero3. now rewrite cart_zero. Qed.
  Lemma vmean_average3 l : vmean l = average3 l.
  Proof. unfold vmean, average3. now rewrite !nmean_average. Qed.
  Lemma rsum_lin (a b c : R) (l : list (V3 R)) : rsum (map (fun v => vx v * a + vy v * b + vz v * c)%R l)
    = (rsum (map vx l) * a + rsum (map vy l) * b + rsum (map vz l) * c)%R.
  Proof. induction l as [|x l IH]; cbn; [lra|]. rewrite IH. lra. Qed.
  Lemma average3_turn l : average3 (map (cart Q) l) = cart Q (average3 l).
  Proof.
    unfold average3, average. rewrite !map_map, !map_length.
    pose proof (rsum_lin (vx (mr0 Q)) (vx (mr1 Q)) (vx (mr2 Q)) l) as Ex.
    pose proof (rsum_lin (vy (mr0 Q)) (vy (mr1 Q)) (vy (mr2 Q)) l) as Ey.
    pose proof (rsum_lin (vz (mr0 Q)) (vz (mr1 Q)) (vz (mr2 Q)) l) as Ez.
    apply V3_eq; cbn [vx vy vz cart]; [rewrite Ex|rewrite Ey|rewrite Ez]; unfold Rdiv; ring.
  Qed.
  Lemma correct_drift_turn idx d : correct_drift idx (turn_arr Q d) = outcome (turn_arr Q) (correct_drift idx d).
  Proof.
    unfold correct_drift. destruct idx as [|i idx]; [reflexivity|]. set (ix := i :: idx).
    cbn [turn_arr a_rows a_obs]. unfold turn_arr at 1. cbn [a_rows a_obs].
    rewrite gather_outcome, bind_outcome, outcome_bind. apply bind_ext. intros fw _.
    cbn [outcome]. unfold turn_arr. cbn [a_rows a_obs]. do 2 f_equal. rewrite !map_map. apply map_ext. intros r.
    rewrite <- (zip_with_maps vsub vsub (cart Q) (cart Q) (cart Q)).
    - f_equal. rewrite map_map. apply map_ext. intros t. rewrite map_map.
      rewrite !vmean_average3, <- average3_turn, map_map. f_equal. apply map_ext. intros r'. apply nth_turn.
    - intros x y. rewrite !vsub_minus3. symmetry. apply cart_minus.
  Qed.

  (** ** get_disps *)
  Lemma turn_rows d : length (a_rows (turn_arr Q d)) = length (a_rows d).
  Proof. apply map_length. Qed.
  Lemma turn_obs d : a_obs (turn_arr Q d) = a_obs d.
  Proof. reflexivity. Qed.
  Lemma window_turn sampling i ti sel T :
    window sampling i ti (map (map (cart Q)) sel) T = outcome (turn_arr Q) (window sampling i ti sel T).
  Proof.
    unfold window. destruct (String.eqb _ _); [|destruct (String.eqb _ _); [|reflexivity]].
    - cbn. unfold single_origin, turn_arr. cbn [a_rows a_obs]. do 2 f_equal. rewrite !map_map. apply map_ext. intros r.
      rewrite skipn_map, firstn_map. reflexivity.
    - unfold multi_origin. destruct (broadcast2 _ _ _); [|reflexivity]. cbn [bind].
      destruct (py_index _ _); [|reflexivity]. cbn [bind]. rewrite mapM_map.
      rewrite (mapM_ext _ (fun r => outcome (map (cart Q)) (multi_origin_row ti r))).
      + rewrite mapM_outcome, bind_outcome, outcome_bind. apply bind_ext. intros; reflexivity.
      + intros r _. unfold multi_origin_row. rewrite index_outcome, bind_outcome, outcome_bind. apply bind_ext. intros x _.
        rewrite py_from_map, py_to_map, (broadcast2_maps vsub vsub (cart Q) (cart Q) (cart Q)).
        * rewrite bind_outcome, outcome_bind. apply bind_ext. intros; reflexivity.
        * intros u v. rewrite !vsub_minus3. symmetry. apply cart_minus.
  Qed.
  Lemma disps_loop_turn sampling sel T lst tis : forall i,
    disps_loop sampling (map (map (cart Q)) sel) T lst i tis
    = outcome (fun r => (map (turn_arr Q) (fst r), snd r)) (disps_loop sampling sel T lst i tis).
  Proof.
    induction tis as [|ti tis IH]; intros i; cbn [disps_loop]; [reflexivity|].
    rewrite window_turn, bind_outcome, outcome_bind. apply bind_ext. intros d _.
    rewrite turn_obs, outcome_bind. apply bind_ext. intros cnt _.
    rewrite IH, bind_outcome, outcome_bind. apply bind_ext. intros tail _.
    rewrite !turn_rows. destruct (_ <=? _); reflexivity.
  Qed.
  Lemma get_disps_turn ts ss idx sampling mem isz tis dc :
    get_disps ts ss idx sampling mem isz tis (turn_arr Q dc)
    = outcome (fun r => (fst (fst r), map (turn_arr Q) (snd (fst r)), snd r)) (get_disps ts ss idx sampling mem isz tis dc).
  Proof.
    unfold get_disps. destruct tis as [|ti tis].
    - destruct (nltb _ _); reflexivity.
    - unfold turn_arr at 1. cbn [a_rows]. rewrite gather_outcome, bind_outcome, outcome_bind. apply bind_ext. intros sel _.
      cbn [turn_arr a_obs]. destruct (nltb _ _); [reflexivity|]. rewrite disps_loop_turn, bind_outcome, outcome_bind.
      apply bind_ext. intros; reflexivity.
  Qed.
  Lemma parser_init_turn geo d idx drift ts ss o :
    parser_init geo (turn_arr Q d) idx drift ts ss o = outcome (turn_parsed Q) (parser_init geo d idx drift ts ss o).
  Proof.
    unfold parser_init. rewrite correct_drift_turn, bind_outcome, outcome_bind. apply bind_ext. intros dc _.
    cbn [turn_arr a_obs]. rewrite outcome_bind. apply bind_ext. intros q _. rewrite outcome_bind. apply bind_ext. intros m _.
    destruct (_ <=? _); [reflexivity|]. rewrite outcome_bind. apply bind_ext. intros tis _.
    rewrite get_disps_turn, bind_outcome, outcome_bind. apply bind_ext. intros; reflexivity.
  Qed.
  Definition turn_structure (st : Structure R) : Structure R := mkStructure (s_types st) (turn_volume Q (s_volume st)).
  Lemma finish_parse_turn geo circ st coords latt a ss :
    finish_parse geo circ (turn_structure st) coords (map (turn_cell Q) latt) a ss
    = outcome (turn_parsed Q) (finish_parse geo circ st coords latt a ss).
  Proof.
    unfold finish_parse. change (choose_atoms circ (turn_structure st) coords a) with (choose_atoms circ st coords a).
    rewrite outcome_bind. apply bind_ext. intros sel _. rewrite get_disp_turn, bind_outcome, outcome_bind.
    apply bind_ext. intros d _. rewrite parser_init_turn, bind_outcome, outcome_bind. apply bind_ext. intros; reflexivity.
  Qed.
  Lemma duplicate_first_map {S T} (f : S -> T) l : duplicate_first (map f l) = outcome (map f) (duplicate_first l).
  Proof. destruct l; reflexivity. Qed.
  Lemma frames_turn frames k : get_structure_coords_latt (map (turn_frame Q) frames) k
    = outcome (fun r => (turn_structure (fst (fst r)), snd (fst r), map (turn_cell Q) (snd r))) (get_structure_coords_latt frames k).
  Proof.
    unfold get_structure_coords_latt. rewrite stride_outcome, bind_outcome, outcome_bind. apply bind_ext. intros sub _.
    rewrite !map_map. cbn [turn_frame f_pos f_cell]. rewrite outcome_bind. apply bind_ext. intros coords _.
    rewrite <- (map_map f_cell (turn_cell Q)), duplicate_first_map, bind_outcome, outcome_bind. apply bind_ext. intros latt _.
    destruct sub; reflexivity.
  Qed.
  Lemma frames_turn_mda frames sa k : get_structure_coords_latt_mda (map (turn_cartesian_frame Q) frames) sa k
    = outcome (fun r => (turn_structure (fst (fst r)), snd (fst r), map (turn_cell Q) (snd r))) (get_structure_coords_latt_mda frames sa k).
  Proof.
    unfold get_structure_coords_latt_mda. rewrite stride_outcome, bind_outcome, outcome_bind. apply bind_ext. intros sub _.
    rewrite mapM_map. rewrite (mapM_ext _ (fun f => let! inv_matrix := minv (f_cell f) in
        let! atoms := py_stride sa (f_pos f) in Ok (map (fun p => vecmat p inv_matrix) atoms))).
    - rewrite outcome_bind. apply bind_ext. intros scaled _. rewrite outcome_bind. apply bind_ext. intros coords _.
      rewrite !map_map. cbn [turn_cartesian_frame f_cell]. rewrite <- (map_map f_cell (turn_cell Q)), duplicate_first_map, bind_outcome, outcome_bind.
      apply bind_ext. intros latt _. destruct sub as [|f sub]; [reflexivity|]. cbn [map turn_cartesian_frame f_types].
      rewrite outcome_bind. apply bind_ext. intros; reflexivity.
    - intros f _. cbn [turn_cartesian_frame f_cell f_pos].
      destruct (minv_turn (f_cell f)) as [(e & E1 & E2)|(ci & ci' & E1 & E2 & E3)]; rewrite E1, E2; [reflexivity|].
      cbn [bind]. rewrite stride_outcome, bind_outcome. apply bind_ext. intros atoms _. f_equal. rewrite map_map. apply map_ext.
      intros v. rewrite !vecmat_cart. apply E3.
  Qed.
  Lemma C59_ase_proof geo circ frames a :
    ase_parser geo circ (map (turn_frame Q) frames) a = outcome (turn_parsed Q) (ase_parser geo circ frames a).
  Proof.
    unfold ase_parser. rewrite frames_turn, bind_outcome, outcome_bind. apply bind_ext. intros [[st coords] latt] _.
    apply finish_parse_turn.
  Qed.
  Lemma C59_pymatgen_proof geo circ frames a :
    pymatgen_parser geo circ (map (turn_frame Q) frames) a = outcome (turn_parsed Q) (pymatgen_parser geo circ frames a).
  Proof.
    unfold pymatgen_parser. rewrite frames_turn, bind_outcome, outcome_bind. apply bind_ext. intros [[st coords] latt] _.
    cbn [fst snd]. rewrite finish_parse_turn, bind_outcome, outcome_bind. apply bind_ext. intros p _.
    destruct (a_time_step a); reflexivity.
  Qed.
  Lemma C59_mda_proof geo circ frames a :
    mda_parser geo circ (map (turn_cartesian_frame Q) frames) a = outcome (turn_parsed Q) (mda_parser geo circ frames a).
  Proof.
    unfold mda_parser. rewrite outcome_bind. apply bind_ext. intros _ _.
    rewrite frames_turn_mda, bind_outcome, outcome_bind. apply bind_ext. intros [[st coords] latt] _.
    apply finish_parse_turn.
  Qed.

  (** ** Several trajectories *)
  Lemma fit_axis_map {S T} (f : S -> T) n l : fit_axis n (map f l) = outcome (map f) (fit_axis n l).
  Proof.
    unfold fit_axis. rewrite map_length. destruct (Nat.eqb _ _); [reflexivity|].
    destruct l as [|x [|y l]]; try reflexivity. cbn. f_equal.
    induction n as [|n IH]; cbn; [reflexivity|]. now rewrite IH.
  Qed.
  Lemma assign_block_turn n obs d : assign_block n obs (turn_arr Q d) = outcome (map (map (cart Q))) (assign_block n obs d).
  Proof.
    unfold assign_block. cbn [turn_arr a_rows]. rewrite fit_axis_map, bind_outcome, outcome_bind. apply bind_ext. intros rows _.
    rewrite mapM_map, <- mapM_outcome. apply mapM_ext. intros r _. apply fit_axis_map.
  Qed.
  Lemma stack_one_turn u i d0 : stack_one (map (turn_parsed Q) u) i (turn_arr Q d0) = outcome (turn_arr Q) (stack_one u i d0).
  Proof.
    unfold stack_one. rewrite mapM_map, turn_rows, turn_obs.
    rewrite (mapM_ext _ (fun p => outcome (map (map (cart Q))) (let! d := py_index (p_disp_3d p) (Z.of_nat i) in
                                  assign_block (length (a_rows d0)) (a_obs d0) d))).
    - rewrite mapM_outcome, bind_outcome, outcome_bind. apply bind_ext. intros blocks _. cbn [outcome]. unfold turn_arr. cbn [a_rows a_obs].
      now rewrite concat_map.
    - intros p _. cbn [turn_parsed p_disp_3d]. rewrite index_outcome, bind_outcome, outcome_bind. apply bind_ext. intros d _.
      apply assign_block_turn.
  Qed.
  Lemma combine_map_r {S T U} (f : T -> U) (a : list S) b : combine a (map f b) = map (fun p => (fst p, f (snd p))) (combine a b).
  Proof. revert b. induction a as [|x a IH]; intros [|y b]; cbn; try reflexivity. now rewrite IH. Qed.
  Lemma stack_turn u : stack_trajectories (map (turn_parsed Q) u) = outcome (map (turn_arr Q)) (stack_trajectories u).
  Proof.
    unfold stack_trajectories. destruct u as [|p0 u]; [reflexivity|]. cbn [map]. cbn [turn_parsed p_disp_3d].
    rewrite map_length, combine_map_r, mapM_map, <- mapM_outcome. apply mapM_ext. intros [i d] _. cbn [fst snd].
    apply (stack_one_turn (p0 :: u)).
  Qed.
  Lemma sum_n_o_turn u : forall acc, sum_n_o acc (map (turn_parsed Q) u) = sum_n_o acc u.
  Proof. induction u as [|p u IH]; intros acc; cbn; [reflexivity|]. apply bind_ext. intros; apply IH. Qed.
  Lemma identical_turn {S} (parse : S -> Res (Parsed R)) (f : S -> S) ts :
    (forall t, parse (f t) = outcome (turn_parsed Q) (parse t)) ->
    identical parse (map f ts) = outcome (turn_data Q) (identical parse ts).
  Proof.
    intros H. unfold identical. rewrite mapM_map, (mapM_ext _ _ _ (fun t _ => H t)), mapM_outcome, bind_outcome, outcome_bind.
    apply bind_ext. intros u _. destruct u as [|p0 u]; [reflexivity|]. cbn [map].
    change (turn_parsed Q p0 :: map (turn_parsed Q) u) with (map (turn_parsed Q) (p0 :: u)).
    rewrite sum_n_o_turn, outcome_bind. apply bind_ext. intros n_o _. rewrite stack_turn, bind_outcome, outcome_bind.
    apply bind_ext. intros; reflexivity.
  Qed.
  Lemma from_frames_turn {Fr} (parse : list Fr -> Res (Parsed R)) (f : Fr -> Fr) t dtype :
    (forall l, parse (map f l) = outcome (turn_parsed Q) (parse l)) ->
    from_frames parse (map_trajectory f t) dtype = outcome (turn_data Q) (from_frames parse t dtype).
  Proof.
    intros H. unfold from_frames. destruct dtype as [d|].
    - destruct (String.eqb _ _); [|destruct (String.eqb _ _); [|reflexivity]]; destruct t as [l|ls]; try reflexivity; cbn [map_trajectory].
      + now apply identical_turn.
      + unfold flatten_list. rewrite <- concat_map, H, bind_outcome, outcome_bind. apply bind_ext. intros; reflexivity.
    - destruct t as [l|ls]; [|reflexivity]. cbn [map_trajectory]. rewrite H, bind_outcome, outcome_bind. apply bind_ext. intros; reflexivity.
  Qed.
  Lemma from_universe_turn {Fr} (parse : list Fr -> Res (Parsed R)) (f : Fr -> Fr) t dtype :
    (forall l, parse (map f l) = outcome (turn_parsed Q) (parse l)) ->
    from_universe parse (map_trajectory f t) dtype = outcome (turn_data Q) (from_universe parse t dtype).
  Proof.
    intros H. unfold from_universe. destruct dtype as [d|].
    - destruct (String.eqb _ _); [|reflexivity]; destruct t as [l|ls]; try reflexivity; cbn [map_trajectory].
      now apply identical_turn.
    - destruct t as [l|ls]; [|reflexivity]. cbn [map_trajectory]. rewrite H, bind_outcome, outcome_bind. apply bind_ext. intros; reflexivity.
  Qed.
End Linear.

(** ** Statistics *)
Lemma coll_any axes obs (rows : list (list (V3 R))) :
  coll_motion obs (length axes) (map (map (fun v => map (coord v) axes)) rows)
  = tab obs (fun t => sqlen axes (sum3 (map (fun row => nth t row zero3) rows))).
Proof.
  unfold coll_motion, sum_atoms, tab. rewrite map_map. apply map_ext. intros t.
  rewrite <- (sq_norm_coord axes). f_equal. rewrite <- map_nth_axes. apply map_seq_ext. intros k Hk.
  rewrite nsum_R, map_map, coord_sum3, map_map. f_equal. apply map_ext. intros row.
  destruct (Nat.lt_ge_cases t (length row)) as [Ht|Ht].
  - rewrite (nth_indep (map _ row) [] ((fun v => map (coord v) axes) zero3)) by (rewrite map_length; lia).
    rewrite (map_nth (fun v => map (coord v) axes)).
    rewrite (nth_indep _ n0 (coord (nth t row zero3) AX)) by (rewrite map_length; lia).
    now rewrite map_nth.
  - rewrite !nth_overflow with (n := t) by (rewrite ?map_length; lia). destruct k; destruct (nth _ axes AX); reflexivity.
Qed.
Lemma sum3_turn Q l : sum3 (map (cart Q) l) = cart Q (sum3 l).
Proof.
  unfold sum3. rewrite !map_map. apply V3_eq; cbn [vx vy vz cart]; apply rsum_lin.
Qed.
Section Stats.
  Context (Q : M3 R) (axes axes' : list axis) (HC : carries Q axes axes').
  Lemma coll_turn obs (rows : list (list (V3 R))) :
    coll_motion obs (length axes') (map (map (fun v => map (coord v) axes')) (map (map (cart Q)) rows))
    = coll_motion obs (length axes) (map (map (fun v => map (coord v) axes)) rows).
  Proof.
    rewrite !coll_any. unfold tab. apply map_ext. intros t. rewrite map_map.
    rewrite <- (proj2 HC), <- sum3_turn, map_map. do 2 f_equal. apply map_ext. intros row.
    rewrite <- (map_nth (cart Q)). now rewrite cart_zero.
  Qed.
  Lemma d_squared_turn (rows : list (list (V3 R))) :
    d_squared (map (map (fun v => map (coord v) axes')) (map (map (cart Q)) rows))
    = d_squared (map (map (fun v => map (coord v) axes)) rows).
  Proof.
    rewrite !d_squared_axes, <- concat_map, map_map. apply map_ext. apply (proj2 HC).
  Qed.
End Stats.
Lemma sq_chg_turn Q q d : carries Q all_axes all_axes -> sq_chg_motion q (turn_arr Q d) = sq_chg_motion q d.
Proof.
  intros HC. unfold sq_chg_motion.
  assert (E : forall rows : list (list (V3 R)),
     broadcast2 (fun c row => map (fun v => map (fun x => nmul c x) (components v)) row) q rows
     = outcome (map (map (fun v => map (coord v) all_axes))) (broadcast2 (fun c row => map (scale3 c) row) q rows)).
  { intros rows. rewrite <- (map_id q) at 1. rewrite <- (map_id rows) at 1.
    apply broadcast2_maps. intros c row. rewrite map_map. apply map_ext. reflexivity. }
  rewrite !E. cbn [turn_arr a_rows a_obs].
  assert (E2 : broadcast2 (fun c row => map (scale3 c) row) q (map (map (cart Q)) (a_rows d))
    = outcome (map (map (cart Q))) (broadcast2 (fun c row => map (scale3 c) row) q (a_rows d))).
  { rewrite <- (map_id q) at 1. apply broadcast2_maps. intros c row. rewrite !map_map. apply map_ext. intros v. v3eq. }
  rewrite E2, !bind_outcome. apply bind_ext. intros rows _. f_equal.
  exact (coll_turn Q all_axes all_axes HC (a_obs d) rows).
Qed.

(** ** The bootstrap classes *)
Section Boots.
  Context {G Seed RS : Type} (X : Ext R G Seed RS) (Q : M3 R) (dim' : pystr) (sl' : axis_slice).
  Notation tb := (turn_boot Q dim' sl').
  Lemma boot_step_turn u q q' n_samples n_o i d b g axes axes' :
    carries Q axes axes' -> slice_axes (b_slice b) axes -> slice_axes sl' axes' ->
    (q' (turn_arr Q d) (map (map (fun v => map (coord v) axes')) (map (map (cart Q)) (a_rows d)))
     = q d (map (map (fun v => map (coord v) axes)) (a_rows d))) ->
    boot_step X (with_dim u dim') q' n_samples n_o i (turn_arr Q d) (tb b) g
    = outcome (on_first tb) (boot_step X u q n_samples n_o i d b g).
  Proof.
    intros HC H1 H2 Hq. unfold boot_step. cbn [turn_boot b_slice].
    rewrite (disp_slice_axes _ _ _ H1), (disp_slice_axes _ _ _ H2). cbn [bind].
    cbn [with_dim u_bootstrap u_block u_n_resamples u_max_resamples u_alpha].
    change (a_rows (turn_arr Q d)) with (map (map (cart Q)) (a_rows d)). rewrite Hq.
    rewrite (d_squared_turn Q axes axes' HC), map_length.
    destruct (q d _) as [qs|e]; [|reflexivity]. cbn [bind].
    destruct (length qs <=? 1)%nat; [reflexivity|].
    rewrite outcome_bind. apply bind_ext. intros [boot g'] _.
    rewrite outcome_bind. apply bind_ext. intros [n v] _.
    rewrite outcome_bind. apply bind_ext. intros vi _.
    rewrite outcome_bind. apply bind_ext. intros dt _. reflexivity.
  Qed.
  Lemma boot_step_slice u q n_samples n_o i d b g b' g' : boot_step X u q n_samples n_o i d b g = Ok (b', g') ->
    b_slice b' = b_slice b.
  Proof.
    unfold boot_step. intros H. inv_bind H ds E1. inv_bind H qs E2. destruct (_ <=? _)%nat; [injection H as <- <-; reflexivity|].
    inv_bind H bg E3. destruct bg as [boot g1]. inv_bind H nv E4. destruct nv as [n v]. inv_bind H vi E5. inv_bind H dt E6.
    injection H as <- <-. reflexivity.
  Qed.
  Lemma boot_loop_turn u q q' n_samples n_o axes axes' : carries Q axes axes' -> slice_axes sl' axes' ->
    (forall d, q' (turn_arr Q d) (map (map (fun v => map (coord v) axes')) (map (map (cart Q)) (a_rows d)))
       = q d (map (map (fun v => map (coord v) axes)) (a_rows d))) ->
    forall ds i b g, slice_axes (b_slice b) axes ->
    boot_loop X (with_dim u dim') q' n_samples n_o i (map (turn_arr Q) ds) (tb b) g
    = outcome (on_first tb) (boot_loop X u q n_samples n_o i ds b g).
  Proof.
    intros HC H2 Hq. induction ds as [|d ds IH]; intros i b g H1; cbn [boot_loop map]; [reflexivity|].
    rewrite (boot_step_turn u q q' n_samples n_o i d b g axes axes' HC H1 H2 (Hq d)), bind_outcome, outcome_bind.
    apply bind_ext. intros [b1 g1] E. cbn [on_first fst snd]. apply IH. now rewrite (boot_step_slice _ _ _ _ _ _ _ _ _ _ E).
  Qed.
End Boots.
Section Constructors.
  Context {G Seed RS : Type} (X : Ext R G Seed RS) (Q : M3 R).
  Lemma init_turn dts disps n_o k dim dim' axes axes' : carries Q axes axes' ->
    names (pystr_text dim) axes -> names (pystr_text dim') axes' ->
    exists sl', slice_axes sl' axes' /\ dict_get (pystr_lower dim') DIMENSIONALITY = Ok sl'
      /\ bootstrap_init dts (map (turn_arr Q) disps) n_o k dim' = outcome (turn_boot Q dim' sl') (bootstrap_init dts disps n_o k dim).
  Proof.
    intros HC N1 N2.
    destruct (dimension_lookup dim) as [(ax & sl & A1 & A2 & A3 & A4)|[A1 _]]; [|now destruct (A1 axes)].
    destruct (dimension_lookup dim') as [(ax' & sl' & B1 & B2 & B3 & B4)|[B1 _]]; [|now destruct (B1 axes')].
    rewrite (names_unique _ _ _ A1 N1) in *. rewrite (names_unique _ _ _ B1 N2) in *.
    exists sl'. split; [exact B3|]. split; [exact B2|]. unfold bootstrap_init. rewrite stride_outcome, bind_outcome, outcome_bind.
    apply bind_ext. intros ds _. rewrite outcome_bind. apply bind_ext. intros ts _.
    rewrite index_outcome, bind_outcome, outcome_bind. apply bind_ext. intros d0 _. rewrite A2, B2. cbn [bind outcome].
    rewrite A4, B4, (proj1 HC). reflexivity.
  Qed.
  Lemma init_slice dts disps n_o k dim axes (b : Boot R) : names (pystr_text dim) axes ->
    bootstrap_init dts disps n_o k dim = Ok b -> slice_axes (b_slice b) axes /\ b_dims b = length axes.
  Proof.
    intros N H. apply bootstrap_init_ok in H as (ax & N' & H1 & H2 & _). now rewrite (names_unique _ _ _ N' N) in *.
  Qed.
  Lemma first_half_map {S T} (f : S -> T) l : first_half (map f l) = map f (first_half l).
  Proof. unfold first_half. rewrite map_length. apply firstn_map. Qed.
  Lemma trim_turn dim sl b : trim_n_o (turn_boot Q dim sl b) = turn_boot Q dim sl (trim_n_o b).
  Proof. reflexivity. Qed.
  Lemma msd_turn u dts disps n_o g dim' axes axes' : carries Q axes axes' ->
    names (pystr_text (u_dimension u)) axes -> names (pystr_text dim') axes' ->
    exists sl', dict_get (pystr_lower dim') DIMENSIONALITY = Ok sl'
      /\ msd_bootstrap X (with_dim u dim') dts (map (turn_arr Q) disps) n_o g
       = outcome (on_first (turn_boot Q dim' sl')) (msd_bootstrap X u dts disps n_o g).
  Proof.
    intros HC N1 N2. destruct (init_turn dts disps n_o (u_sub_sample_dt u) _ _ _ _ HC N1 N2) as (sl' & S1 & S2 & S3).
    exists sl'. split; [exact S2|]. unfold msd_bootstrap. cbn [with_dim u_sub_sample_dt u_dimension].
    rewrite S3, bind_outcome, outcome_bind. apply bind_ext. intros b E. destruct (init_slice _ _ _ _ _ _ _ N1 E) as [Sb Db].
    cbn [turn_boot b_displacements].
    rewrite (boot_loop_turn X Q dim' sl' u (fun _ ds => Ok (d_squared ds)) (fun _ ds => Ok (d_squared ds)) _ _ axes axes' HC S1).
    - rewrite bind_outcome, outcome_bind. apply bind_ext. intros [b' g'] _. reflexivity.
    - intros d. now rewrite (d_squared_turn Q axes axes' HC).
    - exact Sb.
  Qed.
  Lemma mstd_turn u dts disps n_o g dim' axes axes' : carries Q axes axes' ->
    names (pystr_text (u_dimension u)) axes -> names (pystr_text dim') axes' ->
    exists sl', dict_get (pystr_lower dim') DIMENSIONALITY = Ok sl'
      /\ mstd_bootstrap X (with_dim u dim') dts (map (turn_arr Q) disps) n_o g
       = outcome (on_first (turn_boot Q dim' sl')) (mstd_bootstrap X u dts disps n_o g).
  Proof.
    intros HC N1 N2. destruct (init_turn dts disps n_o (u_sub_sample_dt u) _ _ _ _ HC N1 N2) as (sl' & S1 & S2 & S3).
    exists sl'. split; [exact S2|]. unfold mstd_bootstrap. cbn [with_dim u_sub_sample_dt u_dimension].
    rewrite S3, bind_outcome, outcome_bind. apply bind_ext. intros b E. destruct (init_slice _ _ _ _ _ _ _ N1 E) as [Sb Db].
    cbn [turn_boot b_displacements b_dims]. rewrite first_half_map, Db.
    rewrite (boot_loop_turn X Q dim' sl' u (fun d ds => Ok (coll_motion (a_obs d) (length axes) ds)) _ _ _ axes axes' HC S1).
    - rewrite bind_outcome, outcome_bind. apply bind_ext. intros [b' g'] _. reflexivity.
    - intros d. f_equal. cbn [turn_arr a_obs]. rewrite <- (proj1 HC) at 1. apply (coll_turn Q axes axes' HC).
    - exact Sb.
  Qed.
  Lemma mscd_turn u dts disps q n_o g dim' axes axes' : carries Q axes axes' -> carries Q all_axes all_axes ->
    names (pystr_text (u_dimension u)) axes -> names (pystr_text dim') axes' ->
    exists sl', dict_get (pystr_lower dim') DIMENSIONALITY = Ok sl'
      /\ mscd_bootstrap X (with_dim u dim') dts (map (turn_arr Q) disps) q n_o g
       = outcome (on_first (turn_boot Q dim' sl')) (mscd_bootstrap X u dts disps q n_o g).
  Proof.
    intros HC HA N1 N2. destruct (init_turn dts disps n_o (u_sub_sample_dt u) _ _ _ _ HC N1 N2) as (sl' & S1 & S2 & S3).
    exists sl'. split; [exact S2|]. unfold mscd_bootstrap. cbn [with_dim u_sub_sample_dt u_dimension].
    rewrite S3, bind_outcome, outcome_bind. apply bind_ext. intros b E. destruct (init_slice _ _ _ _ _ _ _ N1 E) as [Sb Db].
    cbn [turn_boot b_displacements]. rewrite index_outcome, bind_outcome, outcome_bind. apply bind_ext. intros d0 _.
    rewrite turn_rows, first_half_map.
    rewrite (boot_loop_turn X Q dim' sl' u (fun d _ => sq_chg_motion (charge_array q (length (a_rows d0))) d)
      (fun d _ => sq_chg_motion (charge_array q (length (a_rows d0))) d) _ _ axes axes' HC S1).
    - rewrite bind_outcome, outcome_bind. apply bind_ext. intros [b' g'] _. reflexivity.
    - intros d. now apply sq_chg_turn.
    - exact Sb.
  Qed.
  Definition turn_state dim sl (r : Boot R * G * Res unit) : Boot R * G * Res unit :=
    (turn_boot Q dim sl (fst (fst r)), snd (fst r), snd r).
  Lemma gls_turn dim sl b (p : GLSParams R RS) g :
    bootstrap_GLS X (turn_boot Q dim sl b) p g = turn_state dim sl (bootstrap_GLS X b p g).
  Proof.
    unfold bootstrap_GLS. cbn [turn_boot set_settings b_dt]. set (g0 := match l_random_state p with Some _ => _ | None => _ end).
    change (b_dt (set_settings b p)) with (b_dt b).
    change (b_dt (set_settings (turn_boot Q dim sl b) p)) with (b_dt b).
    destruct (find_regime (l_start_dt p) 0 (b_dt b)) as [dr|e]; [|reflexivity].
    change (generate_covariance_matrix X (set_settings (turn_boot Q dim sl b) p) p dr)
      with (generate_covariance_matrix X (set_settings b p) p dr).
    destruct (generate_covariance_matrix X (set_settings b p) p dr) as [[raw|] [cov|e]]; try reflexivity.
    change (sample_gls X (set_covariance (set_settings (turn_boot Q dim sl b) p) cov) p dr cov g0)
      with (sample_gls X (set_covariance (set_settings b p) cov) p dr cov g0).
    destruct (sample_gls X (set_covariance (set_settings b p) cov) p dr cov g0) as [g' [chain|e]]; [|reflexivity].
    destruct (column 0 chain) as [gr|e]; [|reflexivity].
    destruct (l_fit_intercept p); [|reflexivity]. destruct (column 1 chain); reflexivity.
  Qed.
  Lemma run_call_turn dim sl b g c : run_call X (turn_boot Q dim sl b) g c = turn_state dim sl (run_call X b g c).
  Proof.
    destruct c as [p|p|k p t vol]; cbn [run_call].
    - unfold diffusion. rewrite gls_turn. destruct (bootstrap_GLS X b p g) as [[b1 g1] [[]|e]]; [|reflexivity].
      cbn [turn_state fst snd]. cbn [turn_boot b_gradient]. destruct (samples_of (b_gradient b1)); reflexivity.
    - unfold jump_diffusion. rewrite gls_turn. destruct (bootstrap_GLS X b p g) as [[b1 g1] [[]|e]]; [|reflexivity].
      cbn [turn_state fst snd]. cbn [turn_boot b_gradient b_displacements]. destruct (samples_of (b_gradient b1)); [|reflexivity].
      rewrite index_outcome. destruct (py_index (b_displacements b1) 0) as [d0|e]; [|reflexivity]. cbn [outcome]. now rewrite turn_rows.
    - unfold conductivity. rewrite gls_turn. destruct (bootstrap_GLS X b p g) as [[b1 g1] [[]|e]]; [|reflexivity].
      cbn [turn_state fst snd]. cbn [turn_boot b_gradient]. destruct (samples_of (b_gradient b1)); reflexivity.
  Qed.
End Constructors.

(** ** Analysers *)
Section Analysers.
  Context {G Seed RS : Type} (X : Ext R G Seed RS) (Q : M3 R).
  Lemma C59_analysis_proof dim dim' axes axes' : carries Q axes axes' ->
    names (pystr_text dim) axes -> names (pystr_text dim') axes' ->
    exists sl, forall d u g, u_dimension u = dim ->
      diffusion_analyzer X (turn_data Q d) (with_dim u dim') g
        = outcome (on_first (turn_analyzer Q dim' sl)) (diffusion_analyzer X d u g)
      /\ jump_diffusion_analyzer X (turn_data Q d) (with_dim u dim') g
        = outcome (on_first (turn_analyzer Q dim' sl)) (jump_diffusion_analyzer X d u g)
      /\ (carries Q all_axes all_axes -> forall q,
          conductivity_analyzer X (turn_data Q d) q (with_dim u dim') g
          = outcome (on_first (turn_analyzer Q dim' sl)) (conductivity_analyzer X d q u g)).
  Proof.
    intros HC N1 N2.
    destruct (dimension_lookup dim') as [(ax' & sl & B1 & B2 & B3 & B4)|[B1 _]]; [|now destruct (B1 axes')].
    exists sl. intros d u g E. rewrite <- E in N1. split; [|split].
    - unfold diffusion_analyzer. destruct (msd_turn X Q u (an_delta_t d) (an_disp_3d d) (an_n_o d) g dim' axes axes' HC N1 N2) as (sl' & S1 & S2).
      assert (sl' = sl) by congruence. subst sl'. cbn [turn_data an_delta_t an_disp_3d an_n_o]. rewrite S2, bind_outcome, outcome_bind.
      apply bind_ext. intros [b g'] _. reflexivity.
    - unfold jump_diffusion_analyzer. destruct (mstd_turn X Q u (an_delta_t d) (an_disp_3d d) (an_n_o d) g dim' axes axes' HC N1 N2) as (sl' & S1 & S2).
      assert (sl' = sl) by congruence. subst sl'. cbn [turn_data an_delta_t an_disp_3d an_n_o]. rewrite S2, bind_outcome, outcome_bind.
      apply bind_ext. intros [b g'] _. reflexivity.
    - intros HA q. unfold conductivity_analyzer.
      destruct (mscd_turn X Q u (an_delta_t d) (an_disp_3d d) q (an_n_o d) g dim' axes axes' HC HA N1 N2) as (sl' & S1 & S2).
      assert (sl' = sl) by congruence. subst sl'. cbn [turn_data an_delta_t an_disp_3d an_n_o]. rewrite S2, bind_outcome, outcome_bind.
      apply bind_ext. intros [b g'] _. reflexivity.
  Qed.
  Lemma orthogonal_volume : carries Q all_axes all_axes -> Rabs (cell_volume Q) = 1%R.
  Proof.
    intros [_ H].
    assert (S : forall a b c, sqlen all_axes (cart Q (mkV a b c)) = (a * a + b * b + c * c)%R).
    { intros a b c. rewrite H. unfold sqlen. cbn. ring. }
    pose proof (S 1 0 0)%R as A1. pose proof (S 0 1 0)%R as A2. pose proof (S 0 0 1)%R as A3.
    pose proof (S 1 1 0)%R as A4. pose proof (S 1 0 1)%R as A5. pose proof (S 0 1 1)%R as A6.
    unfold sqlen in *. cbn in A1, A2, A3, A4, A5, A6. clear S H.
    destruct Q as [[a b c] [d e f] [g h i]]. unfold cell_volume. cbn in *.
    set (V := (a * (e * i - f * h) + b * (f * g - d * i) + c * (d * h - e * g))%R).
    assert (G11 : (a*a+b*b+c*c = 1)%R) by lra. assert (G22 : (d*d+e*e+f*f = 1)%R) by lra. assert (G33 : (g*g+h*h+i*i = 1)%R) by lra.
    assert (G12 : (a*d+b*e+c*f = 0)%R) by lra. assert (G13 : (a*g+b*h+c*i = 0)%R) by lra. assert (G23 : (d*g+e*h+f*i = 0)%R) by lra.
    assert (E : (V * V = (a*a+b*b+c*c) * ((d*d+e*e+f*f) * (g*g+h*h+i*i) - (d*g+e*h+f*i) * (d*g+e*h+f*i))
       - (a*d+b*e+c*f) * ((a*d+b*e+c*f) * (g*g+h*h+i*i) - (d*g+e*h+f*i) * (a*g+b*h+c*i))
       + (a*g+b*h+c*i) * ((a*d+b*e+c*f) * (d*g+e*h+f*i) - (d*d+e*e+f*f) * (a*g+b*h+c*i)))%R) by (unfold V; ring).
    rewrite G11, G22, G33, G12, G13, G23 in E. clearbody V.
    assert (E2 : (V = 1 \/ V = -1)%R).
    { assert (Z0 : ((V - 1) * (V + 1) = 0)%R) by (ring_simplify; lra). apply Rmult_integral in Z0 as [Z0|Z0]; [left|right]; lra. }
    destruct E2 as [-> | ->]; [apply Rabs_R1|]. rewrite Rabs_left; lra.
  Qed.
  Lemma orthogonal_invertible : carries Q all_axes all_axes -> invertible Q.
  Proof. intros H E. apply orthogonal_volume in H. rewrite E, Rabs_R0 in H. lra. Qed.
  Lemma C59_fit_proof dim sl a (p : GLSParams R RS) g :
    an_diffusion X (turn_analyzer Q dim sl a) p g = turn_run Q dim sl (an_diffusion X a p g)
    /\ an_jump_diffusion X (turn_analyzer Q dim sl a) p g = turn_run Q dim sl (an_jump_diffusion X a p g)
    /\ (carries Q all_axes all_axes -> forall k t,
        an_conductivity X k (turn_analyzer Q dim sl a) p t g = turn_run Q dim sl (an_conductivity X k a p t g)).
  Proof.
    split; [|split].
    - unfold an_diffusion. cbn [turn_analyzer an_diff an_data]. pose proof (run_call_turn X Q dim sl (an_diff a) g (CallDiffusion p)) as E.
      cbn [run_call] in E. rewrite E. destruct (diffusion X (an_diff a) p g) as [[b g'] r]. reflexivity.
    - unfold an_jump_diffusion. cbn [turn_analyzer an_diff an_data]. pose proof (run_call_turn X Q dim sl (an_diff a) g (CallJump p)) as E.
      cbn [run_call] in E. rewrite E. destruct (jump_diffusion X (an_diff a) p g) as [[b g'] r]. reflexivity.
    - intros HA k t. unfold an_conductivity. cbn [turn_analyzer an_diff an_data]. cbn [turn_data an_volume].
      destruct (an_volume (an_data a)) as [vol|]; cbn [option_map].
      + replace (turn_volume Q vol) with vol by (unfold turn_volume; rewrite (orthogonal_volume HA); lra).
        pose proof (run_call_turn X Q dim sl (an_diff a) g (CallConductivity k p t vol)) as E.
        cbn [run_call] in E. rewrite E. destruct (conductivity X k (an_diff a) p t vol g) as [[b g'] r]. reflexivity.
      + rewrite gls_turn. destruct (bootstrap_GLS X (an_diff a) p g) as [[b g'] [[]|e]]; reflexivity.
  Qed.
End Analysers.
Lemma C59_frames_proof Q geo circ a parse t dtype : invertible Q -> In parse [ase_parser; pymatgen_parser] ->
  from_frames (fun fs => parse geo circ fs a) (map_trajectory (turn_frame Q) t) dtype
  = outcome (turn_data Q) (from_frames (fun fs => parse geo circ fs a) t dtype).
Proof.
  intros HQ [<-|[<-|[]]]; apply from_frames_turn; intros l; [now apply C59_ase_proof|now apply C59_pymatgen_proof].
Qed.
Lemma C59_universe_proof Q geo circ a t dtype : invertible Q ->
  from_universe (fun fs => mda_parser geo circ fs a) (map_trajectory (turn_cartesian_frame Q) t) dtype
  = outcome (turn_data Q) (from_universe (fun fs => mda_parser geo circ fs a) t dtype).
Proof. intros HQ. apply from_universe_turn. intros l. now apply C59_mda_proof. Qed.

Definition tilt : M3 R := mkM (mkV (3/5) (4/5) 0)%R (mkV (-4/5) (3/5) 0)%R (mkV 0 0 1)%R.
Definition quarter_turn : M3 R := mkM (mkV 0 1 0)%R (mkV (-1) 0 0)%R (mkV 0 0 1)%R.
Lemma C59_example_proof : carries tilt all_axes all_axes /\ carries tilt [AX; AY] [AX; AY] /\ carries quarter_turn [AX] [AY]
  /\ forall circ, let a := hop_params 1 (PyFloat 1%R) (mkOptions (Some 1) (Some 3) 100 "linear" "multi-origin" 8 8)%R in
     exists p, ase_parser geomspace_R circ (hop_frames 3) a = Ok p
       /\ ase_parser geomspace_R circ (map (turn_frame tilt) (hop_frames 3)) a = Ok (turn_parsed tilt p).
Proof.
  assert (T : carries tilt all_axes all_axes) by (split; [reflexivity|intros v; unfold sqlen; cbn; field]).
  split; [exact T|]. split; [split; [reflexivity|intros v; unfold sqlen; cbn; field]|].
  split; [split; [reflexivity|intros v; unfold sqlen; cbn; field]|].
  intros circ a. destruct (C07_refuted_proof circ) as (p & arr & H & _). exists p. split; [exact H|].
  rewrite C59_ase_proof by now apply orthogonal_invertible. fold a in H. rewrite H. reflexivity.
Qed.

(** ** Change of the length unit *)
Lemma scaling_volume c : cell_volume (scaling c) = (c * c * c)%R.
Proof. unfold cell_volume, scaling; cbn. ring. Qed.
Lemma scaling_invertible c : c <> 0%R -> invertible (scaling c).
Proof. intros H. unfold invertible. rewrite scaling_volume. repeat apply Rmult_integral_contrapositive_currified; exact H. Qed.
Lemma scaling_cart c v : cart (scaling c) v = scale3 c v.
Proof. v3eq. Qed.
Lemma scaling_arr c d : turn_arr (scaling c) d = scale_arr c d.
Proof.
  unfold turn_arr, scale_arr. f_equal. apply map_ext. intros r. apply map_ext. intros v. apply scaling_cart.
Qed.
Lemma sample_variance_scale k l : sample_variance (map (Rmult k) l) = (k * k * sample_variance l)%R.
Proof.
  unfold sample_variance. rewrite average_scale, map_map, map_length.
  rewrite (map_ext _ (fun x => (k * k) * ((x - average l) * (x - average l)))%R) by (intros; ring).
  rewrite rsum_map_scale. unfold Rdiv. ring.
Qed.
Lemma non_gaussian_scale k l : k <> 0%R -> average l <> 0%R -> non_gaussian (map (Rmult k) l) = non_gaussian l.
Proof.
  intros Hk Hm. unfold non_gaussian. rewrite average_scale, map_map.
  rewrite (map_ext (fun x => (k * x * (k * x))%R) (fun x => (k * k) * (x * x))%R) by (intros; ring).
  rewrite <- (map_map (fun x => x * x)%R (Rmult (k * k))), average_scale. field. auto.
Qed.
Section Scale.
  Context {G Seed RS : Type} (X : Ext R G Seed RS).
  Lemma report_scale u ns n_o dts axes Qf Qf' f k used shown b shown' b' :
    (forall d, In d used -> Qf' (f d) = map (Rmult k) (Qf d)) -> (forall d, length (a_rows (f d)) = length (a_rows d)) ->
    u_block u = false ->
    boot_report X u ns n_o dts axes Qf used shown b -> boot_report X u ns n_o dts axes Qf' (map f used) shown' b' ->
    b_n b' = map (Rmult k) (b_n b) /\ b_v b' = map (Rmult (k * k)) (b_v b) /\ b_dt b' = b_dt b /\ length shown' = length shown.
  Proof.
    intros HQ HL HB H H'.
    assert (E : shown' = map f shown).
    { eapply (leading_map f); [|exact (br_shown _ _ _ _ _ _ _ _ _ _ H)|exact (br_shown _ _ _ _ _ _ _ _ _ _ H')].
      intros d Hd. cbn beta. rewrite HQ by exact Hd. now rewrite map_length. }
    assert (HS : forall d, In d shown -> In d used).
    { intros d Hd. exact (proj1 (leading_In _ _ _ _ (br_shown _ _ _ _ _ _ _ _ _ _ H) Hd)). }
    split; [|split; [|split]].
    - rewrite (br_n _ _ _ _ _ _ _ _ _ _ H HB), (br_n _ _ _ _ _ _ _ _ _ _ H' HB), E, !map_map. apply map_ext_in. intros d Hd.
      rewrite HQ by now apply HS. apply average_scale.
    - apply list_ext. intros i. rewrite nth_error_map.
      destruct (Nat.lt_ge_cases i (length shown)) as [Hi|Hi].
      + destruct (nth_error shown i) as [d|] eqn:Ed; [|apply nth_error_None in Ed; lia].
        destruct (br_v _ _ _ _ _ _ _ _ _ _ H HB i d Ed) as (no & N1 & V1).
        destruct (br_v _ _ _ _ _ _ _ _ _ _ H' HB i (f d)) as (no' & N2 & V2); [rewrite E, nth_error_map, Ed; reflexivity|].
        rewrite V1, V2. cbn. f_equal. assert (no' = no) by congruence. subst no'.
        rewrite HQ by (apply HS; eapply nth_error_In; eauto). rewrite sample_variance_scale, HL. unfold Rdiv. ring.
      + rewrite (proj2 (nth_error_None (b_v b') i)), (proj2 (nth_error_None (b_v b) i)); [reflexivity|..].
        * rewrite (br_v_len _ _ _ _ _ _ _ _ _ _ H). lia.
        * rewrite (br_v_len _ _ _ _ _ _ _ _ _ _ H'), E, map_length. lia.
    - rewrite (br_dt _ _ _ _ _ _ _ _ _ _ H), (br_dt _ _ _ _ _ _ _ _ _ _ H'), E, map_length. reflexivity.
    - rewrite E. apply map_length.
  Qed.
  Lemma at_time_scale c d t : at_time (scale_arr c d) t = map (scale3 c) (at_time d t).
  Proof.
    unfold at_time, scale_arr. cbn [a_rows]. induction (a_rows d) as [|r rows IH]; [reflexivity|]. cbn.
    rewrite IH, map_app, nth_error_map. destruct (nth_error r t); reflexivity.
  Qed.
  Lemma mstd_values_scale axes c d : mstd_values axes (scale_arr c d) = map (Rmult (c * c)) (mstd_values axes d).
  Proof.
    unfold mstd_values, tab. rewrite map_map. apply map_ext. intros t. rewrite at_time_scale, sum3_scale. apply sqlen_scale.
  Qed.
  Lemma mscd_values_scale q c d : mscd_values q (scale_arr c d) = map (Rmult (c * c)) (mscd_values q d).
  Proof.
    unfold mscd_values, tab. rewrite map_map. apply map_ext. intros t. rewrite at_time_scale, combine_map_r, map_map. cbn [fst snd].
    rewrite <- sqlen_scale, <- sum3_scale, map_map. do 2 f_equal. apply map_ext. intros [a v]. cbn [fst snd]. v3eq.
  Qed.
  Lemma scale_rows c d : length (a_rows (scale_arr c d)) = length (a_rows d).
  Proof. apply map_length. Qed.
  Lemma scale_wf c d : arr_wf d -> arr_wf (scale_arr c d).
  Proof.
    unfold arr_wf, scale_arr. cbn. intros H. apply Forall_forall. intros r Hr. apply in_map_iff in Hr as (r0 & <- & Hr).
    rewrite map_length. rewrite Forall_forall in H. now apply H.
  Qed.
  Lemma C60_msd_proof u dts disps n_o c g b g' g1 b1 g1' : 0 < u_sub_sample_dt u -> u_block u = false ->
    msd_bootstrap X u dts disps n_o g = Ok (b, g') -> msd_bootstrap X u dts (map (turn_arr (scaling c)) disps) n_o g1 = Ok (b1, g1') ->
    scaled_statistics c b b1.
  Proof.
    intros Hk Hb H H'. rewrite (map_ext _ _ (scaling_arr c)) in H'.
    destruct (msd_run X _ _ _ _ _ _ _ Hk H) as (ax & sh & N & _ & S1 & S2 & S3 & R1).
    destruct (msd_run X _ _ _ _ _ _ _ Hk H') as (ax' & sh' & N' & _ & S1' & S2' & S3' & R1').
    assert (ax' = ax) by (eapply names_unique; eauto). subst ax'.
    assert (E : b_displacements b1 = map (scale_arr c) (b_displacements b)) by (eapply (sub_sample_map (scale_arr c)); [|exact S1|exact S1']; lia).
    rewrite E in R1'. rewrite (sub_sample_unique _ _ _ _ S2' S2) in R1'.
    destruct (report_scale _ _ _ _ _ _ _ (scale_arr c) (c * c)%R _ _ _ _ _ (fun d _ => msd_values_scale ax c d) (scale_rows c) Hb R1 R1') as (A1 & A2 & A3 & A4).
    split; [exact A1|]. split; [exact A2|]. split; [exact A3|]. rewrite S3, S3', A4. reflexivity.
  Qed.
  Lemma C60_mstd_proof u dts disps n_o c g b g' g1 b1 g1' : 0 < u_sub_sample_dt u -> u_block u = false -> Forall arr_wf disps ->
    mstd_bootstrap X u dts disps n_o g = Ok (b, g') -> mstd_bootstrap X u dts (map (turn_arr (scaling c)) disps) n_o g1 = Ok (b1, g1') ->
    scaled_statistics c b b1.
  Proof.
    intros Hk Hb HW H H'. rewrite (map_ext _ _ (scaling_arr c)) in H'.
    assert (HW' : Forall arr_wf (map (scale_arr c) disps)) by (apply Forall_map; revert HW; apply Forall_impl; intros; now apply scale_wf).
    destruct (mstd_run X _ _ _ _ _ _ _ Hk HW H) as (ax & sh & N & _ & S1 & S2 & S3 & R1).
    destruct (mstd_run X _ _ _ _ _ _ _ Hk HW' H') as (ax' & sh' & N' & _ & S1' & S2' & S3' & R1').
    assert (ax' = ax) by (eapply names_unique; eauto). subst ax'.
    assert (E : b_displacements b1 = map (scale_arr c) (b_displacements b)) by (eapply (sub_sample_map (scale_arr c)); [|exact S1|exact S1']; lia).
    rewrite E, map_length, firstn_map in R1'. rewrite (sub_sample_unique _ _ _ _ S2' S2) in R1'.
    destruct (report_scale _ _ _ _ _ _ _ (scale_arr c) (c * c)%R _ _ _ _ _ (fun d _ => mstd_values_scale ax c d) (scale_rows c) Hb R1 R1') as (A1 & A2 & A3 & A4).
    split; [exact A1|]. split; [exact A2|]. split; [exact A3|]. rewrite S3, S3', A4. reflexivity.
  Qed.
  Lemma C60_mscd_proof u dts disps q n_o c natoms g b g' g1 b1 g1' : 0 < u_sub_sample_dt u -> u_block u = false -> Forall arr_wf disps ->
    Forall (fun d => length (a_rows d) = natoms) disps -> (forall l, q = QArray l -> length l = natoms) ->
    mscd_bootstrap X u dts disps q n_o g = Ok (b, g') -> mscd_bootstrap X u dts (map (turn_arr (scaling c)) disps) q n_o g1 = Ok (b1, g1') ->
    scaled_statistics c b b1.
  Proof.
    intros Hk Hb HW HN Hq H H'. rewrite (map_ext _ _ (scaling_arr c)) in H'.
    assert (HW' : Forall arr_wf (map (scale_arr c) disps)) by (apply Forall_map; revert HW; apply Forall_impl; intros; now apply scale_wf).
    assert (HN' : Forall (fun d => length (a_rows d) = natoms) (map (scale_arr c) disps)).
    { apply Forall_map. revert HN. apply Forall_impl. intros d Hd. now rewrite scale_rows. }
    destruct (mscd_run X _ _ _ _ _ _ _ _ natoms Hk HW HN Hq H) as (ax & sh & N & _ & S1 & S2 & S3 & R1).
    destruct (mscd_run X _ _ _ _ _ _ _ _ natoms Hk HW' HN' Hq H') as (ax' & sh' & N' & _ & S1' & S2' & S3' & R1').
    assert (ax' = ax) by (eapply names_unique; eauto). subst ax'.
    assert (E : b_displacements b1 = map (scale_arr c) (b_displacements b)) by (eapply (sub_sample_map (scale_arr c)); [|exact S1|exact S1']; lia).
    rewrite E, map_length, firstn_map in R1'. rewrite (sub_sample_unique _ _ _ _ S2' S2) in R1'.
    destruct (report_scale _ _ _ _ _ _ _ (scale_arr c) (c * c)%R _ _ _ _ _ (fun d _ => mscd_values_scale _ c d) (scale_rows c) Hb R1 R1') as (A1 & A2 & A3 & A4).
    split; [exact A1|]. split; [exact A2|]. split; [exact A3|]. rewrite S3, S3', A4. reflexivity.
  Qed.
End Scale.

Section ScaleMore.
  Context {G Seed RS : Type} (X : Ext R G Seed RS).
  Lemma C60_ngp_proof u dts disps n_o c g b g' g1 b1 g1' i : 0 < u_sub_sample_dt u -> u_block u = false -> c <> 0%R ->
    msd_bootstrap X u dts disps n_o g = Ok (b, g') -> msd_bootstrap X u dts (map (turn_arr (scaling c)) disps) n_o g1 = Ok (b1, g1') ->
    nth_error (b_n b) i <> Some 0%R -> nth_error (b_ngp b1) i = nth_error (b_ngp b) i.
  Proof.
    intros Hk Hb Hc H H' Hn. rewrite (map_ext _ _ (scaling_arr c)) in H'.
    destruct (msd_run X _ _ _ _ _ _ _ Hk H) as (ax & sh & N & _ & S1 & S2 & S3 & R1).
    destruct (msd_run X _ _ _ _ _ _ _ Hk H') as (ax' & sh' & N' & _ & S1' & S2' & S3' & R1').
    assert (ax' = ax) by (eapply names_unique; eauto). subst ax'.
    assert (E : b_displacements b1 = map (scale_arr c) (b_displacements b)) by (eapply (sub_sample_map (scale_arr c)); [|exact S1|exact S1']; lia).
    rewrite E in R1'.
    assert (ES : sh' = map (scale_arr c) sh).
    { eapply (leading_map (scale_arr c)); [|exact (br_shown _ _ _ _ _ _ _ _ _ _ R1)|exact (br_shown _ _ _ _ _ _ _ _ _ _ R1')].
      intros d Hd. cbn beta. rewrite msd_values_scale. now rewrite map_length. }
    rewrite (br_ngp _ _ _ _ _ _ _ _ _ _ R1), (br_ngp _ _ _ _ _ _ _ _ _ _ R1'), ES, !nth_error_map.
    rewrite (br_n _ _ _ _ _ _ _ _ _ _ R1 Hb), nth_error_map in Hn.
    destruct (nth_error sh i) as [d|]; [|reflexivity]. cbn in *. f_equal.
    transitivity (non_gaussian (map (Rmult (c * c)) (msd_values ax d))).
    { f_equal. exact (msd_values_scale ax c d). }
    apply non_gaussian_scale; [nra|intros E0; apply Hn; f_equal; exact E0].
  Qed.
  Lemma C60_example_proof (g : G) : exists b b1,
    msd_bootstrap X (demo_boot 1 "xyz") [1;2]%R demo_disps [4;3]%R g = Ok (b, g)
    /\ msd_bootstrap X (demo_boot 1 "xyz") [1;2]%R (map (turn_arr (scaling 10)) demo_disps) [4;3]%R g = Ok (b1, g)
    /\ b_n b = [2; 4]%R /\ b_n b1 = [200; 400]%R.
  Proof.
    destruct (demo_msd X g) as (b & E & En & _).
    destruct (msd_total X (demo_boot 1 "xyz") [1;2]%R (map (turn_arr (scaling 10)) demo_disps) [4;3]%R all_axes g) as (b1 & E1).
    1:{ cbn; lia. } 1:{ reflexivity. } 1:{ exact names_xyz. } 1:{ discriminate. }
    1:{ repeat constructor. } 1:{ cbn; lia. } 1:{ cbn; lia. }
    exists b, b1. split; [exact E|]. split; [exact E1|]. split; [exact En|].
    destruct (C60_msd_proof X (demo_boot 1 "xyz") _ _ _ 10%R _ _ _ _ _ _ eq_refl eq_refl E E1) as (A & _). rewrite A, En.
    cbn. f_equal; [ring|f_equal; ring].
  Qed.
End ScaleMore.
Lemma C60_frames_proof c geo circ a parse t dtype d : c <> 0%R -> In parse [ase_parser; pymatgen_parser] ->
  from_frames (fun fs => parse geo circ fs a) t dtype = Ok d ->
  exists d', from_frames (fun fs => parse geo circ fs a) (map_trajectory (turn_frame (scaling c)) t) dtype = Ok d'
    /\ an_disp_3d d' = map (scale_arr c) (an_disp_3d d) /\ an_delta_t d' = an_delta_t d /\ an_n_o d' = an_n_o d
    /\ an_volume d' = option_map (fun v => Rabs (c * c * c) * v)%R (an_volume d).
Proof.
  intros Hc HP H. exists (turn_data (scaling c) d). rewrite C59_frames_proof by (auto using scaling_invertible). rewrite H.
  split; [reflexivity|]. unfold turn_data. cbn [an_disp_3d an_delta_t an_n_o an_volume].
  split; [apply map_ext, scaling_arr|]. repeat split; try reflexivity. unfold turn_volume. now rewrite scaling_volume.
Qed.
Lemma C60_universe_proof c geo circ a t dtype d : c <> 0%R ->
  from_universe (fun fs => mda_parser geo circ fs a) t dtype = Ok d ->
  exists d', from_universe (fun fs => mda_parser geo circ fs a) (map_trajectory (turn_cartesian_frame (scaling c)) t) dtype = Ok d'
    /\ an_disp_3d d' = map (scale_arr c) (an_disp_3d d) /\ an_delta_t d' = an_delta_t d /\ an_n_o d' = an_n_o d
    /\ an_volume d' = option_map (fun v => Rabs (c * c * c) * v)%R (an_volume d).
Proof.
  intros Hc H. exists (turn_data (scaling c) d). rewrite C59_universe_proof by (auto using scaling_invertible). rewrite H.
  split; [reflexivity|]. unfold turn_data. cbn [an_disp_3d an_delta_t an_n_o an_volume].
  split; [apply map_ext, scaling_arr|]. repeat split; try reflexivity. unfold turn_volume. now rewrite scaling_volume.
Qed.
Lemma C59_volume_proof Q : carries Q all_axes all_axes -> invertible Q /\ forall v, turn_volume Q v = v.
Proof.
  intros H. split; [now apply orthogonal_invertible|]. intros v. unfold turn_volume. rewrite (orthogonal_volume Q H). lra.
Qed.
