(** * ProofsReplica: the order of the replicas (C68) *)
From Verif Require Import Base Spec SpecParser SpecStats SpecFit SpecAnalyzer ModelParser ModelDiffusion ModelHdf ModelAnalyzer
  Lemmas ProofsDisp ProofsIntervals ProofsWindows ProofsParser ProofsTraj ProofsStats ProofsFit ProofsFit2 ProofsAnalyzer
  SpecRun SpecSym ProofsSym SpecOrder ProofsOrder.
From Coq Require Import Reals Lra Lia Permutation.
Open Scope Z_scope.

Lemma column_nth {T} (f : Parsed R -> list T) i (x0 : T) (ps : list (Parsed R)) :
  Forall (fun p => (i < length (f p))%nat) ps -> SpecAnalyzer.column f i ps (map (fun p => nth i (f p) x0) ps).
Proof.
  induction 1 as [|p ps Hp _ IH]; [constructor|]. constructor; [now apply nth_error_nth'|exact IH].
Qed.
Lemma stacks_perm (ps ps' : list (Parsed R)) d d' : Permutation ps ps' -> stacks ps d -> stacks ps' d' -> ps <> [] ->
  (forall p q, In p ps -> In q ps -> p_delta_t p = p_delta_t q) ->
  Forall2 same_rows (an_disp_3d d) (an_disp_3d d') /\ an_delta_t d' = an_delta_t d /\ an_n_o d' = an_n_o d.
Proof.
  intros P S S' Hne Ht.
  destruct ps as [|p0 ps1] eqn:Eps; [congruence|]. rewrite <- Eps in *.
  assert (I0 : In p0 ps) by (rewrite Eps; now left). assert (I0' : In p0 ps') by (now apply (Permutation_in _ P)).
  pose proof (st_length _ _ S) as L. pose proof (st_length _ _ S') as L'. rewrite Forall_forall in L, L'.
  destruct (L p0 I0) as [La Lb]. destruct (L' p0 I0') as [La' Lb'].
  split; [|split].
  - apply Forall2_nth_intro. intros i.
    destruct (Nat.lt_ge_cases i (length (an_disp_3d d))) as [Hi|Hi].
    2:{ rewrite !(proj2 (nth_error_None _ _)) by lia. exact I. }
    set (x0 := mkArr 0%nat (@nil (list (V3 R)))).
    assert (C : SpecAnalyzer.column p_disp_3d i ps (map (fun p => nth i (p_disp_3d p) x0) ps)).
    { apply column_nth. apply Forall_forall. intros p Hp. destruct (L p Hp). lia. }
    assert (C' : SpecAnalyzer.column p_disp_3d i ps' (map (fun p => nth i (p_disp_3d p) x0) ps')).
    { apply column_nth. apply Forall_forall. intros p Hp. destruct (L' p Hp). lia. }
    destruct (st_arrays _ _ S i _ C) as (a & Ea & Ra & Oa). destruct (st_arrays _ _ S' i _ C') as (a' & Ea' & Ra' & Oa').
    rewrite Ea, Ea'. split.
    + rewrite Forall_forall in Oa, Oa'. rewrite <- (Oa (nth i (p_disp_3d p0) x0)), <- (Oa' (nth i (p_disp_3d p0) x0)); [reflexivity| |].
      * apply (in_map (fun p => nth i (p_disp_3d p) x0)). exact I0'.
      * apply (in_map (fun p => nth i (p_disp_3d p) x0)). exact I0.
    + rewrite Ra, Ra'. apply concat_perm. apply Permutation_map, Permutation_map, P.
  - pose proof (st_times _ _ S) as T. pose proof (st_times _ _ S') as T'.
    destruct ps' as [|q ps']; [now apply Permutation_sym, Permutation_nil in P; congruence|].
    rewrite Eps in T. cbn in T, T'. injection T as <-. injection T' as <-.
    apply Ht; [|exact I0]. apply (Permutation_in q (Permutation_sym P)). now left.
  - apply list_ext. intros i.
    destruct (Nat.lt_ge_cases i (length (an_n_o d))) as [Hi|Hi].
    2:{ rewrite !(proj2 (nth_error_None _ _)) by lia. reflexivity. }
    rewrite (st_counts _ _ S i (map (fun p => nth i (p_n_o p) 0%R) ps)).
    2:{ apply column_nth. apply Forall_forall. intros p Hp. destruct (L p Hp). lia. }
    rewrite (st_counts _ _ S' i (map (fun p => nth i (p_n_o p) 0%R) ps')).
    2:{ apply column_nth. apply Forall_forall. intros p Hp. destruct (L' p Hp). lia. }
    f_equal. apply rsum_perm. apply Permutation_sym, Permutation_map, P.
Qed.

(** The stored volume is that of the first frame. *)
Lemma parser_init_volume geo (disp : Arr R) I D (ts : R) ss o p : parser_init geo disp I D ts ss o = Ok p -> p_volume p = None.
Proof.
  unfold parser_init. intros H. inv_bind H dc E. inv_bind H q Eq. inv_bind H z Ez. destruct (_ <=? _); [discriminate|].
  inv_bind H tis Et. inv_bind H r Er. now injection H as <-.
Qed.
Lemma finish_volume geo circ st coords latt (a : ModelParser.Params R) ss p : finish_parse geo circ st coords latt a ss = Ok p -> p_volume p = Some (s_volume st).
Proof. unfold finish_parse. intros H. inv_bind H sel E. inv_bind H disp Ed. inv_bind H q Eq. now injection H as <-. Qed.
Lemma stride_head {T} k (l sub : list T) : 0 < k -> py_stride k l = Ok sub -> hd_error sub = hd_error l.
Proof.
  intros Hk H. unfold py_stride in H. destruct (k =? 0) eqn:E; [lia|]. destruct (0 <? k) eqn:E2; [|lia].
  injection H as <-. now destruct l.
Qed.
Lemma read_volume (t : list (Frame R)) k st c l : 0 < k -> get_structure_coords_latt t k = Ok (st, c, l) ->
  option_map f_volume (hd_error t) = Some (s_volume st).
Proof.
  intros Hk H. unfold get_structure_coords_latt in H. inv_bind H sub E. inv_bind H cs E1. inv_bind H la E2.
  destruct sub as [|f sub]; [discriminate|]. rewrite <- (stride_head _ _ _ Hk E). now injection H as <- <- <-.
Qed.
Lemma read_volume_mda (t : list (Frame R)) ka k st c l : 0 < k -> get_structure_coords_latt_mda t ka k = Ok (st, c, l) ->
  option_map f_volume (hd_error t) = Some (s_volume st).
Proof.
  intros Hk H. unfold get_structure_coords_latt_mda in H. inv_bind H sub E. inv_bind H sc E0. inv_bind H cs E1. inv_bind H la E2.
  destruct sub as [|f sub]; [discriminate|]. inv_bind H ty E3. rewrite <- (stride_head _ _ _ Hk E). now injection H as <- <- <-.
Qed.
Lemma parsers_volume (parse : parser_of) geo circ (a : ModelParser.Params R) t p : In parse parsers -> 0 < a_sub_sample_traj a ->
  parse geo circ t a = Ok p -> p_volume p = option_map f_volume (hd_error t).
Proof.
  intros HP Hk H. destruct HP as [<-|[<-|[<-|[]]]].
  - unfold ase_parser in H. inv_bind H r E. destruct r as [[st c] l]. rewrite (read_volume _ _ _ _ _ Hk E). exact (finish_volume _ _ _ _ _ _ _ _ H).
  - unfold pymatgen_parser in H. inv_bind H r E. destruct r as [[st c] l]. inv_bind H q Q. rewrite (read_volume _ _ _ _ _ Hk E).
    destruct (a_time_step a); [discriminate|]. injection H as <-. cbn [set_delta_t p_volume]. exact (finish_volume _ _ _ _ _ _ _ _ Q).
  - unfold mda_parser in H. inv_bind H u U. inv_bind H r E. destruct r as [[st c] l]. rewrite (read_volume_mda _ _ _ _ _ _ Hk E).
    exact (finish_volume _ _ _ _ _ _ _ _ H).
Qed.

Lemma identical_parses {T} (parse : T -> Res (Parsed R)) ts d : identical parse ts = Ok d ->
  exists ps, Forall2 (fun t p => parse t = Ok p) ts ps /\ ps <> [].
Proof.
  unfold identical. intros H. inv_bind H ps E. exists ps. split; [now apply mapM_ok|]. destruct ps; [discriminate|congruence].
Qed.
Lemma replicas_order (parse : parser_of) geo circ (a : ModelParser.Params R) t0 ts ts' d : In parse parsers ->
  Forall (alike t0) ts -> Permutation ts ts' -> identical (fun t => parse geo circ t a) ts = Ok d ->
  exists d' ps ps', identical (fun t => parse geo circ t a) ts' = Ok d'
    /\ mapM (fun t => parse geo circ t a) ts = Ok ps /\ mapM (fun t => parse geo circ t a) ts' = Ok ps' /\ Permutation ps ps'
    /\ stacks ps d /\ stacks ps' d'
    /\ Forall2 same_rows (an_disp_3d d) (an_disp_3d d') /\ an_delta_t d' = an_delta_t d /\ an_n_o d' = an_n_o d.
Proof.
  intros HP HA P E. destruct (identical_parses _ _ _ E) as (ps & F & Hne).
  assert (M : mapM (fun t => parse geo circ t a) ts = Ok ps) by now apply mapM_ok.
  destruct (mapM_perm _ _ _ _ P M) as (ps' & M' & P').
  assert (F' : Forall2 (fun t p => parse geo circ t a = Ok p) ts' ps') by now apply mapM_ok.
  assert (Hts : ts <> []) by (intros ->; inversion F; congruence).
  assert (Hts' : ts' <> []) by (intros ->; apply Permutation_sym, Permutation_nil in P; congruence).
  assert (HA' : Forall (alike t0) ts').
  { apply Forall_forall. intros t Ht. rewrite Forall_forall in HA. apply HA. now apply (Permutation_in t (Permutation_sym P)). }
  destruct (C23_proof parse geo circ a t0 ts ps HP Hts HA F) as (d1 & E1 & _ & S1 & _).
  destruct (C23_proof parse geo circ a t0 ts' ps' HP Hts' HA' F') as (d2 & E2 & _ & S2 & _).
  cbn in E1, E2. rewrite E in E1. injection E1 as <-.
  destruct (replicas_shape parse geo circ a t0 ts ps HP HA F) as [_ HD].
  destruct (stacks_perm ps ps' d d2 P' S1 S2 Hne HD) as (H1 & H2 & H3).
  exists d2, ps, ps'. auto 12.
Qed.

Lemma C68_order_proof : forall (parse : parser_of) geo circ (a : ModelParser.Params R) t0 ts ts' d, In parse parsers ->
  Forall (alike t0) ts -> Permutation ts ts' ->
  from_frames (fun t => parse geo circ t a) (TMulti ts) (Some "identical"%string) = Ok d ->
  exists d', from_frames (fun t => parse geo circ t a) (TMulti ts') (Some "identical"%string) = Ok d'
    /\ from_universe (fun t => parse geo circ t a) (TMulti ts') (Some "identical"%string) = Ok d'
    /\ Forall2 same_rows (an_disp_3d d) (an_disp_3d d') /\ an_delta_t d' = an_delta_t d /\ an_n_o d' = an_n_o d.
Proof.
  intros parse geo circ a t0 ts ts' d HP HA P E.
  destruct (replicas_order parse geo circ a t0 ts ts' d HP HA P E) as (d' & ps & ps' & E' & _ & _ & _ & _ & _ & H).
  exists d'. split; [exact E'|]. split; [exact E'|]. exact H.
Qed.
Lemma C68_volume_proof : forall (parse : parser_of) geo circ (a : ModelParser.Params R) t0 ts ts' d d', In parse parsers ->
  Forall (alike t0) ts -> Permutation ts ts' -> 0 < a_sub_sample_traj a ->
  (forall t t', In t ts -> In t' ts -> option_map f_volume (hd_error t) = option_map f_volume (hd_error t')) ->
  from_frames (fun t => parse geo circ t a) (TMulti ts) (Some "identical"%string) = Ok d ->
  from_frames (fun t => parse geo circ t a) (TMulti ts') (Some "identical"%string) = Ok d' -> same_data d d'.
Proof.
  intros parse geo circ a t0 ts ts' d d' HP HA P Hk HV E E'.
  destruct (replicas_order parse geo circ a t0 ts ts' d HP HA P E) as (d1 & ps & ps' & E1 & M & M' & Pp & S & S' & H1 & H2 & H3).
  cbn in E'. rewrite E' in E1. injection E1 as <-. split; [exact H1|]. split; [exact H2|]. split; [exact H3|].
  pose proof (st_volume _ _ S) as V. pose proof (st_volume _ _ S') as V'. apply mapM_ok in M, M'.
  destruct M as [|t p ts ps Et Ms]; [discriminate|]. destruct M' as [|t' p' ts' ps' Et' Ms']; [discriminate|].
  cbn in V, V'. injection V as <-. injection V' as <-.
  rewrite (parsers_volume parse geo circ a t p HP Hk Et), (parsers_volume parse geo circ a t' p' HP Hk Et').
  apply HV; [|now left]. apply (Permutation_in t' (Permutation_sym P)). now left.
Qed.
Lemma C68_first_volume_proof : forall (parse : parser_of) geo circ (a : ModelParser.Params R) t ts d, In parse parsers -> 0 < a_sub_sample_traj a ->
  from_frames (fun t => parse geo circ t a) (TMulti (t :: ts)) (Some "identical"%string) = Ok d ->
  an_volume d = option_map f_volume (hd_error t).
Proof.
  intros parse geo circ a t ts d HP Hk E. cbn in E. unfold identical in E. cbn [mapM] in E.
  destruct (parse geo circ t a) as [p|e] eqn:Ep; [|discriminate]. cbn [bind] in E.
  destruct (mapM _ ts) as [ps|e]; [|discriminate]. cbn [bind] in E. inv_bind E n En. inv_bind E ds Ed. injection E as <-.
  cbn [an_volume]. now apply (parsers_volume parse geo circ a t p HP Hk).
Qed.

(** One replica. *)
Lemma C68_single_proof : forall (parse : parser_of) geo circ (a : ModelParser.Params R) t, In parse parsers ->
  from_frames (fun t => parse geo circ t a) (TMulti [t]) (Some "identical"%string) = from_frames (fun t => parse geo circ t a) (TSingle t) None.
Proof.
  intros parse geo circ a t HP. cbn. unfold identical. cbn [mapM].
  destruct (parse geo circ t a) as [p|e] eqn:E; [|reflexivity]. cbn [bind].
  assert (W : Forall arr_wf (p_disp_3d p)) by (eapply (parsers_shapes parse geo circ); [exact HP|exact E]).
  cbn [sum_n_o]. unfold add_inplace. rewrite repeat_length, fit_axis_id by reflexivity. cbn [bind].
  assert (Z0 : zip_with nadd (repeat n0 (length (p_n_o p))) (p_n_o p) = p_n_o p).
  { generalize (p_n_o p). induction l as [|x l IH]; [reflexivity|]. unfold zip_with in *. cbn [length repeat combine map fst snd].
    f_equal; [numR; lra|exact IH]. }
  rewrite Z0. unfold stack_trajectories.
  assert (K : mapM (fun id => stack_one [p] (fst id) (snd id)) (combine (seq 0 (length (p_disp_3d p))) (p_disp_3d p)) = Ok (p_disp_3d p)).
  { apply mapM_ok. apply Forall2_nth_intro. intros i. rewrite Forall_forall in W.
    destruct (nth_error (p_disp_3d p) i) as [x|] eqn:Ei.
    - rewrite (nth_combine_seq _ _ _ Ei). cbn [fst snd]. unfold stack_one. cbn [mapM].
      rewrite py_index_nat, Ei. cbn [opt_res bind].
      rewrite (assign_block_id (length (a_rows x)) (a_obs x) x).
      + cbn [bind List.concat]. rewrite app_nil_r. now destruct x.
      + split; [|reflexivity]. specialize (W x (nth_error_In _ _ Ei)). unfold shape. split; [reflexivity|exact W].
    - rewrite (proj2 (nth_error_None _ _)); [exact I|]. apply nth_error_None in Ei. rewrite combine_length, seq_length. lia. }
  rewrite K. cbn [bind]. reflexivity.
Qed.

(** The trajectory of [hop_frames] in a cell of twice the length. *)
Definition big_cell : M3 R := (mkM (mkV 2 0 0) (mkV 0 2 0) (mkV 0 0 2))%R.
Definition big_frames (n : nat) := frames_of ["Li"; "O"]%string 8%R n 2 hop (fun _ => big_cell).
Lemma big_cell_volume : cell_volume big_cell = 8%R.
Proof. unfold cell_volume. cbn. lra. Qed.
Lemma big_one circ : exists p, ase_parser geomspace_R circ (big_frames 3) (hop_params 1 (PyFloat 1%R) one_step) = Ok p.
Proof.
  unfold big_frames, one_step.
  assert (V : cell_volume big_cell <> 0%R) by (rewrite big_cell_volume; lra).
  rewrite (ase_run geomspace_R circ big_cell _ _ 3 2 1 hop _ ["Li"%string] [0] [1])
    by (first [exact V | apply hop_small; lia | lia | reflexivity]).
  cbn [hop_params a_time_step pynum_val a_step_skip a_opts]. rewrite kept_one.
  rewrite (parser_init_ints geomspace_R 2 3 _ [0] [1] 1 1 1 "multi-origin" 8 8)
    by (first [repeat constructor; cbn; lia | lia]).
  change (tab _ (lin _ 1 _)) with (map Z.of_nat [1]%nat).
  rewrite get_disps_multi' by (repeat constructor; cbn; lia).
  assert (E : Rltb 8 (in_gigabytes (fold_right Z.add 0 (map (estimate (length [0]) 3 8) [1]%nat))) = false).
  { apply Rltb_false. unfold in_gigabytes. cbn. lra. }
  rewrite E. cbn [bind]. eexists. reflexivity.
Qed.
Lemma C68_refuted_proof : forall circ, let parse := fun t => ase_parser geomspace_R circ t (hop_params 1 (PyFloat 1%R) one_step) in
  exists t t' d d', Forall (alike t) [t; t'] /\ Permutation [t; t'] [t'; t]
    /\ from_frames parse (TMulti [t; t']) (Some "identical"%string) = Ok d
    /\ from_frames parse (TMulti [t'; t]) (Some "identical"%string) = Ok d'
    /\ an_volume d = Some 1%R /\ an_volume d' = Some 8%R.
Proof.
  intros circ parse. destruct (hop_one circ) as (p & a1 & x & y & z & P & _). destruct (big_one circ) as (q & Q).
  assert (HA : Forall (alike (hop_frames 3)) [hop_frames 3; big_frames 3]) by repeat constructor.
  assert (HP : Permutation [hop_frames 3; big_frames 3] [big_frames 3; hop_frames 3]) by constructor.
  destruct (C23_proof ase_parser geomspace_R circ (hop_params 1 (PyFloat 1%R) one_step) (hop_frames 3) [hop_frames 3; big_frames 3] [p;q])
    as (d & E & _).
  { now left. } { discriminate. } { exact HA. } { repeat constructor; assumption. }
  destruct (C68_order_proof ase_parser geomspace_R circ _ (hop_frames 3) _ _ d (or_introl eq_refl) HA HP E) as (d' & E' & _).
  exists (hop_frames 3), (big_frames 3), d, d'.
  split; [exact HA|]. split; [exact HP|]. split; [exact E|]. split; [exact E'|].
  split.
  - rewrite (C68_first_volume_proof ase_parser geomspace_R circ (hop_params 1 (PyFloat 1%R) one_step) _ _ d (or_introl eq_refl) (eq_refl _) E). reflexivity.
  - rewrite (C68_first_volume_proof ase_parser geomspace_R circ (hop_params 1 (PyFloat 1%R) one_step) _ _ d' (or_introl eq_refl) (eq_refl _) E'). reflexivity.
Qed.
Lemma C68_example_proof : forall circ, let parse := fun t => ase_parser geomspace_R circ t (hop_params 1 (PyFloat 1%R) one_step) in
  exists d d', Forall (alike (hop_frames 3)) [hop_frames 3; drift_frames 3]
    /\ from_frames parse (TMulti [hop_frames 3; drift_frames 3]) (Some "identical"%string) = Ok d
    /\ from_frames parse (TMulti [drift_frames 3; hop_frames 3]) (Some "identical"%string) = Ok d' /\ same_data d d'.
Proof.
  intros circ parse. destruct (hop_one circ) as (p & a1 & x & y & z & P & _). destruct (drift_one circ) as (q & Q & _).
  assert (HA : Forall (alike (hop_frames 3)) [hop_frames 3; drift_frames 3]) by repeat constructor.
  assert (HP : Permutation [hop_frames 3; drift_frames 3] [drift_frames 3; hop_frames 3]) by constructor.
  destruct (C23_proof ase_parser geomspace_R circ (hop_params 1 (PyFloat 1%R) one_step) (hop_frames 3) [hop_frames 3; drift_frames 3] [p;q])
    as (d & E & _).
  { now left. } { discriminate. } { exact HA. } { repeat constructor; assumption. }
  destruct (C68_order_proof ase_parser geomspace_R circ _ (hop_frames 3) _ _ d (or_introl eq_refl) HA HP E) as (d' & E' & _).
  exists d, d'. split; [exact HA|]. split; [exact E|]. split; [exact E'|].
  refine (C68_volume_proof ase_parser geomspace_R circ (hop_params 1 (PyFloat 1%R) one_step) (hop_frames 3) _ _ d d' (or_introl eq_refl) HA HP (eq_refl _) _ E E').
  intros t t' [<-|[<-|[]]] [<-|[<-|[]]]; reflexivity.
Qed.
