(** * ProofsTraj: whole trajectories through the three parsers (C07, C17, C18, C21, C22, C52) *)
From Verif Require Import Base Spec ModelParser SpecParser Lemmas ProofsDisp ProofsIntervals ProofsWindows ProofsParser SpecRun.
From Coq Require Import Reals Lra Lia Arith Sorting.
Open Scope Z_scope.

Tactic Notation "inv_bind" hyp(H) ident(x) ident(E) := match type of H with bind ?e _ = Ok _ =>
  destruct e as [x|] eqn:E; cbn [bind] in H; [|discriminate H] end.

(** ** From accumulated displacements to windows *)
Lemma corrected_difference N k (pos : nat -> nat -> V3 R) fw a f g :
  minus3 (corrected N (fun a t => minus3 (pos (t * k)%nat a) (pos 0%nat a)) fw a g)
         (corrected N (fun a t => minus3 (pos (t * k)%nat a) (pos 0%nat a)) fw a f)
  = relative_displacement N pos fw a (f * k) (g * k).
Proof.
  unfold corrected, relative_displacement. destruct fw as [|i0 fw]; [v3eq|].
  set (l := i0 :: fw).
  rewrite (average3_minus (fun i => pos (g * k)%nat (site N i)) (fun i => pos (f * k)%nat (site N i)) l).
  rewrite (average3_minus (fun i => pos (g * k)%nat (site N i)) (fun i => pos 0%nat (site N i)) l).
  rewrite (average3_minus (fun i => pos (f * k)%nat (site N i)) (fun i => pos 0%nat (site N i)) l).
  v3eq.
Qed.
Lemma corrected_start N k (pos : nat -> nat -> V3 R) fw a g :
  corrected N (fun a t => minus3 (pos (t * k)%nat a) (pos 0%nat a)) fw a g
  = relative_displacement N pos fw a 0 (g * k).
Proof. unfold corrected, relative_displacement. destruct fw; reflexivity. Qed.

Lemma multi_window_reports N T k (pos : nat -> nat -> V3 R) idx fw m : (0 < m <= T)%nat ->
  reports_interval N T k pos idx fw m
    (multi_window N T (corrected N (fun a t => minus3 (pos (t * k)%nat a) (pos 0%nat a)) fw) idx m).
Proof.
  intros Hm. constructor.
  - reflexivity.
  - split; cbn [a_rows multi_window]; [now rewrite map_length|].
    apply Forall_forall. intros r Hr. apply in_map_iff in Hr as (i & <- & _). apply tab_length.
  - intros s i Hs. unfold arr_entry, multi_window. cbn [a_rows]. rewrite (entry_map _ _ _ _ _ Hs).
    rewrite tab_nth_error by lia. cbn [window_obs]. now rewrite corrected_start.
  - intros s i j Hs Hj. unfold arr_entry, multi_window. cbn [a_rows]. rewrite (entry_map _ _ _ _ _ Hs).
    rewrite tab_nth_error by lia. cbn [window_obs]. now rewrite corrected_difference.
Qed.

(** ** The common tail of the constructors *)
Lemma choose_atomic {A} {NA : Num A} circ st (coords : list (list (V3 A))) a sel :
  atomic_selection a -> choose_atoms circ st coords a = Ok sel -> fst sel = coords.
Proof.
  unfold choose_atoms. intros [Ha|(l & Ha)] H.
  - destruct (a_specie a) as [sp|]; [|congruence]. inv_bind H ix E. now injection H as <-.
  - destruct (a_specie a) as [sp|].
    + inv_bind H ix E. now injection H as <-.
    + rewrite Ha in H. destruct l as [|z l]; [discriminate|].
      inv_bind H ix E. now injection H as <-.
Qed.

Lemma finish_inv circ st coords latt (a : Params R) ss p :
  finish_parse geomspace_R circ st coords latt a ss = Ok p ->
  exists coords' I D disp q, choose_atoms circ st coords a = Ok (coords', (I, D))
    /\ get_disp coords' latt = Ok disp
    /\ parser_init geomspace_R disp I D (pynum_val (a_time_step a)) ss (a_opts a) = Ok q
    /\ p = set_volume q (s_volume st).
Proof.
  unfold finish_parse. intros H. inv_bind H sel E1. inv_bind H disp E2. inv_bind H q E3.
  injection H as <-. destruct sel as [c' [I D]]. cbn in *. exists c', I, D, disp, q. auto.
Qed.

Lemma parser_init_sel geo (d : Arr R) I D (ts : R) ss o p :
  parser_init geo d I D ts ss o = Ok p -> p_indices p = I /\ p_drift_indices p = D.
Proof.
  unfold parser_init. intros H. inv_bind H dc E1. inv_bind H q E2. inv_bind H z E3.
  destruct (_ <=? _); [discriminate|]. inv_bind H tis E4. inv_bind H r E5. now injection H as <-.
Qed.

Lemma finish_multi_gen circ st coords latt (a : Params R) ss N T X p :
  (forall c' ix, choose_atoms circ st coords a = Ok (c', ix) -> get_disp c' latt = Ok (table N T X)) ->
  let ts := pynum_val (a_time_step a) in
  sensible T (IZR ss * ts) (a_opts a) -> o_sampling (a_opts a) = "multi-origin"%string ->
  finish_parse geomspace_R circ st coords latt a ss = Ok p ->
  Forall (valid_site N) (p_indices p) -> Forall (valid_site N) (p_drift_indices p) ->
  p_volume p = Some (s_volume st)
  /\ forall q arr, nth_error (p_disp_3d p) q = Some arr -> exists m : nat, (0 < m <= T)%nat
     /\ nth_error (p_intervals p) q = Some (Z.of_nat m)
     /\ nth_error (p_delta_t p) q = Some (INR m * ts * IZR ss)%R
     /\ nth_error (p_n_o p) q = Some (INR (length (p_indices p)) * IZR (last (p_intervals p) 0%Z) / INR m)%R
     /\ arr = multi_window N T (corrected N X (p_drift_indices p)) (p_indices p) m.
Proof.
  intros Hdisp ts HS Hs Hp Hi Hd.
  destruct (finish_inv _ _ _ _ _ _ _ Hp) as (c' & I & D & disp & q & E1 & E2 & E3 & ->).
  rewrite (Hdisp _ _ E1) in E2. injection E2 as <-.
  destruct (parser_init_sel _ _ _ _ _ _ _ _ E3) as [EI ED]. cbn in Hi, Hd. rewrite EI in Hi. rewrite ED in Hd.
  fold ts in E3. cbn [p_volume set_volume]. split; [reflexivity|].
  destruct (run_multi N T X I D ts ss (a_opts a) Hi Hd HS q Hs E3) as (tis & F1 & F2 & Ef & Em & ->).
  cbn [set_volume p_n_o p_disp_3d p_delta_t p_intervals p_dc p_indices p_drift_indices].
  set (ks := firstn (length (filter (enough (length I) T) tis)) tis) in *.
  intros k arr Hk. rewrite nth_error_map in Hk.
  destruct (nth_error ks k) as [n|] eqn:En; [|discriminate]. injection Hk as <-.
  assert (Hn : nth_error tis k = Some n).
  { rewrite <- En. symmetry. apply nth_error_firstn.
    assert (Hlt : (k < length ks)%nat) by (apply nth_error_Some; congruence).
    unfold ks in Hlt. rewrite firstn_length in Hlt. lia. }
  rewrite Forall_forall in F1. exists n. split; [apply F1; eapply nth_error_In; eauto|].
  split; [now rewrite nth_error_map, Hn|]. split; [unfold delta_ts; now rewrite nth_error_map, Hn|].
  split; [|reflexivity].
  rewrite nth_error_map, En. cbn [option_map]. unfold obs_count, last_interval.
  assert (El2 : last (map Z.of_nat tis) 0 = Z.of_nat (last tis 0%nat)).
  { clear. induction tis as [|b l IH]; [reflexivity|]. destruct l; [reflexivity|]. exact IH. }
  now rewrite El2.
Qed.

Lemma finish_multi circ st coords latt (a : Params R) ss N T X p :
  atomic_selection a -> get_disp coords latt = Ok (table N T X) ->
  let ts := pynum_val (a_time_step a) in
  sensible T (IZR ss * ts) (a_opts a) -> o_sampling (a_opts a) = "multi-origin"%string ->
  finish_parse geomspace_R circ st coords latt a ss = Ok p ->
  Forall (valid_site N) (p_indices p) -> Forall (valid_site N) (p_drift_indices p) ->
  p_volume p = Some (s_volume st)
  /\ forall q arr, nth_error (p_disp_3d p) q = Some arr -> exists m : nat, (0 < m <= T)%nat
     /\ nth_error (p_intervals p) q = Some (Z.of_nat m)
     /\ nth_error (p_delta_t p) q = Some (INR m * ts * IZR ss)%R
     /\ nth_error (p_n_o p) q = Some (INR (length (p_indices p)) * IZR (last (p_intervals p) 0%Z) / INR m)%R
     /\ arr = multi_window N T (corrected N X (p_drift_indices p)) (p_indices p) m.
Proof.
  intros Ha Hdisp ts. apply finish_multi_gen. intros c' ix E1.
  pose proof (choose_atomic circ st coords a _ Ha E1) as Ec. cbn in Ec. now subst c'.
Qed.

(** ** Reading *)
Lemma displacements_read k frames st coords latt :
  get_structure_coords_latt (A:=R) frames k = Ok (st, coords, latt) ->
  displacements k frames = get_disp coords latt.
Proof. intros H. unfold displacements. rewrite H. reflexivity. Qed.

(** Frames for MDAnalysis hold Cartesian positions. *)
Lemma read_mda_fun types vol n natoms (c : nat -> nat -> V3 R) l ka kt st coords latt : (0 < ka)%nat -> (0 < kt)%nat ->
  length types = natoms ->
  get_structure_coords_latt_mda (frames_of types vol n natoms (fun f a => cart (l f) (c f a)) l) (Z.of_nat ka) (Z.of_nat kt)
   = Ok (st, coords, latt) ->
  exists types', length types' = kept natoms ka /\ sub_sample ka types types'
  /\ get_structure_coords_latt (frames_of types' vol n (kept natoms ka) (fun f a => c f (a * ka)%nat) l) (Z.of_nat kt)
     = Ok (st, coords, latt).
Proof.
  intros Ha Ht Hl H. unfold get_structure_coords_latt_mda in H. unfold frames_of in H.
  rewrite py_stride_tab in H by exact Ht. cbn [bind] in H.
  set (types' := every ka 0 types).
  assert (Et : py_stride (Z.of_nat ka) types = Ok types').
  { unfold py_stride. destruct (Z.of_nat ka =? 0) eqn:E; [apply Z.eqb_eq in E; lia|].
    destruct (0 <? Z.of_nat ka) eqn:E2; [now rewrite Nat2Z.id|apply Z.ltb_ge in E2; lia]. }
  assert (Es : sub_sample ka types types') by (intros i; now apply nth_error_every).
  exists types'. split; [|split; [exact Es|]].
  { rewrite (list_is_tab EmptyString types natoms Hl) in Et.
    rewrite py_stride_tab in Et by exact Ha. injection Et as Et. rewrite <- Et. apply tab_length. }
  inv_bind H scaled E1.
  assert (G : scaled = tab (kept n kt) (fun f => tab (kept natoms ka) (fun a => c (f * kt)%nat (a * ka)%nat))).
  { destruct (mapM_tab_ok _ _ _ _ [] E1) as [Er Ei]. rewrite Er. apply tab_ext. intros i Hi.
    specialize (Ei i Hi). cbv beta in Ei. cbn [f_cell f_pos] in Ei. inv_bind Ei inv E2.
    destruct (minv_inv _ _ E2) as (_ & H1 & _).
    rewrite py_stride_tab in Ei by exact Ha. cbn [bind] in Ei.
    assert (Ei' : nth i scaled [] = map (fun p => vecmat p inv)
          (tab (kept natoms ka) (fun i0 => cart (l (i * kt)%nat) (c (i * kt)%nat (i0 * ka)%nat)))) by congruence.
    rewrite Ei'. unfold tab. rewrite map_map. apply map_ext. intros b. rewrite vecmat_cart. apply H1. }
  unfold get_structure_coords_latt, frames_of. rewrite py_stride_tab by exact Ht. cbn [bind].
  assert (M1 : map f_pos (tab (kept n kt) (fun i => mkFrame types' (tab (kept natoms ka) (fun a => c (i * kt)%nat (a * ka)%nat)) (l (i * kt)%nat) vol)) = scaled).
  { rewrite G. unfold tab at 1 3. now rewrite map_map. }
  rewrite M1. inv_bind H dc E3. cbn [bind].
  assert (M2 : map f_cell (tab (kept n kt) (fun i => mkFrame types' (tab (kept natoms ka) (fun a => c (i * kt)%nat (a * ka)%nat)) (l (i * kt)%nat) vol))
             = map f_cell (tab (kept n kt) (fun i => mkFrame types (tab natoms (fun a => cart (l (i * kt)%nat) (c (i * kt)%nat a))) (l (i * kt)%nat) vol))).
  { unfold tab at 1 3. now rewrite !map_map. }
  rewrite M2. inv_bind H lt E4. cbn [bind].
  destruct (kept n kt) as [|nk]; [discriminate|]. rewrite !tab_S in *. cbn [f_types f_volume] in *.
  rewrite Et in H. cbn [bind] in H. exact H.
Qed.

Lemma read_displacements cell types vol n natoms k x (img : nat -> nat -> V3 Z) st coords latt :
  cell_volume cell <> 0%R -> (0 < k)%nat -> small_steps n natoms k x ->
  get_structure_coords_latt
    (frames_of types vol n natoms (fun f a => plus3 (x f a) (ivec (img f a))) (fun _ => cell)) (Z.of_nat k)
    = Ok (st, coords, latt) ->
  st = mkStructure types vol
  /\ get_disp coords latt = Ok (table natoms (kept n k)
        (fun a t => minus3 (cart cell (x (t * k)%nat a)) (cart cell (x 0%nat a)))).
Proof.
  intros Hc Hk Hs E.
  assert (Hn : (0 < n)%nat).
  { destruct n; [|lia]. unfold get_structure_coords_latt in E. unfold frames_of in E.
    rewrite py_stride_tab in E by exact Hk. cbn [bind] in E.
    assert (K0 : kept 0 k = 0%nat).
    { destruct (kept 0 k) eqn:EK; [reflexivity|]. exfalso.
      pose proof (proj1 (kept_spec 0 k Hk 0)). lia. }
    rewrite K0 in E. discriminate E. }
  pose proof (displacements_read _ _ _ _ _ E) as E2. split.
  - unfold get_structure_coords_latt in E. unfold frames_of in E.
    rewrite py_stride_tab in E by exact Hk. cbn [bind] in E.
    inv_bind E u1 F1. inv_bind E u2 F2. pose proof (kept_pos n k Hk Hn) as HK.
    destruct (kept n k); [lia|]. rewrite tab_S in E. now injection E as <- _ _.
  - rewrite <- E2. rewrite C01_proof by assumption. f_equal. apply table_ext. intros a t Ha Ht.
    now rewrite cart_minus.
Qed.

Lemma run_reports circ cell types vol n natoms k x (img : nat -> nat -> V3 Z) st coords latt a ss p :
  cell_volume cell <> 0%R -> (0 < k)%nat -> small_steps n natoms k x -> atomic_selection a ->
  get_structure_coords_latt
    (frames_of types vol n natoms (fun f a => plus3 (x f a) (ivec (img f a))) (fun _ => cell)) (Z.of_nat k)
    = Ok (st, coords, latt) ->
  let ts := pynum_val (a_time_step a) in
  sensible (kept n k) (IZR ss * ts) (a_opts a) -> o_sampling (a_opts a) = "multi-origin"%string ->
  finish_parse geomspace_R circ st coords latt a ss = Ok p ->
  Forall (valid_site natoms) (p_indices p) -> Forall (valid_site natoms) (p_drift_indices p) ->
  forall q arr, nth_error (p_disp_3d p) q = Some arr -> exists m : nat, (0 < m <= kept n k)%nat
     /\ nth_error (p_intervals p) q = Some (Z.of_nat m)
     /\ nth_error (p_delta_t p) q = Some (INR m * ts * IZR ss)%R
     /\ reports_interval natoms (kept n k) k (fun f a => cart cell (x f a)) (p_indices p) (p_drift_indices p) m arr.
Proof.
  intros Hc Hk Hs Ha E ts HS Hm Hp Hi Hd q arr Hq.
  destruct (read_displacements _ _ _ _ _ _ _ _ _ _ _ Hc Hk Hs E) as [-> Hdisp].
  destruct (finish_multi circ _ _ _ a ss natoms _ _ p Ha Hdisp HS Hm Hp Hi Hd) as [_ F].
  destruct (F q arr Hq) as (m & M1 & M2 & M3 & _ & ->).
  exists m. do 3 (split; [assumption|]).
  apply (multi_window_reports natoms (kept n k) k (fun f b => cart cell (x f b))). exact M1.
Qed.

(** ** C07, C21, C22 per parser *)
Lemma C07_ase_proof : forall circ cell types vol n natoms k x (img : nat -> nat -> V3 Z) (a : Params R) p,
  cell_volume cell <> 0%R -> (0 < k)%nat -> small_steps n natoms k x ->
  atomic_selection a -> a_sub_sample_traj a = Z.of_nat k ->
  let ts := pynum_val (a_time_step a) in
  sensible (kept n k) (IZR (a_step_skip a) * ts) (a_opts a) -> o_sampling (a_opts a) = "multi-origin"%string ->
  ase_parser geomspace_R circ
    (frames_of types vol n natoms (fun f a => plus3 (x f a) (ivec (img f a))) (fun _ => cell)) a = Ok p ->
  Forall (valid_site natoms) (p_indices p) -> Forall (valid_site natoms) (p_drift_indices p) ->
  forall q arr, nth_error (p_disp_3d p) q = Some arr -> exists m : nat, (0 < m <= kept n k)%nat
     /\ nth_error (p_intervals p) q = Some (Z.of_nat m)
     /\ nth_error (p_delta_t p) q = Some (INR m * ts * IZR (a_step_skip a))%R
     /\ reports_interval natoms (kept n k) k (fun f a => cart cell (x f a)) (p_indices p) (p_drift_indices p) m arr.
Proof.
  intros circ cell types vol n natoms k x img a p Hc Hk Hs Ha Ek ts HS Hm Hp Hi Hd.
  unfold ase_parser in Hp. rewrite Ek in Hp. inv_bind Hp r E1. destruct r as [[st coords] latt].
  eapply run_reports; eassumption.
Qed.

Lemma C07_pymatgen_proof : forall circ cell types vol n natoms k x (img : nat -> nat -> V3 Z) (a : Params R) p,
  cell_volume cell <> 0%R -> (0 < k)%nat -> small_steps n natoms k x ->
  atomic_selection a -> a_sub_sample_traj a = Z.of_nat k ->
  let ts := pynum_val (a_time_step a) in
  sensible (kept n k) (IZR (a_step_skip a * Z.of_nat k) * ts) (a_opts a) ->
  o_sampling (a_opts a) = "multi-origin"%string ->
  pymatgen_parser geomspace_R circ
    (frames_of types vol n natoms (fun f a => plus3 (x f a) (ivec (img f a))) (fun _ => cell)) a = Ok p ->
  Forall (valid_site natoms) (p_indices p) -> Forall (valid_site natoms) (p_drift_indices p) ->
  forall q arr, nth_error (p_disp_3d p) q = Some arr -> exists m : nat, (0 < m <= kept n k)%nat
     /\ nth_error (p_intervals p) q = Some (Z.of_nat m)
     /\ nth_error (p_delta_t p) q = Some (INR m * ts * IZR (a_step_skip a) * INR k / 1000)%R
     /\ reports_interval natoms (kept n k) k (fun f a => cart cell (x f a)) (p_indices p) (p_drift_indices p) m arr.
Proof.
  intros circ cell types vol n natoms k x img a p Hc Hk Hs Ha Ek ts HS Hm Hp Hi Hd q arr Hq.
  unfold pymatgen_parser in Hp. rewrite Ek in Hp. inv_bind Hp r E1. destruct r as [[st coords] latt].
  inv_bind Hp p0 E2. destruct (a_time_step a) as [z|t] eqn:Et; [discriminate|]. injection Hp as <-.
  cbn [p_disp_3d p_indices p_drift_indices set_delta_t p_intervals p_delta_t] in *.
  unfold ts in HS. cbn [pynum_val] in HS.
  destruct (run_reports circ cell types vol n natoms k x img st coords latt a _ p0 Hc Hk Hs Ha E1
     ltac:(rewrite Et; exact HS) Hm E2 Hi Hd q arr Hq) as (m & M1 & M2 & M3 & M4).
  exists m. split; [exact M1|]. split; [exact M2|]. split; [|exact M4].
  rewrite nth_error_map, M3. cbn [option_map]. f_equal. rewrite Et. unfold ts. cbn [pynum_val]. numR.
  rewrite mult_IZR, <- INR_IZR_INZ. field.
Qed.

Lemma C07_mda_proof : forall circ cell types vol n natoms ka k x (img : nat -> nat -> V3 Z) (a : Params R) p,
  cell_volume cell <> 0%R -> (0 < ka)%nat -> (0 < k)%nat -> length types = natoms ->
  small_steps n natoms k x ->
  atomic_selection a -> a_sub_sample_traj a = Z.of_nat k -> a_sub_sample_atoms a = Z.of_nat ka ->
  let ts := pynum_val (a_time_step a) in
  sensible (kept n k) (IZR (a_step_skip a * Z.of_nat k) * ts) (a_opts a) ->
  o_sampling (a_opts a) = "multi-origin"%string ->
  mda_parser geomspace_R circ
    (frames_of types vol n natoms (fun f a => cart cell (plus3 (x f a) (ivec (img f a)))) (fun _ => cell)) a = Ok p ->
  let N := kept natoms ka in
  Forall (valid_site N) (p_indices p) -> Forall (valid_site N) (p_drift_indices p) ->
  forall q arr, nth_error (p_disp_3d p) q = Some arr -> exists m : nat, (0 < m <= kept n k)%nat
     /\ nth_error (p_intervals p) q = Some (Z.of_nat m)
     /\ nth_error (p_delta_t p) q = Some (INR m * ts * IZR (a_step_skip a) * INR k)%R
     /\ reports_interval N (kept n k) k (fun f a => cart cell (x f (a * ka)%nat)) (p_indices p) (p_drift_indices p) m arr.
Proof.
  intros circ cell types vol n natoms ka k x img a p Hc Hka Hk Hl Hs Ha Ek Eka ts HS Hm Hp N Hi Hd q arr Hq.
  unfold mda_parser in Hp. rewrite Ek, Eka in Hp. inv_bind Hp u1 E0. inv_bind Hp r E1.
  destruct r as [[st coords] latt].
  apply (read_mda_fun types vol n natoms (fun f a => plus3 (x f a) (ivec (img f a))) (fun _ => cell)) in E1;
    try assumption. destruct E1 as (types' & _ & _ & E1).
  assert (Hs' : small_steps n N k (fun f b => x f (b * ka)%nat)).
  { intros f b Hf Hb. apply Hs; [exact Hf|]. apply kept_spec in Hb; [exact Hb|exact Hka]. }
  destruct (run_reports circ cell types' vol n N k (fun f b => x f (b * ka)%nat) (fun f b => img f (b * ka)%nat)
     st coords latt a _ p Hc Hk Hs' Ha E1 HS Hm Hp Hi Hd q arr Hq) as (m & M1 & M2 & M3 & M4).
  exists m. split; [exact M1|]. split; [exact M2|]. split; [|exact M4].
  rewrite M3. f_equal. fold ts. rewrite mult_IZR, <- INR_IZR_INZ. ring.
Qed.

(** ** Running a parser forward on a concrete trajectory *)
Lemma read_ok cell types vol n natoms k (c : nat -> nat -> V3 R) : (0 < n)%nat -> (0 < k)%nat ->
  exists coords latt, get_structure_coords_latt (frames_of types vol n natoms c (fun _ => cell)) (Z.of_nat k)
    = Ok (mkStructure types vol, coords, latt).
Proof.
  intros Hn Hk. unfold get_structure_coords_latt, frames_of. rewrite py_stride_tab by exact Hk. cbn [bind].
  pose proof (kept_pos n k Hk Hn) as HK. destruct (kept n k) as [|m]; [lia|].
  rewrite tab_S. cbn [map duplicate_first bind f_types f_volume]. do 2 eexists. reflexivity.
Qed.
Definition no_image (f a : nat) : V3 Z := mkV 0 0 0.
Lemma no_image_id (x : nat -> nat -> V3 R) :
  forall f a, plus3 (x f a) (ivec (no_image f a)) = x f a.
Proof. intros. v3eq. Qed.
Lemma frames_of_ext types vol n natoms (c c' : nat -> nat -> V3 R) l :
  (forall f a, c f a = c' f a) -> frames_of types vol n natoms c l = frames_of types vol n natoms c' l.
Proof. intros H. unfold frames_of. apply tab_ext. intros f _. f_equal. apply tab_ext. auto. Qed.

Lemma ase_run geo circ cell types vol n natoms k (x : nat -> nat -> V3 R) (a : Params R) sp I D :
  cell_volume cell <> 0%R -> (0 < n)%nat -> (0 < k)%nat -> small_steps n natoms k x ->
  a_specie a = Some sp -> a_sub_sample_traj a = Z.of_nat k ->
  get_indices types sp (a_framework a) = Ok (I, D) ->
  ase_parser geo circ (frames_of types vol n natoms x (fun _ => cell)) a
  = let! p := parser_init geo (table natoms (kept n k)
        (fun a t => minus3 (cart cell (x (t * k)%nat a)) (cart cell (x 0%nat a)))) I D
        (pynum_val (a_time_step a)) (a_step_skip a) (a_opts a) in Ok (set_volume p vol).
Proof.
  intros Hc Hn Hk Hs Hsp Ek Hix. unfold ase_parser. rewrite Ek.
  destruct (read_ok cell types vol n natoms k x Hn Hk) as (coords & latt & E).
  assert (E' := E). rewrite <- (frames_of_ext types vol n natoms _ _ (fun _ => cell) (no_image_id x)) in E'.
  destruct (read_displacements cell types vol n natoms k x no_image _ _ _ Hc Hk Hs E') as [_ Hd].
  rewrite E. cbn [bind]. unfold finish_parse, choose_atoms. rewrite Hsp. cbn [s_types].
  rewrite Hix. cbn [bind fst snd]. rewrite Hd. reflexivity.
Qed.

(** Two atoms in a unit cube, the first moving by 1/10 per frame along x. *)
Definition unit_cell : M3 R := (mkM (mkV 1 0 0) (mkV 0 1 0) (mkV 0 0 1))%R.
Definition hop (f a : nat) : V3 R := match a with O => mkV (INR f / 10) 0 0 | _ => zero3 end%R.
Definition hop_frames (n : nat) := frames_of ["Li"; "O"]%string 1%R n 2 hop (fun _ => unit_cell).
Definition hop_params (k : Z) (ts : pynum R) (o : Options R) : Params R :=
  mkParams (Some ["Li"%string]) ts 1 1 k o SINone None PyNone.
Lemma unit_cell_volume : cell_volume unit_cell <> 0%R.
Proof. unfold cell_volume. cbn. lra. Qed.
Lemma hop_small n k : (k <= 4)%nat -> small_steps n 2 k hop.
Proof.
  intros Hk f a _ Ha. unfold hop, within_half. destruct a; cbn [vx vy vz minus3 zero3]; [|lra].
  rewrite !mult_INR, S_INR. pose proof (pos_INR k). assert (INR k <= 4)%R by (apply (le_INR k 4) in Hk; cbn in Hk; lra).
  lra.
Qed.
Lemma hop_displacement f g a : (a < 2)%nat ->
  relative_displacement 2 (fun f a => cart unit_cell (hop f a)) [1] a f g
  = match a with O => mkV ((INR g - INR f) / 10) 0 0 | _ => zero3 end%R.
Proof.
  intros Ha. unfold relative_displacement, average3, average, hop, site. cbn.
  destruct a as [|[|a]]; [| |lia]; change (Pos.to_nat 1) with 1%nat; apply V3_eq; cbn; lra.
Qed.

Lemma C07_refuted_proof : forall circ, exists p arr,
  ase_parser geomspace_R circ (hop_frames 3)
    (hop_params 1 (PyFloat 1%R) (mkOptions (Some 1) (Some 3) 100 "linear" "multi-origin" 8 8)%R) = Ok p
  /\ p_indices p = [0] /\ p_drift_indices p = [1]
  /\ nth_error (p_intervals p) 0 = Some 1 /\ nth_error (p_disp_3d p) 0 = Some arr
  /\ arr_entry arr 0 0 = Some zero3
  /\ forall f, relative_displacement 2 (fun f a => cart unit_cell (hop f a)) [1] 0 f (f + 1)
               = (mkV (1/10) 0 0)%R.
Proof.
  intros circ. unfold hop_frames.
  rewrite (ase_run geomspace_R circ unit_cell _ _ 3 2 1 hop _ ["Li"%string] [0] [1])
    by (first [exact unit_cell_volume | apply hop_small; lia | lia | reflexivity]).
  cbn [hop_params a_time_step pynum_val a_step_skip a_opts]. rewrite kept_one.
  rewrite (parser_init_ints geomspace_R 2 3 _ [0] [1] 1 3 100 "multi-origin" 8 8)
    by (first [repeat constructor; cbn; lia | lia]).
  change (tab _ (lin _ 3 _)) with (map Z.of_nat [1;2;3]%nat).
  rewrite get_disps_multi' by (repeat constructor; cbn; lia).
  assert (E : Rltb 8 (in_gigabytes (fold_right Z.add 0 (map (estimate (length [0]) 3 8) [1;2;3]%nat))) = false).
  { apply Rltb_false. unfold in_gigabytes. cbn. lra. }
  rewrite E. cbn [bind]. do 2 eexists. split; [reflexivity|]. do 4 (split; [reflexivity|]).
  split.
  - unfold multi_window, arr_entry, entry. cbn. f_equal. unfold average3, average. v3eq.
  - intros f. rewrite hop_displacement by lia. rewrite plus_INR. apply V3_eq; cbn; lra.
Qed.

Lemma C21_ase_refuted_proof : forall circ, exists p arr,
  ase_parser geomspace_R circ (hop_frames 5)
    (hop_params 2 (PyFloat 1%R) (mkOptions (Some 1) (Some 3) 100 "linear" "multi-origin" 8 8)%R) = Ok p
  /\ nth_error (p_disp_3d p) 0 = Some arr
  /\ reports_interval 2 3 2 (fun f a => cart unit_cell (hop f a)) [0] [1] 1 arr
  /\ nth_error (p_delta_t p) 0 = Some 1%R
  /\ forall j, frame_time 1 1 (j * 2) ((j + 1) * 2) = 2%R.
Proof.
  intros circ. unfold hop_frames.
  rewrite (ase_run geomspace_R circ unit_cell _ _ 5 2 2 hop _ ["Li"%string] [0] [1])
    by (first [exact unit_cell_volume | apply hop_small; lia | lia | reflexivity]).
  cbn [hop_params a_time_step pynum_val a_step_skip a_opts]. change (kept 5 2) with 3%nat.
  rewrite (parser_init_ints geomspace_R 2 3 _ [0] [1] 1 3 100 "multi-origin" 8 8)
    by (first [repeat constructor; cbn; lia | lia]).
  change (tab _ (lin _ 3 _)) with (map Z.of_nat [1;2;3]%nat).
  rewrite get_disps_multi' by (repeat constructor; cbn; lia).
  assert (E : Rltb 8 (in_gigabytes (fold_right Z.add 0 (map (estimate (length [0]) 3 8) [1;2;3]%nat))) = false).
  { apply Rltb_false. unfold in_gigabytes. cbn. lra. }
  rewrite E. cbn [bind]. do 2 eexists. split; [reflexivity|]. split; [reflexivity|].
  split.
  - apply (multi_window_reports 2 3 2 (fun f a => cart unit_cell (hop f a)) [0] [1] 1). lia.
  - split; [cbn; f_equal; lra|]. intros j. unfold frame_time. rewrite !mult_INR, plus_INR. cbn. lra.
Qed.

Lemma C22_int_proof : forall circ (frames : list (Frame R)) (a : Params R) z p,
  a_time_step a = PyInt z -> pymatgen_parser geomspace_R circ frames a <> Ok p.
Proof.
  intros circ frames a z p Ha H. unfold pymatgen_parser in H. inv_bind H r E1. destruct r as [[st c] l].
  inv_bind H q E2. rewrite Ha in H. discriminate.
Qed.
Lemma pymatgen_of_ase geo circ frames (a : Params R) t p : a_sub_sample_traj a = 1 -> a_time_step a = t ->
  ase_parser geo circ frames a = Ok p ->
  pymatgen_parser geo circ frames a = match t with
    | PyInt _ => Raise UFuncTypeError
    | PyFloat _ => Ok (set_delta_t p (map (fun d => d * (n1 / nofZ 1000))%num (p_delta_t p))) end.
Proof.
  intros Ek Et H. unfold ase_parser in H. unfold pymatgen_parser. rewrite Ek in *.
  inv_bind H r E1. destruct r as [[st c] l]. cbn [bind]. rewrite Z.mul_1_r, H. cbn [bind].
  now rewrite Et.
Qed.
Lemma C22_int_refuted_proof : forall circ, 
  pymatgen_parser geomspace_R circ (hop_frames 3)
    (hop_params 1 (PyInt 1) (mkOptions (Some 1) (Some 3) 100 "linear" "multi-origin" 8 8)%R) = Raise UFuncTypeError.
Proof.
  intros circ. destruct (C07_refuted_proof circ) as (p & _ & H & _).
  eapply (pymatgen_of_ase geomspace_R circ _ _ (PyInt 1) p); [reflexivity..|]. exact H.
Qed.

(** ** C17 *)
Lemma select_where_spec want specie types : forall i,
  StronglySorted Z.lt (select_where want specie i types)
  /\ forall j, In j (select_where want specie i types) <->
       exists a name, j = i + Z.of_nat a /\ nth_error types a = Some name
         /\ existsb (String.eqb name) specie = want.
Proof.
  induction types as [|s t IH]; intros i; cbn [select_where].
  - split; [constructor|]. intros j. split; [intros []|]. intros (a & name & _ & H & _). destruct a; discriminate.
  - destruct (IH (i + 1)) as [S1 S2].
    assert (Step : forall j, (exists a name, j = i + 1 + Z.of_nat a /\ nth_error t a = Some name
               /\ existsb (String.eqb name) specie = want) <->
             (exists a name, j = i + Z.of_nat (S a) /\ nth_error (s :: t) (S a) = Some name
               /\ existsb (String.eqb name) specie = want)).
    { intros j. split; intros (a & name & H1 & H2 & H3); exists a, name; (split; [lia|]); auto. }
    destruct (Bool.eqb _ want) eqn:Eb.
    + apply Bool.eqb_prop in Eb. split.
      * constructor; [exact S1|]. apply Forall_forall. intros j Hj. apply S2 in Hj as (a & name & -> & _). lia.
      * intros j. cbn [In]. rewrite S2, Step. split.
        -- intros [<-|(a & name & H)]; [exists 0%nat, s; cbn; repeat split; auto; lia|eauto].
        -- intros (a & name & H1 & H2 & H3). destruct a as [|a]; [left; cbn in H2; lia|right; eauto].
    + apply Bool.eqb_false_iff in Eb. split; [exact S1|].
      intros j. rewrite S2, Step. split.
      * intros (a & name & H); eauto.
      * intros (a & name & H1 & H2 & H3). destruct a as [|a]; [cbn in H2; congruence|eauto].
Qed.
Lemma existsb_In name (specie : list string) : existsb (String.eqb name) specie = true <-> In name specie.
Proof.
  rewrite existsb_exists. split.
  - intros (y & H & E). apply String.eqb_eq in E. now subst.
  - intros H. exists name. split; [exact H|apply String.eqb_refl].
Qed.
Lemma select_lists types specie :
  lists_atoms types (fun s => In s specie) (select_where true specie 0 types)
  /\ lists_atoms types (fun s => ~ In s specie) (select_where false specie 0 types).
Proof.
  split; (split; [apply select_where_spec|]); intros i; rewrite (proj2 (select_where_spec _ specie types 0));
  split; intros (a & name & H1 & H2 & H3); exists a, name; (split; [lia|split; [exact H2|]]).
  - now apply existsb_In. - now apply existsb_In.
  - intros C. apply existsb_In in C. congruence.
  - destruct (existsb _ _) eqn:E; [|reflexivity]. apply existsb_In in E. contradiction.
Qed.
Lemma lists_atoms_valid types P l : lists_atoms types P l -> Forall (valid_site (length types)) l.
Proof.
  intros [_ H]. apply Forall_forall. intros i Hi. apply H in Hi as (a & name & -> & Hn & _).
  assert (a < length types)%nat by (apply nth_error_Some; congruence). unfold valid_site. lia.
Qed.

Lemma C17_get_indices_proof : forall types specie,
  (forall name, In name types -> ~ In name specie) /\ (forall fw, get_indices types specie fw = Raise ValueError)
  \/ exists I D, lists_atoms types (fun s => In s specie) I /\ I <> []
     /\ lists_atoms types (fun s => ~ In s specie) D
     /\ forall fw, get_indices types specie fw = Ok (I, match fw with PyList l => l | _ => D end).
Proof.
  intros types specie. destruct (select_lists types specie) as [LI LD]. unfold get_indices.
  destruct (select_where true specie 0 types) as [|i I] eqn:E.
  - left. split; [|reflexivity]. intros name Hn C. apply In_nth_error in Hn as (a & Ha).
    destruct LI as [_ LI]. apply (proj2 (LI (Z.of_nat a))). eauto.
  - right. exists (i :: I), (select_where false specie 0 types). split; [exact LI|]. split; [discriminate|].
    split; [exact LD|]. now intros [| |].
Qed.

Lemma finish_sel circ st coords latt (a : Params R) ss p :
  finish_parse geomspace_R circ st coords latt a ss = Ok p ->
  exists c, choose_atoms circ st coords a = Ok (c, (p_indices p, p_drift_indices p)).
Proof.
  intros H. destruct (finish_inv _ _ _ _ _ _ _ H) as (c' & I & D & disp & q & E1 & E2 & E3 & ->).
  destruct (parser_init_sel _ _ _ _ _ _ _ _ E3) as [EI ED]. cbn. rewrite EI, ED. eauto.
Qed.
Lemma choose_species circ st (coords : list (list (V3 R))) a sp c I D : a_specie a = Some sp ->
  choose_atoms circ st coords a = Ok (c, (I, D)) ->
  species_selection (s_types st) sp (a_framework a) I D.
Proof.
  intros Hs H. unfold choose_atoms in H. rewrite Hs in H.
  destruct (C17_get_indices_proof (s_types st) sp) as [[_ G]|(I' & D' & L1 & Hne & L2 & G)]; rewrite G in H;
  [discriminate|]. cbn [bind] in H. injection H as _ <- <-. split; [exact L1|]. split; [exact Hne|].
  destruct (a_framework a); auto.
Qed.

Lemma read_types types vol n natoms (c : nat -> nat -> V3 R) l k st coords latt : 0 < k ->
  get_structure_coords_latt (frames_of types vol n natoms c l) k = Ok (st, coords, latt) -> s_types st = types.
Proof.
  intros Hk E. unfold get_structure_coords_latt in E. unfold frames_of in E.
  rewrite <- (Z2Nat.id k) in E by lia.
  rewrite py_stride_tab in E by lia. cbn [bind] in E. inv_bind E u1 F1. inv_bind E u2 F2.
  destruct (kept n _) as [|m]; [discriminate|]. rewrite tab_S in E. now injection E as <- _ _.
Qed.
Lemma C17_ase_proof : forall circ types vol n natoms (c : nat -> nat -> V3 R) l (a : Params R) sp p,
  a_specie a = Some sp -> 0 < a_sub_sample_traj a ->
  (ase_parser geomspace_R circ (frames_of types vol n natoms c l) a = Ok p
   \/ pymatgen_parser geomspace_R circ (frames_of types vol n natoms c l) a = Ok p) ->
  species_selection types sp (a_framework a) (p_indices p) (p_drift_indices p).
Proof.
  intros circ types vol n natoms c l a sp p Hs Hk H.
  destruct H as [H|H].
  - unfold ase_parser in H. inv_bind H r E1. destruct r as [[st coords] latt].
    apply read_types in E1; [|exact Hk]. rewrite <- E1. destruct (finish_sel _ _ _ _ _ _ _ H) as (c' & E2).
    eapply choose_species; eassumption.
  - unfold pymatgen_parser in H. inv_bind H r E1. destruct r as [[st coords] latt]. inv_bind H q E3.
    apply read_types in E1; [|exact Hk]. rewrite <- E1. destruct (finish_sel _ _ _ _ _ _ _ E3) as (c' & E2).
    destruct (a_time_step a); [discriminate|]. injection H as <-. cbn.
    eapply choose_species; eassumption.
Qed.
Lemma read_mda_types types vol n natoms (c : nat -> nat -> V3 R) l ka kt st coords latt :
  0 < ka -> 0 < kt ->
  get_structure_coords_latt_mda (frames_of types vol n natoms c l) ka kt = Ok (st, coords, latt) ->
  sub_sample (Z.to_nat ka) types (s_types st).
Proof.
  intros Ha Ht E. unfold get_structure_coords_latt_mda in E. unfold frames_of in E.
  rewrite <- (Z2Nat.id kt) in E by lia. rewrite py_stride_tab in E by lia. cbn [bind] in E.
  inv_bind E u0 F0. inv_bind E u1 F1. inv_bind E u2 F2.
  destruct (kept n _) as [|m]; [discriminate|]. rewrite tab_S in E. cbn [f_types] in E.
  inv_bind E ty F3. injection E as <- _ _. cbn [s_types].
  unfold py_stride in F3. destruct (ka =? 0) eqn:E1; [discriminate|].
  destruct (0 <? ka) eqn:E2; [|apply Z.ltb_ge in E2; lia]. injection F3 as <-.
  intros i. apply nth_error_every. lia.
Qed.
Lemma C17_mda_proof : forall circ types vol n natoms (c : nat -> nat -> V3 R) l (a : Params R) sp p,
  a_specie a = Some sp -> 0 < a_sub_sample_traj a -> 0 < a_sub_sample_atoms a ->
  mda_parser geomspace_R circ (frames_of types vol n natoms c l) a = Ok p ->
  exists types', sub_sample (Z.to_nat (a_sub_sample_atoms a)) types types' /\
  species_selection types' sp (a_framework a) (p_indices p) (p_drift_indices p).
Proof.
  intros circ types vol n natoms c l a sp p Hs Hk Hka H.
  unfold mda_parser in H. inv_bind H u0 E0. inv_bind H r E1. destruct r as [[st coords] latt].
  destruct (finish_sel _ _ _ _ _ _ _ H) as (c' & E2).
  exists (s_types st). split; [exact (read_mda_types _ _ _ _ _ _ _ _ _ _ _ Hka Hk E1)|]. eapply choose_species; eassumption.
Qed.

(** ** C18 *)
Lemma complement_spec natoms idx : lists_others natoms idx (complement natoms idx).
Proof.
  unfold complement, lists_others. split.
  - generalize 0%nat as s. induction natoms as [|n IH]; intros s; cbn [seq map filter]; [constructor|].
    assert (F : Forall (Z.lt (Z.of_nat s)) (filter (fun i => negb (existsb (Z.eqb i) idx)) (map Z.of_nat (seq (S s) n)))).
    { apply Forall_forall. intros j Hj. apply filter_In in Hj as [Hj _]. apply in_map_iff in Hj as (k & <- & Hk).
      apply in_seq in Hk. lia. }
    destruct (negb _); [constructor; [apply IH|exact F]|apply IH].
  - intros i. rewrite filter_In, in_map_iff. rewrite negb_true_iff.
    assert (X : existsb (Z.eqb i) idx = false <-> ~ In i idx).
    { split.
      - intros E C. assert (E2 : existsb (Z.eqb i) idx = true) by (apply existsb_exists; exists i; split; [exact C|apply Z.eqb_refl]).
        congruence.
      - intros C. destruct (existsb _ _) eqn:E; [|reflexivity]. apply existsb_exists in E as (y & Hy & Ey).
        apply Z.eqb_eq in Ey. subst. contradiction. }
    rewrite X. split.
    + intros [(k & <- & Hk) C]. apply in_seq in Hk. split; [lia|exact C].
    + intros [H C]. split; [|exact C]. exists (Z.to_nat i). split; [lia|]. apply in_seq. lia.
Qed.
Lemma choose_flat circ st (coords : list (list (V3 R))) a l c I D : a_specie a = None ->
  a_specie_indices a = SIFlat l -> (forall f, a_framework a <> PyList f) ->
  choose_atoms circ st coords a = Ok (c, (I, D)) -> I = l /\ lists_others (length (s_types st)) l D.
Proof.
  intros Hs Hl Hf H. unfold choose_atoms in H. rewrite Hs, Hl in H. destruct l as [|z l]; [discriminate|].
  inv_bind H ix E. injection H as _ ->. unfold get_framework in E.
  destruct (a_framework a) as [|f|]; [| now destruct (Hf f) |];
  injection E as <- <-; (split; [reflexivity|]); apply complement_spec.
Qed.
Lemma C18_ase_proof : forall circ types vol n natoms (c : nat -> nat -> V3 R) lat (a : Params R) l p,
  a_specie a = None -> a_specie_indices a = SIFlat l -> (forall f, a_framework a <> PyList f) ->
  0 < a_sub_sample_traj a ->
  (ase_parser geomspace_R circ (frames_of types vol n natoms c lat) a = Ok p
   \/ pymatgen_parser geomspace_R circ (frames_of types vol n natoms c lat) a = Ok p) ->
  p_indices p = l /\ lists_others (length types) l (p_drift_indices p).
Proof.
  intros circ types vol n natoms c lat a l p Hs Hl Hf Hk H.
  destruct H as [H|H].
  - unfold ase_parser in H. inv_bind H r E1. destruct r as [[st coords] latt].
    apply read_types in E1; [|exact Hk]. rewrite <- E1. destruct (finish_sel _ _ _ _ _ _ _ H) as (c' & E2).
    eapply choose_flat; eassumption.
  - unfold pymatgen_parser in H. inv_bind H r E1. destruct r as [[st coords] latt]. inv_bind H q E3.
    apply read_types in E1; [|exact Hk]. rewrite <- E1. destruct (finish_sel _ _ _ _ _ _ _ E3) as (c' & E2).
    destruct (a_time_step a); [discriminate|]. injection H as <-. cbn.
    eapply choose_flat; eassumption.
Qed.
Lemma C18_mda_proof : forall circ types vol n natoms (c : nat -> nat -> V3 R) lat (a : Params R) l p,
  a_specie a = None -> a_specie_indices a = SIFlat l -> (forall f, a_framework a <> PyList f) ->
  0 < a_sub_sample_traj a -> 
  mda_parser geomspace_R circ (frames_of types vol n natoms c lat) a = Ok p ->
  a_sub_sample_atoms a = 1 /\ p_indices p = l /\ lists_others (length types) l (p_drift_indices p).
Proof.
  intros circ types vol n natoms c lat a l p Hs Hl Hf Hk H.
  unfold mda_parser in H. rewrite Hl in H. rewrite orb_false_r in H.
  destruct (a_sub_sample_atoms a =? 1) eqn:E0; [|discriminate]. apply Z.eqb_eq in E0. rewrite E0 in H.
  cbn [guard bind] in H. split; [exact E0|]. inv_bind H r E1. destruct r as [[st coords] latt].
  pose proof (read_mda_types _ _ _ _ _ _ 1 _ _ _ _ ltac:(lia) Hk E1) as Ht.
  assert (Et : s_types st = types).
  { apply list_ext. intros i. rewrite (Ht i). f_equal. change (Z.to_nat 1) with 1%nat. lia. }
  destruct (finish_sel _ _ _ _ _ _ _ H) as (c' & E2).
  rewrite <- Et. eapply choose_flat; eassumption.
Qed.
(** With framework_indices, selection fails as soon as some atom is not selected. *)
Lemma C18_framework_fails_proof : forall circ st (coords : list (list (V3 R))) a l f,
  a_specie a = None -> a_specie_indices a = SIFlat l -> a_framework a = PyList f -> l <> [] ->
  (exists i, 0 <= i < Z.of_nat (length (s_types st)) /\ ~ In i l) ->
  choose_atoms circ st coords a = Raise AttributeError.
Proof.
  intros circ st coords a l f Hs Hl Hf Hne (i & Hi). unfold choose_atoms. rewrite Hs, Hl, Hf.
  destruct l as [|z l]; [congruence|]. unfold get_framework.
  apply (complement_spec (length (s_types st)) (z :: l)) in Hi.
  destruct (complement _ _); [destruct Hi|reflexivity].
Qed.
Lemma C18_refuted_proof : forall circ,
  ase_parser geomspace_R circ (hop_frames 3)
    (mkParams None (PyFloat 1%R) 1 1 1 (mkOptions (Some 1) (Some 3) 100 "linear" "multi-origin" 8 8)%R
       (SIFlat [0]) None (PyList [1])) = Raise AttributeError.
Proof.
  intros circ. unfold ase_parser, hop_frames. cbn [a_sub_sample_traj].
  destruct (read_ok unit_cell ["Li"; "O"]%string 1%R 3 2 1 hop ltac:(lia) ltac:(lia)) as (co & la & E).
  change (Z.of_nat 1) with 1 in E. rewrite E. cbn [bind]. unfold finish_parse.
  rewrite C18_framework_fails_proof with (l := [0]) (f := [1]); try reflexivity; [discriminate|].
  exists 1. cbn. split; [lia|]. intros [C|[]]; lia.
Qed.
Lemma C18_ndarray_proof : forall natoms l, get_framework natoms l PyOther = get_framework natoms l PyNone.
Proof. reflexivity. Qed.

(** ** C52 *)
Lemma C52_rejected_proof : forall geo circ (frames : list (Frame R)) (a : Params R),
  a_sub_sample_atoms a <> 1 -> a_specie_indices a <> SINone ->
  mda_parser geo circ frames a = Raise ValueError.
Proof.
  intros geo circ frames a H1 H2. unfold mda_parser. apply Z.eqb_neq in H1. rewrite H1.
  destruct (a_specie_indices a); [congruence|reflexivity..].
Qed.
Lemma C52_subsample_proof : forall geo circ types vol n natoms (pos : nat -> nat -> V3 R) cell (a : Params R) ka types',
  (0 < ka)%nat -> a_sub_sample_atoms a = Z.of_nat ka -> a_specie_indices a = SINone -> 0 < a_sub_sample_traj a ->
  sub_sample ka types types' ->
  mda_parser geo circ (frames_of types vol n natoms pos cell) a
  = mda_parser geo circ (frames_of types' vol n (kept natoms ka) (fun f b => pos f (b * ka)%nat) cell)
      (without_atom_sampling a).
Proof.
  intros geo circ types vol n natoms pos cell a ka types' Hka Eka Hsi Hk Ht.
  unfold mda_parser. rewrite Hsi. cbn [without_atom_sampling a_specie_indices a_sub_sample_atoms a_sub_sample_traj a_step_skip].
  rewrite Hsi. rewrite !orb_true_r. cbn [guard bind]. rewrite Eka.
  assert (E : get_structure_coords_latt_mda (frames_of types vol n natoms pos cell) (Z.of_nat ka) (a_sub_sample_traj a)
    = get_structure_coords_latt_mda (frames_of types' vol n (kept natoms ka) (fun f b => pos f (b * ka)%nat) cell) 1
        (a_sub_sample_traj a)).
  { unfold get_structure_coords_latt_mda. rewrite <- (Z2Nat.id (a_sub_sample_traj a)) by lia.
    set (k := Z.to_nat (a_sub_sample_traj a)). assert (Hk' : (0 < k)%nat) by (unfold k; lia).
    unfold frames_of. rewrite !py_stride_tab by exact Hk'. cbn [bind].
    assert (M : mapM (fun f : Frame R => let! inv_matrix := minv (f_cell f) in
                  let! atoms := py_stride (Z.of_nat ka) (f_pos f) in
                  Ok (map (fun p => vecmat p inv_matrix) atoms))
       (tab (kept n k) (fun i => mkFrame types (tab natoms (pos (i * k)%nat)) (cell (i * k)%nat) vol))
      = mapM (fun f : Frame R => let! inv_matrix := minv (f_cell f) in
                  let! atoms := py_stride 1 (f_pos f) in
                  Ok (map (fun p => vecmat p inv_matrix) atoms))
       (tab (kept n k) (fun i => mkFrame types' (tab (kept natoms ka) (fun b => pos (i * k)%nat (b * ka)%nat)) (cell (i * k)%nat) vol))).
    { unfold tab at 1 3. rewrite !mapM_map. apply mapM_ext. intros i Hi. cbn [f_cell f_pos].
      destruct (minv _); [|reflexivity]. cbn [bind]. rewrite py_stride_tab by exact Hka. now rewrite py_stride_one. }
    rewrite M. match goal with |- bind ?m _ = bind ?m2 _ => change m2 with m; destruct m; [|reflexivity] end. cbn [bind].
    destruct (duplicate_first _); [|reflexivity]. cbn [bind].
    assert (M2 : forall ty na (p2 : nat -> nat -> V3 R),
      map f_cell (tab (kept n k) (fun i => mkFrame ty (tab na (p2 i)) (cell (i * k)%nat) vol))
      = tab (kept n k) (fun i => cell (i * k)%nat)).
    { intros. unfold tab at 1. now rewrite map_map. }
    rewrite (M2 types natoms (fun i => pos (i * k)%nat)).
    rewrite (M2 types' (kept natoms ka) (fun i b => pos (i * k)%nat (b * ka)%nat)).
    match goal with |- bind ?m _ = bind ?m2 _ => change m2 with m; destruct m; [|reflexivity] end. cbn [bind].
    destruct (kept n k) as [|m]; [reflexivity|]. rewrite !tab_S. cbn [f_types f_volume].
    rewrite py_stride_one.
    assert (Et : py_stride (Z.of_nat ka) types = Ok types').
    { unfold py_stride. destruct (Z.of_nat ka =? 0) eqn:E; [apply Z.eqb_eq in E; lia|].
      destruct (0 <? Z.of_nat ka) eqn:E2; [|apply Z.ltb_ge in E2; lia]. rewrite Nat2Z.id. f_equal.
      apply list_ext. intros i. rewrite (Ht i). now apply nth_error_every. }
    rewrite Et. reflexivity. }
  rewrite E. reflexivity.
Qed.
Lemma C52_coordinates_proof : forall (frames : list (Frame R)) ka kt coords latt st,
  0 < ka -> 0 < kt -> get_structure_coords_latt_mda frames ka kt = Ok (st, coords, latt) ->
  forall j fr i p, nth_error frames (j * Z.to_nat kt) = Some fr ->
  nth_error (f_pos fr) (i * Z.to_nat ka) = Some p ->
  exists c u, nth_error coords (S j) = Some c /\ nth_error c i = Some u
    /\ nth_error latt (S j) = Some (f_cell fr) /\ cart (f_cell fr) u = p.
Proof.
  intros frames ka kt coords latt st Hka Hkt H j fr i p Hfr Hp. unfold get_structure_coords_latt_mda in H.
  unfold py_stride at 1 in H. destruct (kt =? 0) eqn:E1; [apply Z.eqb_eq in E1; lia|].
  destruct (0 <? kt) eqn:E2; [|apply Z.ltb_ge in E2; lia]. cbn [bind] in H.
  set (sub := every (Z.to_nat kt) 0 frames) in *.
  assert (Hsub : nth_error sub j = Some fr) by (unfold sub; rewrite nth_error_every by lia; exact Hfr).
  inv_bind H scaled F1. inv_bind H co F2. inv_bind H la F3.
  assert (Ec : co = coords /\ la = latt).
  { destruct sub; [discriminate|]. inv_bind H ty F4. now injection H as _ <- <-. }
  destruct Ec as [<- <-]. clear H.
  apply mapM_ok in F1. destruct (Forall2_nth_error _ _ _ j fr F1 Hsub) as (c & Hc & E3).
  destruct (minv (f_cell fr)) as [mi|] eqn:Em; [|discriminate]. cbn [bind] in E3.
  destruct (minv_inv _ _ Em) as (_ & _ & H2).
  unfold py_stride in E3. destruct (ka =? 0) eqn:E4; [apply Z.eqb_eq in E4; lia|].
  destruct (0 <? ka) eqn:E5; [|apply Z.ltb_ge in E5; lia]. cbn [bind] in E3. injection E3 as <-.
  unfold duplicate_first in F2, F3.
  destruct scaled as [|s0 sc]; [discriminate|]. injection F2 as <-.
  destruct (map f_cell sub) as [|l0 lt] eqn:El; [discriminate|]. injection F3 as <-.
  eexists. exists (vecmat p mi). split; [exact Hc|].
  split; [rewrite nth_error_map, nth_error_every by lia; now rewrite Hp|].
  split; [cbn [nth_error]; rewrite <- El; now rewrite nth_error_map, Hsub|].
  rewrite vecmat_cart. apply H2.
Qed.

(** ** C21 and C22 as statements about times *)
Lemma frame_time_eq ss (ts : R) j m k :
  frame_time ss ts (j * k) ((j + m) * k) = (INR m * ts * IZR ss * INR k)%R.
Proof. unfold frame_time. rewrite !mult_INR, plus_INR. ring. Qed.
Lemma C21_mda_proof :
  forall circ cell types vol n natoms ka k x (img : nat -> nat -> V3 Z) (a : Params R) p,
  cell_volume cell <> 0%R -> (0 < ka)%nat -> (0 < k)%nat -> length types = natoms ->
  small_steps n natoms k x ->
  atomic_selection a -> a_sub_sample_traj a = Z.of_nat k -> a_sub_sample_atoms a = Z.of_nat ka ->
  let ts := pynum_val (a_time_step a) in
  sensible (kept n k) (IZR (a_step_skip a * Z.of_nat k) * ts) (a_opts a) ->
  o_sampling (a_opts a) = "multi-origin"%string ->
  mda_parser geomspace_R circ
    (frames_of types vol n natoms (fun f a => cart cell (plus3 (x f a) (ivec (img f a)))) (fun _ => cell)) a = Ok p ->
  let N := kept natoms ka in
  Forall (valid_site N) (p_indices p) -> Forall (valid_site N) (p_drift_indices p) ->
  forall q arr, nth_error (p_disp_3d p) q = Some arr -> exists m : nat,
     reports_interval N (kept n k) k (fun f a => cart cell (x f (a * ka)%nat)) (p_indices p) (p_drift_indices p) m arr
     /\ forall j, nth_error (p_delta_t p) q = Some (frame_time (a_step_skip a) ts (j * k) ((j + m) * k)).
Proof.
  intros circ cell types vol n natoms ka k x img a p H1 H2 H3 H4 H5 H6 H7 H8 ts H9 H10 H11 N H12 H13 q arr Hq.
  destruct (C07_mda_proof circ cell types vol n natoms ka k x img a p H1 H2 H3 H4 H5 H6 H7 H8 H9 H10 H11 H12 H13 q arr Hq)
    as (m & _ & _ & M1 & M2).
  exists m. split; [exact M2|]. intros j. now rewrite frame_time_eq.
Qed.
Lemma C21_pymatgen_proof :
  forall circ cell types vol n natoms k x (img : nat -> nat -> V3 Z) (a : Params R) p,
  cell_volume cell <> 0%R -> (0 < k)%nat -> small_steps n natoms k x ->
  atomic_selection a -> a_sub_sample_traj a = Z.of_nat k ->
  let ts := pynum_val (a_time_step a) in
  sensible (kept n k) (IZR (a_step_skip a * Z.of_nat k) * ts) (a_opts a) ->
  o_sampling (a_opts a) = "multi-origin"%string ->
  pymatgen_parser geomspace_R circ
    (frames_of types vol n natoms (fun f a => plus3 (x f a) (ivec (img f a))) (fun _ => cell)) a = Ok p ->
  Forall (valid_site natoms) (p_indices p) -> Forall (valid_site natoms) (p_drift_indices p) ->
  forall q arr, nth_error (p_disp_3d p) q = Some arr -> exists m : nat,
     reports_interval natoms (kept n k) k (fun f a => cart cell (x f a)) (p_indices p) (p_drift_indices p) m arr
     /\ forall j, nth_error (p_delta_t p) q = Some (frame_time (a_step_skip a) ts (j * k) ((j + m) * k) / 1000)%R.
Proof.
  intros circ cell types vol n natoms k x img a p H1 H2 H3 H4 H5 ts H6 H7 H8 H9 H10 q arr Hq.
  destruct (C07_pymatgen_proof circ cell types vol n natoms k x img a p H1 H2 H3 H4 H5 H6 H7 H8 H9 H10 q arr Hq)
    as (m & _ & _ & M1 & M2).
  exists m. split; [exact M2|]. intros j. now rewrite frame_time_eq.
Qed.
Lemma C21_ase_proof :
  forall circ cell types vol n natoms k x (img : nat -> nat -> V3 Z) (a : Params R) p,
  cell_volume cell <> 0%R -> (0 < k)%nat -> small_steps n natoms k x ->
  atomic_selection a -> a_sub_sample_traj a = Z.of_nat k ->
  let ts := pynum_val (a_time_step a) in
  sensible (kept n k) (IZR (a_step_skip a) * ts) (a_opts a) -> o_sampling (a_opts a) = "multi-origin"%string ->
  ase_parser geomspace_R circ
    (frames_of types vol n natoms (fun f a => plus3 (x f a) (ivec (img f a))) (fun _ => cell)) a = Ok p ->
  Forall (valid_site natoms) (p_indices p) -> Forall (valid_site natoms) (p_drift_indices p) ->
  forall q arr, nth_error (p_disp_3d p) q = Some arr -> exists m : nat,
     reports_interval natoms (kept n k) k (fun f a => cart cell (x f a)) (p_indices p) (p_drift_indices p) m arr
     /\ forall j, nth_error (p_delta_t p) q
                  = Some (frame_time (a_step_skip a) ts (j * k) ((j + m) * k) / INR k)%R.
Proof.
  intros circ cell types vol n natoms k x img a p H1 H2 H3 H4 H5 ts H6 H7 H8 H9 H10 q arr Hq.
  destruct (C07_ase_proof circ cell types vol n natoms k x img a p H1 H2 H3 H4 H5 H6 H7 H8 H9 H10 q arr Hq)
    as (m & _ & _ & M1 & M2).
  exists m. split; [exact M2|]. intros j. rewrite frame_time_eq, M1. f_equal. fold ts. field. apply not_0_INR. lia.
Qed.
Lemma parser_init_delta geo (d : Arr R) I D (ts : R) ss o p :
  parser_init geo d I D ts ss o = Ok p ->
  p_delta_t p = map (fun z => IZR z * ts * IZR ss)%R (p_intervals p).
Proof.
  unfold parser_init. intros H. inv_bind H dc E1. inv_bind H q E2. inv_bind H z E3.
  destruct (_ <=? _); [discriminate|]. inv_bind H tis E4. inv_bind H r E5. injection H as <-.
  cbn [p_delta_t p_intervals]. unfold get_disps in E5. destruct tis as [|t tis].
  - destruct (nltb _ _); [discriminate|]. now injection E5 as <-.
  - inv_bind E5 sel E6. destruct (nltb _ _); [discriminate|]. inv_bind E5 w E7. injection E5 as <-. reflexivity.
Qed.
Lemma C22_proof :
  forall circ (frames : list (Frame R)) (a : Params R) t p, a_time_step a = PyFloat t ->
  pymatgen_parser geomspace_R circ frames a = Ok p ->
  p_delta_t p = map (fun z => IZR z * t * (IZR (a_step_skip a) * IZR (a_sub_sample_traj a)) / 1000)%R (p_intervals p).
Proof.
  intros circ frames a t p Ht H. unfold pymatgen_parser in H. inv_bind H r E1. destruct r as [[st c] l].
  inv_bind H q E2. rewrite Ht in H. injection H as <-. cbn [p_delta_t p_intervals set_delta_t].
  destruct (finish_inv _ _ _ _ _ _ _ E2) as (c' & I & D & disp & q' & _ & _ & E3 & ->).
  cbn [set_volume p_delta_t p_intervals]. rewrite (parser_init_delta _ _ _ _ _ _ _ _ E3), map_map.
  apply map_ext. intros z. rewrite Ht. cbn [pynum_val]. rewrite mult_IZR. numR. field.
Qed.
