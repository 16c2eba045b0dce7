(** * ProofsOrder: order of the atoms, common motion, triclinic warning (C64-C66) *)
From Verif Require Import Base ModelParser ModelDiffusion ModelHdf ModelAnalyzer Spec SpecParser SpecStats SpecFit SpecRun SpecSym SpecOrder
  Lemmas ProofsDisp ProofsIntervals ProofsWindows ProofsParser ProofsTraj ProofsBoot ProofsStats ProofsFit ProofsSym ProofsTime ProofsAnalyzer ProofsMolTraj.
From Coq Require Import Reals Lra Lia Permutation Sorting.
Open Scope Z_scope.

(** ** Sums do not depend on the order *)
Lemma nsum_perm (l l' : list R) : Permutation l l' -> nsum l = nsum l'.
Proof. intros H. rewrite !nsum_R. now apply rsum_perm. Qed.
Lemma nmean_perm (l l' : list R) : Permutation l l' -> nmean l = nmean l'.
Proof. intros H. unfold nmean. now rewrite (nsum_perm _ _ H), (Permutation_length H). Qed.
Lemma nvar_perm (l l' : list R) : Permutation l l' -> nvar l = nvar l'.
Proof.
  intros H. unfold nvar. rewrite (nmean_perm _ _ H), (Permutation_length H).
  now rewrite (nsum_perm _ _ (Permutation_map (fun x => nsq (nsub x (nmean l'))) H)).
Qed.
Lemma ngp_perm (l l' : list R) : Permutation l l' -> ngp_calculation l = ngp_calculation l'.
Proof.
  intros H. unfold ngp_calculation. rewrite (nmean_perm _ _ H). now rewrite (nmean_perm _ _ (Permutation_map _ H)).
Qed.
Lemma vmean_perm (l l' : list (V3 R)) : Permutation l l' -> vmean l = vmean l'.
Proof.
  intros H. unfold vmean. now rewrite (nmean_perm _ _ (Permutation_map vx H)), (nmean_perm _ _ (Permutation_map vy H)), (nmean_perm _ _ (Permutation_map vz H)).
Qed.
Lemma mapM_perm {S T} (f : S -> Res T) l l' r : Permutation l l' -> mapM f l = Ok r ->
  exists r', mapM f l' = Ok r' /\ Permutation r r'.
Proof.
  intros P. revert r. induction P as [|x l l' P IH|x y l|l l' l'' P1 IH1 P2 IH2]; intros r H.
  - injection H as <-. exists []. auto.
  - cbn [mapM] in H. inv_bind H y E. inv_bind H t Et. injection H as <-. destruct (IH t Et) as (t' & E' & P').
    exists (y :: t'). cbn [mapM]. rewrite E. cbn [bind]. rewrite E'. cbn [bind]. split; [reflexivity|now constructor].
  - cbn [mapM] in H. inv_bind H a Ea. inv_bind H b Eb. inv_bind Eb c Ec. inv_bind Eb d Ed. injection Eb as <-. injection H as <-.
    exists (c :: a :: d). cbn [mapM]. rewrite Ec. cbn [bind]. rewrite Ea. cbn [bind]. rewrite Ed. cbn [bind]. split; [reflexivity|constructor].
  - destruct (IH1 r H) as (r1 & E1 & Q1). destruct (IH2 r1 E1) as (r2 & E2 & Q2). exists r2. split; [exact E2|]. now transitivity r1.
Qed.
Lemma concat_perm {T} (l l' : list (list T)) : Permutation l l' -> Permutation (List.concat l) (List.concat l').
Proof.
  induction 1 as [|x l l' P IH|x y l|l l' l'' P1 IH1 P2 IH2]; cbn [List.concat].
  - constructor.
  - now apply Permutation_app_head.
  - rewrite !app_assoc. apply Permutation_app_tail, Permutation_app_comm.
  - now transitivity (List.concat l').
Qed.

(** ** Parser.__init__ *)
Section Init.
  Definition selects (d d' : Arr R) (I I' : list Z) : Prop := forall r, gather (a_rows d) I = Ok r ->
    exists r', gather (a_rows d') I' = Ok r' /\ Permutation r r'.
  Lemma correct_drift_order d d' D D' I I' dc : a_obs d' = a_obs d -> selects d d' D D' -> selects d d' I I' ->
    correct_drift D d = Ok dc -> exists dc', correct_drift D' d' = Ok dc' /\ a_obs dc' = a_obs dc /\ selects dc dc' I I'.
  Proof.
    intros HO HD HI H. unfold correct_drift in *. destruct D as [|i D].
    - injection H as <-. destruct (HD [] eq_refl) as (r' & E & P). apply Permutation_nil in P. subst r'.
      apply gather_length in E. destruct D' as [|j D']; [|discriminate E]. exists d'. auto.
    - inv_bind H fw E. destruct (HD _ E) as (fw' & E' & P). 
      assert (L : length fw' = length fw) by now apply Permutation_length, Permutation_sym.
      destruct D' as [|j D'].
      { exfalso. apply gather_length in E, E'. cbn in E, E'. lia. }
      rewrite E'. cbn [bind]. injection H as <-. eexists. split; [reflexivity|]. split; [exact HO|].
      rewrite HO.
      assert (EA : map (fun t => vmean (map (fun r => nth t r v0) fw')) (seq 0 (a_obs d))
                 = map (fun t => vmean (map (fun r => nth t r v0) fw)) (seq 0 (a_obs d))).
      { apply map_ext. intros t. apply vmean_perm, Permutation_map, Permutation_sym, P. }
      rewrite EA. intros r. cbn [a_rows]. rewrite !gather_map. intros G.
      destruct (gather (a_rows d) I) as [s|] eqn:Es; [|discriminate]. injection G as <-.
      destruct (HI s Es) as (s' & -> & Q). eexists. split; [reflexivity|]. now apply Permutation_map.
  Qed.
  Lemma window_order samp i ti sel sel' T w : Permutation sel sel' -> window samp i ti sel T = Ok w ->
    exists w', window samp i ti sel' T = Ok w' /\ same_rows w w'.
  Proof.
    intros P. unfold window. destruct (_ =? _)%string.
    - intros H. injection H as <-. eexists. split; [reflexivity|]. split; [reflexivity|]. cbn [single_origin a_rows]. now apply Permutation_map.
    - destruct (_ =? _)%string; [|discriminate]. unfold multi_origin. intros H. inv_bind H sh E1. inv_bind H u E2. inv_bind H rows E3. injection H as <-.
      rewrite ?E1. cbn [bind]. rewrite ?E2. cbn [bind]. destruct (mapM_perm _ _ _ _ P E3) as (r' & -> & Q). cbn [bind]. eexists. split; [reflexivity|].
      split; [reflexivity|exact Q].
  Qed.
  Lemma disps_loop_order samp sel sel' T last : Permutation sel sel' -> forall tis i r,
    disps_loop samp sel T last i tis = Ok r ->
    exists ds', disps_loop samp sel' T last i tis = Ok (ds', snd r) /\ Forall2 same_rows (fst r) ds'.
  Proof.
    intros P. induction tis as [|ti tis IH]; intros i r H; cbn [disps_loop] in *.
    - injection H as <-. exists []. split; [reflexivity|constructor].
    - inv_bind H w Ew. destruct (window_order _ _ _ _ _ _ _ P Ew) as (w' & -> & HO & HP). cbn [bind]. rewrite HO.
      inv_bind H c Ec. rewrite ?Ec. cbn [bind]. inv_bind H tl Et. destruct (IH _ _ Et) as (ds' & -> & F). cbn [bind].
      rewrite <- (Permutation_length HP). destruct (_ <=? 1).
      + injection H as <-. exists ds'. auto.
      + injection H as <-. cbn [fst snd]. eexists. split; [reflexivity|]. constructor; [split; assumption|exact F].
  Qed.
  Lemma parser_init_order geo d d' I I' D D' (ts : R) ss o p : a_obs d' = a_obs d -> selects d d' D D' -> selects d d' I I' -> length I' = length I ->
    parser_init geo d I D ts ss o = Ok p -> exists p', parser_init geo d' I' D' ts ss o = Ok p' /\ same_parse p p'.
  Proof.
    intros HO HD HI HL H. unfold parser_init in *. inv_bind H dc E1.
    destruct (correct_drift_order _ _ _ _ _ _ _ HO HD HI E1) as (dc' & -> & HO' & HS). cbn [bind]. rewrite HO'.
    inv_bind H q Eq. rewrite ?Eq. cbn [bind]. inv_bind H m Em. rewrite ?Em. cbn [bind].
    destruct (_ <=? m); [discriminate|]. inv_bind H tis Et. rewrite ?Et. cbn [bind]. inv_bind H r Er.
    assert (X : exists ds', get_disps ts ss I' (o_sampling o) (o_memory_limit o) (o_itemsize o) tis dc' = Ok (fst (fst r), ds', snd r)
               /\ Forall2 same_rows (snd (fst r)) ds').
    { unfold get_disps in *. destruct tis as [|t0 tis].
      - destruct (_ <? _)%num; [discriminate|]. injection Er as <-. cbn [fst snd]. exists []. auto.
      - inv_bind Er sel Es. destruct (HS _ Es) as (sel' & -> & P). cbn [bind]. rewrite HL, HO'.
        destruct (_ <? _)%num; [discriminate|]. inv_bind Er r1 E2. injection Er as <-.
        destruct (disps_loop_order _ _ _ _ _ P _ _ _ E2) as (ds' & -> & F). cbn [bind fst snd]. exists ds'. auto. }
    destruct X as (ds' & -> & F). cbn [bind fst snd]. injection H as <-. eexists. split; [reflexivity|].
    cbn. unfold same_parse. cbn. auto 10.
  Qed.
End Init.

(** ** Renumbered trajectories *)
Lemma renumbering_onto n s : renumbering n s -> forall a, (a < n)%nat -> exists b, (b < n)%nat /\ s b = a.
Proof.
  intros [H1 H2]. assert (B : FinFun.bFun n s) by exact H1.
  assert (J : FinFun.bInjective n s) by (intros x y Hx Hy; apply H2; assumption).
  exact (proj1 (FinFun.bInjective_bSurjective B) J).
Qed.
Lemma lists_NoDup types P l : lists_atoms types P l -> NoDup l.
Proof.
  intros [S _]. induction S as [|x l S IH F]; constructor; [|exact IH]. intros H. rewrite Forall_forall in F. specialize (F x H). lia.
Qed.
Lemma lists_renumbered s types types' P I I' : renumbering (length types) s -> renumbered_types s types types' ->
  lists_atoms types P I -> lists_atoms types' P I' -> Permutation I (map (fun i => Z.of_nat (s (Z.to_nat i))) I').
Proof.
  intros R [L T] HI HI'. pose proof (lists_NoDup _ _ _ HI) as N1. pose proof (lists_NoDup _ _ _ HI') as N2.
  destruct HI as [_ HI], HI' as [_ HI']. pose proof (renumbering_onto _ _ R) as On. destruct R as [R1 R2].
  assert (B : forall i, In i I' -> exists a, i = Z.of_nat a /\ (a < length types)%nat).
  { intros i Hi. apply HI' in Hi as (a & name & -> & Ha & _). exists a. split; [reflexivity|]. rewrite <- L. apply nth_error_Some. congruence. }
  apply NoDup_Permutation; [exact N1| |].
  - clear HI'. induction N2 as [|x l Hx N2 IH]; cbn [map]; constructor; [|apply IH; intros; apply B; now right].
    rewrite in_map_iff. intros (y & Ey & Hy). apply Hx. destruct (B x (or_introl eq_refl)) as (a & -> & Ha).
    destruct (B y (or_intror Hy)) as (b & -> & Hb). rewrite !Nat2Z.id in Ey. apply Nat2Z.inj in Ey. apply R2 in Ey; try assumption. now subst.
  - intros i. rewrite in_map_iff. split.
    + intros Hi. apply HI in Hi as (a & name & -> & Ha & HP). assert (La : (a < length types)%nat) by (apply nth_error_Some; congruence).
      destruct (On a La) as (b & Hb & <-). exists (Z.of_nat b). rewrite Nat2Z.id. split; [reflexivity|]. apply HI'.
      exists b, name. split; [reflexivity|]. split; [|exact HP]. now rewrite T.
    + intros (j & <- & Hj). apply HI' in Hj as (b & name & -> & Hb & HP). rewrite Nat2Z.id. apply HI.
      exists (s b), name. split; [reflexivity|]. split; [|exact HP]. rewrite <- T; [exact Hb|]. rewrite <- L. apply nth_error_Some. congruence.
Qed.
Lemma site_nat N a : site N (Z.of_nat a) = a.
Proof. unfold site. destruct (_ <? 0) eqn:E; [apply Z.ltb_lt in E; lia|]. apply Nat2Z.id. Qed.
Lemma selects_renumbered s types types' P I I' T (y : nat -> nat -> V3 R) : renumbering (length types) s -> renumbered_types s types types' ->
  lists_atoms types P I -> lists_atoms types' P I' ->
  selects (table (length types) T y) (table (length types) T (fun a => y (s a))) I I' /\ length I' = length I.
Proof.
  intros Rn Ty HI HI'. pose proof (lists_renumbered _ _ _ _ _ _ Rn Ty HI HI') as Q. split.
  - intros r. cbn [table a_rows]. rewrite gather_tab by now apply (lists_atoms_valid types P).
    intros H. injection H as <-. rewrite gather_tab by (rewrite <- (proj1 Ty); now apply (lists_atoms_valid types' P)).
    eexists. split; [reflexivity|]. rewrite (Permutation_map _ Q), map_map. erewrite map_ext_in; [reflexivity|].
    intros i Hi. cbn beta. rewrite site_nat. apply (proj2 HI') in Hi as (a & name & -> & _). now rewrite Nat2Z.id, site_nat.
  - rewrite (Permutation_length Q), map_length. reflexivity.
Qed.
Lemma displacements_renumbered types types' vol n natoms k (c : nat -> nat -> V3 R) l (s : nat -> nat) d : (0 < k)%nat ->
  displacements (Z.of_nat k) (frames_of types vol n natoms c l) = Ok d ->
  exists y, d = table natoms (kept n k) y
  /\ displacements (Z.of_nat k) (frames_of types' vol n natoms (fun f a => c f (s a)) l) = Ok (table natoms (kept n k) (fun a => y (s a))).
Proof.
  intros Hk. rewrite !displacements_stride by exact Hk. destruct (kept n k) as [|m] eqn:Em; [rewrite displacements_zero; discriminate|].
  destruct (mapM minv (tab (S m) (fun f => l (f * k)%nat))) as [li|e] eqn:E.
  - destruct (mapM_tab_ok _ _ _ _ (mkM v0 v0 v0) E) as [Er _]. rewrite Er in E.
    rewrite !(read_disp_fun _ _ _ _ _ _ _ E). intros H. injection H as <-. eexists. split; reflexivity.
  - rewrite (read_disp_singular _ _ _ _ _ _ _ E). discriminate.
Qed.
Lemma read_state types vol n natoms (c : nat -> nat -> V3 R) l k st coords latt : (0 < k)%nat ->
  get_structure_coords_latt (frames_of types vol n natoms c l) (Z.of_nat k) = Ok (st, coords, latt) -> st = mkStructure types vol.
Proof.
  intros Hk H. unfold get_structure_coords_latt, frames_of in H. rewrite py_stride_tab in H by exact Hk. cbn [bind] in H.
  inv_bind H u1 F1. inv_bind H u2 F2. destruct (kept n k) as [|m]; [discriminate|]. rewrite tab_S in H. now injection H as <- _ _.
Qed.
Lemma read_any types types' vol n natoms (c c' : nat -> nat -> V3 R) l k st coords latt : (0 < k)%nat ->
  get_structure_coords_latt (frames_of types vol n natoms c l) (Z.of_nat k) = Ok (st, coords, latt) ->
  exists coords' latt', get_structure_coords_latt (frames_of types' vol n natoms c' l) (Z.of_nat k) = Ok (mkStructure types' vol, coords', latt').
Proof.
  intros Hk H. unfold get_structure_coords_latt, frames_of in *. rewrite py_stride_tab in * by exact Hk. cbn [bind] in *.
  destruct (kept n k) as [|m]; [discriminate|]. rewrite tab_S. cbn [map duplicate_first bind f_types f_volume]. do 2 eexists. reflexivity.
Qed.
Lemma species_order circ types types' vol natoms k n (c : nat -> nat -> V3 R) l s a sp ss st coords latt p :
  (0 < k)%nat -> length types = natoms -> renumbering natoms s -> renumbered_types s types types' ->
  a_specie a = Some sp -> (forall fw, a_framework a <> PyList fw) ->
  get_structure_coords_latt (frames_of types vol n natoms c l) (Z.of_nat k) = Ok (st, coords, latt) ->
  finish_parse geomspace_R circ st coords latt a ss = Ok p ->
  exists coords' latt' p', get_structure_coords_latt (frames_of types' vol n natoms (fun f i => c f (s i)) l) (Z.of_nat k) = Ok (mkStructure types' vol, coords', latt')
   /\ finish_parse geomspace_R circ (mkStructure types' vol) coords' latt' a ss = Ok p' /\ same_parse p p'.
Proof.
  intros Hk HN Rn Ty Hs Hf HR HP. subst natoms. pose proof (read_state _ _ _ _ _ _ _ _ _ _ Hk HR) as ->.
  destruct (read_any _ types' _ _ _ _ (fun f i => c f (s i)) _ _ _ _ _ Hk HR) as (coords' & latt' & HR').
  destruct (finish_inv _ _ _ _ _ _ _ HP) as (c1 & I & D & disp & q & E1 & E2 & E3 & ->).
  assert (Ha : atomic_selection a) by (left; congruence).
  pose proof (choose_atomic _ _ _ _ _ Ha E1) as Ec. cbn [fst] in Ec. subst c1.
  rewrite <- (displacements_read _ _ _ _ _ HR) in E2.
  destruct (displacements_renumbered _ types' _ _ _ _ _ _ s _ Hk E2) as (y & -> & E2').
  rewrite (displacements_read _ _ _ _ _ HR') in E2'.
  destruct (choose_species _ _ _ _ _ _ _ _ Hs E1) as (LI & NI & LD). cbn [s_types] in LI, LD.
  destruct (C17_get_indices_proof types' sp) as [[HNo _]|(I' & D' & LI' & NI' & LD' & G)].
  { exfalso. destruct I as [|i I]; [contradiction|]. destruct (proj1 (proj2 LI i) (or_introl eq_refl)) as (b & name & _ & Hb & Hn).
    assert (Lb : (b < length types)%nat) by (apply nth_error_Some; congruence).
    destruct (renumbering_onto _ _ Rn b Lb) as (e & He & <-). apply (HNo name); [|exact Hn].
    rewrite <- (proj2 Ty e He) in Hb. eapply nth_error_In; exact Hb. }
  assert (LDD : lists_atoms types (fun s => ~ In s sp) D) by (destruct (a_framework a); [assumption|now destruct (Hf l0)|assumption]).
  destruct (selects_renumbered s types types' _ I I' (kept n k) y Rn Ty LI LI') as [SI LL].
  destruct (selects_renumbered s types types' _ D D' (kept n k) y Rn Ty LDD LD') as [SD _].
  destruct (parser_init_order _ (table (length types) (kept n k) y) (table (length types) (kept n k) (fun a => y (s a))) _ _ _ _ _ _ _ _ (eq_refl) SD SI LL E3) as (p' & E3' & SP).
  exists coords', latt', (set_volume p' vol). split; [exact HR'|]. split.
  - unfold finish_parse, choose_atoms. rewrite Hs. cbn [s_types]. rewrite G. cbn [bind fst snd].
    rewrite E2'. cbn [bind]. replace (match a_framework a with PyList l0 => l0 | _ => D' end) with D' by (destruct (a_framework a); [reflexivity|now destruct (Hf l0)|reflexivity]).
    rewrite E3'. reflexivity.
  - cbn. destruct SP as (S1 & S2 & S3 & S4 & S5 & S6 & S7). repeat split; assumption.
Qed.

Lemma same_parse_delta p p' f : same_parse p p' -> same_parse (set_delta_t p (map f (p_delta_t p))) (set_delta_t p' (map f (p_delta_t p'))).
Proof. intros (S1 & S2 & S3 & S4 & S5 & S6 & S7). cbn. repeat split; cbn; try assumption. now rewrite S3. Qed.
Section Renumbered.
  Context (circ : option (list R) -> list R -> Res R) (types types' : list string) (vol : R) (n natoms k : nat) (c : nat -> nat -> V3 R) (l : nat -> M3 R) (s : nat -> nat) (a : Params R) (sp : list string).
  Hypothesis Hk : (0 < k)%nat.
  Hypothesis HN : length types = natoms.
  Hypothesis Rn : renumbering natoms s.
  Hypothesis Ty : renumbered_types s types types'.
  Hypothesis Hs : a_specie a = Some sp.
  Hypothesis Hf : forall fw, a_framework a <> PyList fw.
  Hypothesis Ek : a_sub_sample_traj a = Z.of_nat k.
  Lemma C65_ase_proof p : ase_parser geomspace_R circ (frames_of types vol n natoms c l) a = Ok p ->
    exists p', ase_parser geomspace_R circ (frames_of types' vol n natoms (fun f i => c f (s i)) l) a = Ok p' /\ same_parse p p'.
  Proof.
    unfold ase_parser. rewrite Ek. intros H. inv_bind H r E. destruct r as [[st coords] latt].
    destruct (species_order _ _ _ _ _ _ _ _ _ _ _ _ _ _ _ _ _ Hk HN Rn Ty Hs Hf E H) as (coords' & latt' & p' & -> & F & SP).
    cbn [bind]. eauto.
  Qed.
  Lemma C65_pymatgen_proof p : pymatgen_parser geomspace_R circ (frames_of types vol n natoms c l) a = Ok p ->
    exists p', pymatgen_parser geomspace_R circ (frames_of types' vol n natoms (fun f i => c f (s i)) l) a = Ok p' /\ same_parse p p'.
  Proof.
    unfold pymatgen_parser. rewrite Ek. intros H. inv_bind H r E. destruct r as [[st coords] latt]. inv_bind H q Eq.
    destruct (species_order _ _ _ _ _ _ _ _ _ _ _ _ _ _ _ _ _ Hk HN Rn Ty Hs Hf E Eq) as (coords' & latt' & p' & -> & F & SP).
    cbn [bind]. rewrite F. cbn [bind]. destruct (a_time_step a); [discriminate|]. injection H as <-. eexists. split; [reflexivity|]. now apply same_parse_delta.
  Qed.
End Renumbered.

(** Cartesian trajectories *)
Definition inverse_or_zero (m : M3 R) : M3 R := match minv m with Ok i => i | Raise _ => mkM v0 v0 v0 end.
Definition scaled_by (l : nat -> M3 R) (c : nat -> nat -> V3 R) (f a : nat) : V3 R := vecmat (c f a) (inverse_or_zero (l f)).
Lemma read_mda_ok types vol n natoms k (c : nat -> nat -> V3 R) l r : (0 < k)%nat ->
  get_structure_coords_latt_mda (frames_of types vol n natoms c l) 1 (Z.of_nat k) = Ok r ->
  forall f, (f < kept n k)%nat -> exists i, minv (l (f * k)%nat) = Ok i.
Proof.
  intros Hk H f Hf. unfold get_structure_coords_latt_mda, frames_of in H. rewrite py_stride_tab in H by exact Hk. cbn [bind] in H.
  inv_bind H sc E. destruct (mapM_tab_ok _ _ _ _ [] E) as [_ Ei]. specialize (Ei f Hf). cbv beta in Ei. cbn [f_cell] in Ei.
  inv_bind Ei i Ei'. eauto.
Qed.
Lemma read_mda_eq types vol n natoms k (c : nat -> nat -> V3 R) l : (0 < k)%nat ->
  (forall f, (f < kept n k)%nat -> exists i, minv (l (f * k)%nat) = Ok i) ->
  get_structure_coords_latt_mda (frames_of types vol n natoms c l) 1 (Z.of_nat k)
  = get_structure_coords_latt (frames_of types vol n natoms (scaled_by l c) l) (Z.of_nat k).
Proof.
  intros Hk Hi. unfold get_structure_coords_latt_mda, get_structure_coords_latt, frames_of. rewrite !py_stride_tab by exact Hk. cbn [bind].
  unfold tab at 1. rewrite mapM_map. 
  rewrite (mapM_total _ (fun f => tab natoms (scaled_by l c (f * k)%nat))).
  2:{ intros f Hf. apply in_seq in Hf. destruct (Hi f ltac:(lia)) as (i & Ei). cbn [f_cell f_pos]. rewrite Ei. cbn [bind]. rewrite py_stride_one. cbn [bind].
      f_equal. unfold tab. rewrite map_map. apply map_ext. intros b. unfold scaled_by, inverse_or_zero. now rewrite Ei. }
  cbn [bind]. fold (tab (kept n k) (fun f => tab natoms (scaled_by l c (f * k)%nat))).
  assert (M1 : map f_pos (tab (kept n k) (fun i => mkFrame types (tab natoms (scaled_by l c (i * k)%nat)) (l (i * k)%nat) vol)) = tab (kept n k) (fun f => tab natoms (scaled_by l c (f * k)%nat))).
  { unfold tab. now rewrite map_map. }
  rewrite M1. destruct (duplicate_first _) as [d1|]; [|reflexivity]. cbn [bind].
  assert (M2 : map f_cell (tab (kept n k) (fun i => mkFrame types (tab natoms (scaled_by l c (i * k)%nat)) (l (i * k)%nat) vol))
             = map f_cell (tab (kept n k) (fun i => mkFrame types (tab natoms (c (i * k)%nat)) (l (i * k)%nat) vol))).
  { unfold tab at 1 3. now rewrite !map_map. }
  rewrite M2. destruct (duplicate_first _) as [d2|]; [|reflexivity]. cbn [bind].
  destruct (kept n k) as [|m]; [reflexivity|]. rewrite !tab_S. cbn [f_types f_volume]. now rewrite py_stride_one.
Qed.
Lemma C65_mda_proof circ types types' vol n natoms k (c : nat -> nat -> V3 R) l s (a : Params R) sp p :
  (0 < k)%nat -> length types = natoms -> renumbering natoms s -> renumbered_types s types types' ->
  a_specie a = Some sp -> (forall fw, a_framework a <> PyList fw) -> a_sub_sample_traj a = Z.of_nat k -> a_sub_sample_atoms a = 1 ->
  mda_parser geomspace_R circ (frames_of types vol n natoms c l) a = Ok p ->
  exists p', mda_parser geomspace_R circ (frames_of types' vol n natoms (fun f i => c f (s i)) l) a = Ok p' /\ same_parse p p'.
Proof.
  intros Hk HN Rn Ty Hs Hf Ek Ea. unfold mda_parser. rewrite Ek, Ea. intros H. inv_bind H u Eu. rewrite ?Eu. cbn [bind]. inv_bind H r E.
  pose proof (read_mda_ok _ _ _ _ _ _ _ _ Hk E) as Hi. rewrite read_mda_eq in E by assumption. rewrite read_mda_eq by assumption.
  destruct r as [[st coords] latt].
  destruct (species_order _ _ _ _ _ _ _ _ _ _ _ _ _ _ _ _ _ Hk HN Rn Ty Hs Hf E H) as (coords' & latt' & p' & F & F' & SP).
  change (scaled_by l (fun f i => c f (s i))) with (fun f i => scaled_by l c f (s i)). rewrite F. cbn [bind]. eauto.
Qed.

(** ** Another order of specie_indices *)
Lemma complement_perm n l l' : Permutation l l' -> complement n l = complement n l'.
Proof.
  intros P. unfold complement. induction (map Z.of_nat (seq 0 n)) as [|i t IH]; [reflexivity|]. cbn [filter]. rewrite IH.
  replace (existsb (Z.eqb i) l') with (existsb (Z.eqb i) l); [reflexivity|].
  clear IH. induction P; cbn; try congruence. destruct (i =? x), (i =? y); reflexivity.
Qed.
Lemma framework_perm n l l' fw I D : Permutation l l' -> get_framework n l fw = Ok (I, D) -> I = l /\ get_framework n l' fw = Ok (l', D).
Proof.
  intros P. unfold get_framework. rewrite <- (complement_perm n _ _ P). destruct fw; [|destruct (complement n l); [|discriminate]|];
  intros H; injection H as <- <-; auto.
Qed.
Lemma selects_perm d I I' : Permutation I I' -> selects d d I I'.
Proof. intros P r H. eapply mapM_perm; eassumption. Qed.
Lemma selects_refl d I : selects d d I I.
Proof. apply selects_perm, Permutation_refl. Qed.
Lemma finish_indices circ st coords latt (a : Params R) ss l l' p : a_specie a = None -> a_specie_indices a = SIFlat l -> Permutation l l' ->
  finish_parse geomspace_R circ st coords latt a ss = Ok p ->
  exists p', finish_parse geomspace_R circ st coords latt (with_indices a l') ss = Ok p' /\ same_parse p p'.
Proof.
  intros Hs Hl P HP. destruct (finish_inv _ _ _ _ _ _ _ HP) as (c1 & I & D & disp & q & E1 & E2 & E3 & ->).
  unfold choose_atoms in E1. rewrite Hs, Hl in E1. destruct l as [|z l]; [discriminate|]. inv_bind E1 ix Ei. destruct ix as [I0 D0].
  injection E1 as <- <- <-. destruct (framework_perm _ _ _ _ _ _ P Ei) as [-> Ei'].
  destruct (parser_init_order _ disp disp _ _ _ _ _ _ _ _ eq_refl (selects_refl disp D0) (selects_perm disp _ _ P) (Permutation_length (Permutation_sym P)) E3) as (p' & E3' & SP).
  exists (set_volume p' (s_volume st)). split.
  - unfold finish_parse, choose_atoms. cbn [with_indices a_specie a_specie_indices a_framework a_time_step a_opts]. rewrite Hs.
    destruct l' as [|z' l']; [apply Permutation_length in P; discriminate|]. rewrite Ei'. cbn [bind fst snd]. rewrite E2. cbn [bind]. rewrite E3'. reflexivity.
  - destruct SP as (S1 & S2 & S3 & S4 & S5 & S6 & S7). repeat split; assumption.
Qed.
Lemma C65_indices_proof circ frames (a : Params R) l l' parse p : In parse [ase_parser; pymatgen_parser; mda_parser] ->
  a_specie a = None -> a_specie_indices a = SIFlat l -> Permutation l l' ->
  parse geomspace_R circ frames a = Ok p ->
  exists p', parse geomspace_R circ frames (with_indices a l') = Ok p' /\ same_parse p p'.
Proof.
  intros Hp Hs Hl P H. cbn [In] in Hp. destruct Hp as [<-|[<-|[<-|[]]]].
  - unfold ase_parser in *. cbn [with_indices a_sub_sample_traj a_step_skip]. inv_bind H r E. rewrite ?E. cbn [bind]. destruct r as [[st coords] latt].
    exact (finish_indices _ _ _ _ _ _ _ _ _ Hs Hl P H).
  - unfold pymatgen_parser in *. cbn [with_indices a_sub_sample_traj a_step_skip a_time_step]. inv_bind H r E. rewrite ?E. cbn [bind]. destruct r as [[st coords] latt].
    inv_bind H q Eq. destruct (finish_indices _ _ _ _ _ _ _ _ _ Hs Hl P Eq) as (p' & -> & SP). cbn [bind].
    destruct (a_time_step a); [discriminate|]. injection H as <-. eexists. split; [reflexivity|]. now apply same_parse_delta.
  - unfold mda_parser in *. rewrite Hl in H. cbn [with_indices a_sub_sample_traj a_step_skip a_sub_sample_atoms a_specie_indices]. inv_bind H u Eu. rewrite ?Eu. cbn [bind].
    inv_bind H r E. rewrite ?E. cbn [bind]. destruct r as [[st coords] latt].
    exact (finish_indices _ _ _ _ _ _ _ _ _ Hs Hl P H).
Qed.

(** ** Statistics *)
Section Stats.
  Context {G Seed RS : Type} (X : Ext R G Seed RS).
  Definition quantity_order (q q' : Arr R -> list (list (list R)) -> Res (list R)) (d d' : Arr R) : Prop :=
    forall ds ds' x, Permutation ds ds' -> q d ds = Ok x -> exists x', q' d' ds' = Ok x' /\ Permutation x x'.
  Lemma d_squared_perm (ds ds' : list (list (list R))) : Permutation ds ds' -> Permutation (d_squared ds) (d_squared ds').
  Proof. intros P. unfold d_squared. now apply concat_perm, Permutation_map. Qed.
  Lemma coll_perm o dims (ds ds' : list (list (list R))) : Permutation ds ds' -> coll_motion o dims ds = coll_motion o dims ds'.
  Proof.
    intros P. unfold coll_motion, sum_atoms. f_equal. apply map_ext. intros t. apply map_ext. intros k. now apply nsum_perm, Permutation_map.
  Qed.
  Lemma boot_step_order u q q' ns n_o i d d' b b1 g g1 D es : u_bootstrap u = false -> u_block u = false -> same_rows d d' -> quantity_order q q' d d' ->
    Forall2 (@Permutation R) (b_euclidian b) es ->
    boot_step X u q ns n_o i d b g = Ok (b1, g1) ->
    exists es1, boot_step X u q' ns n_o i d' (with_atoms b D es) g = Ok (with_atoms b1 D es1, g1) /\ Forall2 (@Permutation R) (b_euclidian b1) es1.
  Proof.
    intros Hb Hk [HO HP] HQ HE H. unfold boot_step in *. rewrite Hb, Hk in *. cbn [with_atoms b_slice b_v b_delta_t].
    inv_bind H ds E1. destruct (mapM_perm _ _ _ _ HP E1) as (ds' & E1' & P1). unfold disp_slice. rewrite E1'. cbn [bind].
    inv_bind H x E2. destruct (HQ _ _ _ P1 E2) as (x' & -> & P2). cbn [bind].
    rewrite <- (Permutation_length P2). destruct (length x <=? 1)%nat; [injection H as <- <-; exists es; auto|].
    cbn [bind] in *. inv_bind H nv E3. inv_bind E3 no E4. rewrite ?E4. cbn [bind].
    rewrite <- (nmean_perm _ _ P2), <- (nvar_perm _ _ P2), <- (Permutation_length HP).
    match type of E3 with Ok ?a = Ok ?b => assert (EE : b = a) by (revert E3; generalize a b; intros ? ? Z0; now injection Z0) end.
    subst nv. cbn [bind] in H. cbv beta iota in H. inv_bind H vi E5. inv_bind H dt E6. rewrite ?E5. cbn [bind]. rewrite ?E6. cbn [bind].
    rewrite <- (ngp_perm _ _ (d_squared_perm _ _ P1)).
    match type of H with Ok (?y, ?w) = Ok (?y', ?w') => assert (EB : y' = y /\ w' = w) by (revert H; generalize y w y' w'; intros ? ? ? ? Z0; now injection Z0) end.
    destruct EB as [-> ->]. exists (es ++ [map (x_sqrt X) (d_squared ds')])%list. split; [reflexivity|].
    cbn [push_results b_euclidian]. apply Forall2_app; [exact HE|]. repeat constructor. now apply Permutation_map, d_squared_perm.
  Qed.
  Lemma boot_loop_order u q q' ns n_o D : u_bootstrap u = false -> u_block u = false -> forall ds ds', Forall2 same_rows ds ds' ->
    (forall d d', In (d, d') (combine ds ds') -> quantity_order q q' d d') -> forall i b b1 g g1 es,
    Forall2 (@Permutation R) (b_euclidian b) es ->
    boot_loop X u q ns n_o i ds b g = Ok (b1, g1) ->
    exists es1, boot_loop X u q' ns n_o i ds' (with_atoms b D es) g = Ok (with_atoms b1 D es1, g1) /\ Forall2 (@Permutation R) (b_euclidian b1) es1.
  Proof.
    intros Hb Hk ds ds' F. induction F as [|d d' ds ds' Hd F IH]; intros HQ i b b1 g g1 es HE H; cbn [boot_loop] in *.
    - injection H as <- <-. eauto.
    - inv_bind H r E. destruct r as [b2 g2].
      destruct (boot_step_order _ _ q' _ _ _ _ d' _ _ _ _ D es Hb Hk Hd (HQ d d' (or_introl eq_refl)) HE E) as (es2 & -> & HE2). cbn [bind].
      eapply IH; [|exact HE2|exact H]. intros; apply HQ; now right.
  Qed.
  Lemma stride_Forall2 {S T} (P : S -> T -> Prop) k l l' r : Forall2 P l l' -> py_stride k l = Ok r -> exists r', py_stride k l' = Ok r' /\ Forall2 P r r'.
  Proof.
    intros F H. 
    assert (E : exists c, l = map fst c /\ l' = map snd c /\ Forall (fun x => P (fst x) (snd x)) c).
    { clear H. induction F as [|x y l l' Hxy F (c & -> & -> & Hc)]; [exists []; auto|]. exists ((x, y) :: c). cbn [map fst snd]. auto. }
    destruct E as (c & -> & -> & Hc). rewrite py_stride_map in H. rewrite py_stride_map. destruct (py_stride k c) as [rc|] eqn:Ec; [|discriminate H].
    injection H as <-. eexists. split; [reflexivity|].
    assert (Hr : Forall (fun x => P (fst x) (snd x)) rc).
    { apply Forall_forall. intros x Hx. rewrite Forall_forall in Hc. apply Hc. eapply py_stride_In; eassumption. }
    clear - Hr. induction Hr; constructor; auto.
  Qed.
  Lemma init_order dts disps disps' n_o k dim (b : Boot R) : Forall2 same_rows disps disps' -> bootstrap_init dts disps n_o k dim = Ok b ->
    exists ds, bootstrap_init dts disps' n_o k dim = Ok (with_atoms b ds []) /\ Forall2 same_rows (b_displacements b) ds /\ b_euclidian b = [].
  Proof.
    intros F H. unfold bootstrap_init in *. inv_bind H ds E1. destruct (stride_Forall2 _ _ _ _ _ F E1) as (ds' & -> & F'). cbn [bind].
    inv_bind H ts E2. rewrite ?E2. cbn [bind]. inv_bind H d0 E3. inv_bind H sl E4.
    destruct F' as [|d d' ds ds' [HO HP] F']; [discriminate|]. cbn in E3. injection E3 as <-.
    change (py_index (d' :: ds') 0) with (Ok d' : Res (Arr R)). cbn [bind]. rewrite ?E4. cbn [bind]. injection H as <-. rewrite HO.
    eexists. split; [reflexivity|]. split; [|reflexivity]. constructor; [split; assumption|exact F'].
  Qed.
  Lemma Forall2_firstn {S T} (P : S -> T -> Prop) m l l' : Forall2 P l l' -> Forall2 P (firstn m l) (firstn m l').
  Proof. intros F. revert m. induction F; intros [|m]; cbn; constructor; auto. Qed.
  Lemma in_combine_Forall2 {S T} (P : S -> T -> Prop) l l' x y : Forall2 P l l' -> In (x, y) (combine l l') -> P x y.
  Proof. induction 1 as [|a b l l' Hab F IH]; cbn; [contradiction|]. intros [Z|Z]; [now injection Z as <- <-|auto]. Qed.
  Lemma loop_displacements u q ns n_o : forall ds i b g b1 g1, boot_loop X u q ns n_o i ds b g = Ok (b1, g1) -> b_displacements b1 = b_displacements b.
  Proof.
    induction ds as [|d ds IH]; intros i b g b1 g1 H; cbn [boot_loop] in H; [now injection H as <- <-|].
    inv_bind H r E. destruct r as [b2 g2]. rewrite (IH _ _ _ _ _ H). clear IH H. unfold boot_step in E.
    inv_bind E x1 E1. inv_bind E x2 E2. destruct (_ <=? 1)%nat; [now injection E as <- <-|]. inv_bind E x3 E3. destruct x3 as [bt g3].
    inv_bind E x4 E4. destruct x4 as [nn vv]. inv_bind E x5 E5. inv_bind E x6 E6. injection E as <- <-. reflexivity.
  Qed.
  Lemma C65_msd_proof u dts disps disps' n_o g b g' : u_bootstrap u = false -> u_block u = false -> Forall2 same_rows disps disps' ->
    msd_bootstrap X u dts disps n_o g = Ok (b, g') -> exists b', msd_bootstrap X u dts disps' n_o g = Ok (b', g') /\ same_boot b b'.
  Proof.
    intros Hb Hk F H. unfold msd_bootstrap in *. inv_bind H b0 E0. destruct (init_order _ _ _ _ _ _ _ F E0) as (ds & -> & F' & EE). cbn [bind].
    inv_bind H r E. destruct r as [b1 g1]. injection H as <- <-. cbn [with_atoms b_displacements].
    destruct (boot_loop_order u (fun _ ds => Ok (d_squared ds)) (fun _ ds => Ok (d_squared ds)) _ _ ds Hb Hk _ _ F'
      ltac:(intros d d' _ x x' y P Ex; injection Ex as <-; eexists; split; [reflexivity|now apply d_squared_perm]) _ _ _ _ _ [] ltac:(rewrite EE; constructor) E) as (es1 & E1 & HE).
    rewrite E1. cbn [bind]. eexists. split; [reflexivity|]. exists ds, es1. split; [|split; [exact HE|reflexivity]].
    change (b_displacements (trim_n_o b1)) with (b_displacements b1). rewrite (loop_displacements _ _ _ _ _ _ _ _ _ _ E). exact F'.
  Qed.
  Lemma C65_mstd_proof u dts disps disps' n_o g b g' : u_bootstrap u = false -> u_block u = false -> Forall2 same_rows disps disps' ->
    mstd_bootstrap X u dts disps n_o g = Ok (b, g') -> exists b', mstd_bootstrap X u dts disps' n_o g = Ok (b', g') /\ same_boot b b'.
  Proof.
    intros Hb Hk F H. unfold mstd_bootstrap in *. inv_bind H b0 E0. destruct (init_order _ _ _ _ _ _ _ F E0) as (ds & -> & F' & EE). cbn [bind].
    inv_bind H r E. destruct r as [b1 g1]. injection H as <- <-. cbn [with_atoms b_displacements b_dims].
    unfold first_half in *. rewrite <- (Forall2_length _ _ _ F').
    set (qq := fun (d : Arr R) (ds : list (list (list R))) => Ok (coll_motion (a_obs d) (b_dims b0) ds)) in *.
    assert (Q : forall d d', In (d, d') (combine (firstn (length (b_displacements b0) / 2) (b_displacements b0)) (firstn (length (b_displacements b0) / 2) ds)) -> quantity_order qq qq d d').
    { intros d d' Hin x x' y P Ex. injection Ex as <-. eexists. split; [reflexivity|].
      rewrite (coll_perm _ _ _ _ P). apply in_combine_Forall2 with (1 := Forall2_firstn _ _ _ _ F') in Hin. destruct Hin as [-> _]. apply Permutation_refl. }
    destruct (boot_loop_order u qq qq _ _ ds Hb Hk _ _ (Forall2_firstn _ _ _ _ F') Q _ _ _ _ _ [] ltac:(rewrite EE; constructor) E) as (es1 & E1 & HE).
    - rewrite E1. cbn [bind]. eexists. split; [reflexivity|]. exists ds, es1. split; [|split; [exact HE|reflexivity]].
      change (b_displacements (trim_n_o b1)) with (b_displacements b1). rewrite (loop_displacements _ _ _ _ _ _ _ _ _ _ E). exact F'.
  Qed.
  Lemma combine_repeat {T} (c : R) (l : list T) : combine (repeat c (length l)) l = map (fun x => (c, x)) l.
  Proof. induction l as [|x l IH]; cbn; [reflexivity|]. now rewrite IH. Qed.
  (** The charges, one per atom, go with the rows. *)
  Definition paired (qs qs' : list R) (d d' : Arr R) : Prop :=
    length qs = length (a_rows d) /\ length qs' = length (a_rows d') /\ Permutation (combine qs (a_rows d)) (combine qs' (a_rows d')).
  Lemma chg_order qs qs' d d' : a_obs d' = a_obs d -> paired qs qs' d d' -> sq_chg_motion qs' d' = sq_chg_motion qs d.
  Proof.
    intros HO (L & L' & P). unfold sq_chg_motion, broadcast2. rewrite L, L', !Nat.eqb_refl. cbn [bind]. rewrite HO. f_equal.
    apply coll_perm. unfold zip_with. now apply Permutation_map, Permutation_sym.
  Qed.
  Lemma C65_mscd_proof u dts disps disps' q q' n_o g b g' : u_bootstrap u = false -> u_block u = false -> Forall2 same_rows disps disps' ->
    (forall d0 d, In d0 disps -> In d disps -> length (a_rows d) = length (a_rows d0)) ->
    Forall2 (same_charges q q') disps disps' ->
    mscd_bootstrap X u dts disps q n_o g = Ok (b, g') -> exists b', mscd_bootstrap X u dts disps' q' n_o g = Ok (b', g') /\ same_boot b b'.
  Proof.
    intros Hb Hk F0 HL FQ H.
    assert (F1 : Forall2 (fun d d' => (same_rows d d' /\ same_charges q q' d d') /\ In d disps) disps disps').
    { clear H HL. assert (A : forall l0, incl disps l0 -> Forall2 (fun d d' => (same_rows d d' /\ same_charges q q' d d') /\ In d l0) disps disps'); [|apply (A disps (incl_refl _))].
      intros l0 Hl. revert FQ. induction F0 as [|x y l l' Hxy F IH]; intros FQ; constructor; inversion FQ; subst; [split; [auto|apply Hl; now left]|].
      apply IH; [|assumption]. intros z Hz. apply Hl. now right. }
    unfold mscd_bootstrap in *. inv_bind H b0 E0. destruct (init_order _ _ _ _ _ _ _ F0 E0) as (ds & E0' & F' & EE). rewrite E0'. cbn [bind].
    assert (F2 : Forall2 (fun d d' => (same_rows d d' /\ same_charges q q' d d') /\ In d disps) (b_displacements b0) ds).
    { unfold bootstrap_init in E0, E0'. inv_bind E0 s1 Y1. destruct (stride_Forall2 _ _ _ _ _ F1 Y1) as (s1' & Y1' & Z1).
      rewrite Y1' in E0'. cbn [bind] in E0'. inv_bind E0 s2 Y2. rewrite ?Y2 in E0'. cbn [bind] in E0'. inv_bind E0 s3 Y3. inv_bind E0' s3' Y3'.
      inv_bind E0 s4 Y4. inv_bind E0' s4' Y4'. injection E0 as <-. cbn [b_displacements]. now injection E0' as <- _. }
    inv_bind H d0 E1. inv_bind H r E. destruct r as [b1 g1]. injection H as <- <-. cbn [with_atoms b_displacements b_dims].
    destruct (b_displacements b0) as [|d1 dr] eqn:Eb; [discriminate E1|]. cbn in E1. injection E1 as <-.
    destruct ds as [|d1' dr']; [inversion F2|]. change (py_index (d1' :: dr') 0) with (Ok d1' : Res (Arr R)). cbn [bind].
    set (qs := charge_array q (length (a_rows d1))) in *. set (qs' := charge_array q' (length (a_rows d1'))).
    assert (HP : forall d d', (same_rows d d' /\ same_charges q q' d d') /\ In d disps -> paired qs qs' d d').
    { intros d d' [[[HO HP] HC] Hin].
      assert (Hin1 : In d1 disps) by (inversion F2; subst; tauto).
      assert (L1 : length (a_rows d1') = length (a_rows d1)).
      { inversion F2 as [|? ? ? ? [[[_ P1] _] _]]; subst. now rewrite (Permutation_length P1). }
      unfold paired, qs, qs', charge_array. unfold same_charges in HC. destruct q as [c|l], q' as [c'|l']; try contradiction.
      - subst c'. rewrite !repeat_length, L1, <- (HL _ _ Hin1 Hin), <- (Permutation_length HP). split; [reflexivity|]. split; [reflexivity|].
        rewrite combine_repeat, (Permutation_length HP), combine_repeat. now apply Permutation_map.
      - exact HC. }
    unfold first_half in *. rewrite <- (Forall2_length _ _ _ F').
    set (m := (length (d1 :: dr) / 2)%nat) in *.
    assert (Q : forall d d', In (d, d') (combine (firstn m (d1 :: dr)) (firstn m (d1' :: dr'))) -> quantity_order (fun d _ => sq_chg_motion qs d) (fun d _ => sq_chg_motion qs' d) d d').
    { intros d d' Hin x x' y P Ex. apply in_combine_Forall2 with (1 := Forall2_firstn _ _ _ _ F2) in Hin.
      rewrite (chg_order qs qs' d d' (proj1 (proj1 (proj1 Hin))) (HP _ _ Hin)). eexists. split; [exact Ex|]. apply Permutation_refl. }
    destruct (boot_loop_order u _ _ _ _ (d1' :: dr') Hb Hk _ _ (Forall2_firstn _ _ _ _ F') Q _ _ _ _ _ [] ltac:(rewrite EE; constructor) E) as (es1 & E3 & HE).
    - rewrite E3. cbn [bind]. eexists. split; [reflexivity|]. exists (d1' :: dr'), es1. split; [|split; [exact HE|reflexivity]].
      change (b_displacements (trim_n_o b1)) with (b_displacements b1). rewrite (loop_displacements _ _ _ _ _ _ _ _ _ _ E), Eb. exact F'.
  Qed.
End Stats.

Section Analysers.
  Context {G Seed RS : Type} (X : Ext R G Seed RS).
  Lemma C65_diffusion_proof d d' u g a g' : u_bootstrap u = false -> u_block u = false -> same_data d d' ->
    diffusion_analyzer X d u g = Ok (a, g') -> exists a', diffusion_analyzer X d' u g = Ok (a', g') /\ same_analyzer a a'.
  Proof.
    intros Hb Hk Hd H. assert (Hd' := Hd). destruct Hd as (F & E1 & E2 & E3). unfold diffusion_analyzer in *. inv_bind H r E. destruct r as [b g1]. injection H as <- <-.
    destruct (C65_msd_proof X _ _ _ _ _ _ _ _ Hb Hk F E) as (b' & E' & S). rewrite E1, E2, E'. cbn [bind]. eexists. split; [reflexivity|]. split; assumption.
  Qed.
  Lemma C65_jump_proof d d' u g a g' : u_bootstrap u = false -> u_block u = false -> same_data d d' ->
    jump_diffusion_analyzer X d u g = Ok (a, g') -> exists a', jump_diffusion_analyzer X d' u g = Ok (a', g') /\ same_analyzer a a'.
  Proof.
    intros Hb Hk Hd H. assert (Hd' := Hd). destruct Hd as (F & E1 & E2 & E3). unfold jump_diffusion_analyzer in *. inv_bind H r E. destruct r as [b g1]. injection H as <- <-.
    destruct (C65_mstd_proof X _ _ _ _ _ _ _ _ Hb Hk F E) as (b' & E' & S). rewrite E1, E2, E'. cbn [bind]. eexists. split; [reflexivity|]. split; assumption.
  Qed.
  Lemma C65_conductivity_proof d d' q q' u g a g' : u_bootstrap u = false -> u_block u = false -> same_data d d' ->
    one_number_of_atoms (an_disp_3d d) -> Forall2 (same_charges q q') (an_disp_3d d) (an_disp_3d d') ->
    conductivity_analyzer X d q u g = Ok (a, g') -> exists a', conductivity_analyzer X d' q' u g = Ok (a', g') /\ same_analyzer a a'.
  Proof.
    intros Hb Hk Hd (m & HM) HC H. assert (Hd' := Hd). destruct Hd as (F & E1 & E2 & E3). unfold conductivity_analyzer in *. inv_bind H r E. destruct r as [b g1]. injection H as <- <-.
    assert (HL : forall x y, In x (an_disp_3d d) -> In y (an_disp_3d d) -> length (a_rows y) = length (a_rows x)).
    { intros x y Hx Hy. rewrite Forall_forall in HM. now rewrite (HM x Hx), (HM y Hy). }
    destruct (C65_mscd_proof X _ _ _ _ q q' _ _ _ _ Hb Hk F HL HC E) as (b' & E' & S). rewrite E1, E2, E'. cbn [bind]. eexists. split; [reflexivity|]. split; assumption.
  Qed.
  (** Fits look at the displacements only for the number of atoms. *)
  Lemma gls_atoms b ds es (p : GLSParams R RS) g : bootstrap_GLS X (with_atoms b ds es) p g
    = let r := bootstrap_GLS X b p g in (with_atoms (fst (fst r)) ds es, snd (fst r), snd r).
  Proof.
    unfold bootstrap_GLS. set (g0 := match l_random_state p with Some _ => _ | None => _ end).
    change (b_dt (set_settings (with_atoms b ds es) p)) with (b_dt b). change (b_dt (set_settings b p)) with (b_dt b).
    destruct (find_regime (l_start_dt p) 0 (b_dt b)) as [dr|e]; [|reflexivity].
    change (generate_covariance_matrix X (set_settings (with_atoms b ds es) p) p dr)
      with (generate_covariance_matrix X (set_settings b p) p dr).
    destruct (generate_covariance_matrix X (set_settings b p) p dr) as [[raw|] [cov|e]]; try reflexivity.
    change (sample_gls X (set_covariance (set_settings (with_atoms b ds es) p) cov) p dr cov g0)
      with (sample_gls X (set_covariance (set_settings b p) cov) p dr cov g0).
    destruct (sample_gls X (set_covariance (set_settings b p) cov) p dr cov g0) as [g' [chain|e]]; [|reflexivity].
    destruct (column 0 chain) as [gr|e]; [|reflexivity].
    destruct (l_fit_intercept p); [|reflexivity]. destruct (column 1 chain); reflexivity.
  Qed.
  Lemma gls_keeps b (p : GLSParams R RS) g : b_displacements (fst (fst (bootstrap_GLS X b p g))) = b_displacements b
    /\ b_euclidian (fst (fst (bootstrap_GLS X b p g))) = b_euclidian b.
  Proof.
    unfold bootstrap_GLS. destruct (find_regime _ _ _) as [dr|e]; [|auto].
    destruct (generate_covariance_matrix _ _ _ _) as [[raw|] [cov|e]]; try (split; reflexivity).
    all: destruct (sample_gls _ _ _ _ _ _) as [g' [chain|e]]; [|split; reflexivity].
    all: destruct (column 0 chain) as [gr|e]; [|split; reflexivity].
    all: destruct (l_fit_intercept p); [|split; reflexivity]; destruct (column 1 chain); split; reflexivity.
  Qed.
  Lemma C65_fits_proof b b' g (c : call (RS := RS)) : same_boot b b' -> same_run (run_call X b g c) (run_call X b' g c).
  Proof.
    intros (ds & es & F & FE & ->).
    assert (K : forall p, let r := bootstrap_GLS X b p g in Forall2 same_rows (b_displacements (fst (fst r))) ds /\ Forall2 (@Permutation R) (b_euclidian (fst (fst r))) es).
    { intros p. cbv zeta. destruct (gls_keeps b p g) as [-> ->]. auto. }
    destruct c as [p|p|k p t vol]; cbn [run_call]; specialize (K p); cbv zeta in K.
    - unfold diffusion. rewrite gls_atoms. cbv zeta. destruct (bootstrap_GLS X b p g) as [[b1 g1] [[]|e]]; cbn [fst snd] in *; [|split; [exists ds, es; tauto|auto]].
      cbn [with_atoms b_gradient]. destruct (samples_of (b_gradient b1)); (split; [exists ds, es; cbn; tauto|auto]).
    - unfold jump_diffusion. rewrite gls_atoms. cbv zeta. destruct (bootstrap_GLS X b p g) as [[b1 g1] [[]|e]]; cbn [fst snd] in *; [|split; [exists ds, es; tauto|auto]].
      cbn [with_atoms b_gradient b_displacements]. destruct (samples_of (b_gradient b1)); [|split; [exists ds, es; cbn; tauto|auto]].
      destruct K as [K KE]. destruct (b_displacements b1) as [|d0 dr] eqn:Eb; inversion K as [|? d0' ? dr' [HO P] F2]; subst ds.
      { change (@py_index (Arr R) [] 0) with (Raise IndexError : Res (Arr R)). split; [|auto]. cbn [fst]. exists [], es. rewrite Eb. auto. }
      change (py_index (d0 :: dr) 0) with (Ok d0 : Res (Arr R)). change (py_index (d0' :: dr') 0) with (Ok d0' : Res (Arr R)).
      cbv iota. rewrite <- (Permutation_length P). split; [|auto]. cbn [fst]. exists (d0' :: dr'), es. cbn [set_DJ b_displacements b_euclidian]. rewrite Eb. auto.
    - unfold conductivity. rewrite gls_atoms. cbv zeta. destruct (bootstrap_GLS X b p g) as [[b1 g1] [[]|e]]; cbn [fst snd] in *; [|split; [exists ds, es; tauto|auto]].
      cbn [with_atoms b_gradient]. destruct (samples_of (b_gradient b1)); (split; [exists ds, es; cbn; tauto|auto]).
  Qed.
End Analysers.

(** ** With resampling *)
Section Bootstrap.
  Context {G Seed RS : Type} (X : Ext R G Seed RS).
  Lemma with_off (u : BootParams R) : u_bootstrap u = false -> with_bootstrap u false = u.
  Proof. destruct u; cbn. now intros ->. Qed.
  Lemma with_on (u : BootParams R) : u_bootstrap u = true -> with_bootstrap u true = u.
  Proof. destruct u; cbn. now intros ->. Qed.
  Lemma C65_bootstrap_proof u dts disps disps' n_o g b g1 h b' h1 : u_block u = false -> Forall2 same_rows disps disps' ->
    msd_bootstrap X (with_bootstrap u true) dts disps n_o g = Ok (b, g1) ->
    msd_bootstrap X (with_bootstrap u true) dts disps' n_o h = Ok (b', h1) ->
    same_boot (forget_boot b) (forget_boot b').
  Proof.
    intros Hk F H H'. pose proof (C62_msd_proof X _ _ _ _ _ _ _ g H) as E. pose proof (C62_msd_proof X _ _ _ _ _ _ _ g H') as E'.
    destruct (C65_msd_proof X (with_bootstrap u false) _ _ _ _ _ _ _ eq_refl Hk F E) as (b2 & E2 & S). rewrite E2 in E'.
    assert (Q : b2 = forget_boot b') by congruence. now rewrite <- Q.
  Qed.
End Bootstrap.

(** ** C64: a motion common to all atoms *)
Lemma gather_valid {T} (l : list T) idx r : gather l idx = Ok r -> Forall (valid_site (length l)) idx.
Proof.
  intros H. apply mapM_ok in H. induction H as [|i x idx r Hi _ IH]; constructor; [|exact IH]. unfold py_index in Hi.
  destruct (_ && _) eqn:E; [|discriminate]. apply andb_true_iff in E as [E1 E2]. apply Z.leb_le in E1. apply Z.ltb_lt in E2.
  unfold valid_site. destruct (i <? 0) eqn:E3; [apply Z.ltb_lt in E3|apply Z.ltb_ge in E3]; lia.
Qed.
Lemma drift_invariant cell types vol n natoms k (x : nat -> nat -> V3 R) (u : nat -> V3 R) (img img' : nat -> nat -> V3 Z) circ (a : Params R) ss st coords latt p :
  cell_volume cell <> 0%R -> (0 < k)%nat -> small_steps n natoms k x -> small_steps n natoms k (fun f i => plus3 (x f i) (u f)) -> atomic_selection a ->
  get_structure_coords_latt (frames_of types vol n natoms (fun f i => plus3 (x f i) (ivec (img f i))) (fun _ => cell)) (Z.of_nat k) = Ok (st, coords, latt) ->
  finish_parse geomspace_R circ st coords latt a ss = Ok p -> p_drift_indices p <> [] ->
  exists coords' latt', get_structure_coords_latt (frames_of types vol n natoms (fun f i => plus3 (plus3 (x f i) (u f)) (ivec (img' f i))) (fun _ => cell)) (Z.of_nat k)
     = Ok (st, coords', latt') /\ finish_parse geomspace_R circ st coords' latt' a ss = Ok p.
Proof.
  intros Hc Hk S1 S2 Ha HR HP Hd.
  destruct (read_displacements _ _ _ _ _ _ _ _ _ _ _ Hc Hk S1 HR) as [-> D1].
  destruct (read_any _ types _ _ _ _ (fun f i => plus3 (plus3 (x f i) (u f)) (ivec (img' f i))) _ _ _ _ _ Hk HR) as (coords' & latt' & HR').
  destruct (read_displacements cell types vol n natoms k (fun f i => plus3 (x f i) (u f)) img' _ _ _ Hc Hk S2 HR') as [_ D2].
  exists coords', latt'. split; [exact HR'|].
  destruct (finish_inv _ _ _ _ _ _ _ HP) as (c1 & I & D & disp & q & E1 & E2 & E3 & ->).
  pose proof (choose_atomic _ _ _ _ _ Ha E1) as Ec. cbn [fst] in Ec. subst c1. rewrite D1 in E2. injection E2 as <-.
  destruct (parser_init_sel _ _ _ _ _ _ _ _ E3) as [_ ED]. cbn [set_volume p_drift_indices] in Hd. rewrite ED in Hd.
  unfold finish_parse.
  assert (E1' : choose_atoms circ (mkStructure types vol) coords' a = Ok (coords', (I, D))).
  { unfold choose_atoms in *. destruct (a_specie a) as [sp|] eqn:Es.
    - inv_bind E1 ix Ei. rewrite ?Ei. cbn [bind]. now injection E1 as ->.
    - destruct Ha as [Ha|(l & Ha)]; [congruence|]. rewrite Ha in *. destruct l as [|z l]; [discriminate|]. inv_bind E1 ix Ei. rewrite ?Ei. cbn [bind]. now injection E1 as ->. }
  rewrite E1'. cbn [bind fst snd]. rewrite D2. cbn [bind].
  assert (EQ : forall ts ss o, parser_init geomspace_R (table natoms (kept n k) (fun a0 t => minus3 (cart cell (plus3 (x (t * k)%nat a0) (u (t * k)%nat))) (cart cell (plus3 (x 0%nat a0) (u 0%nat))))) I D ts ss o
     = parser_init geomspace_R (table natoms (kept n k) (fun a0 t => minus3 (cart cell (x (t * k)%nat a0)) (cart cell (x 0%nat a0)))) I D ts ss o).
  { intros ts ss' o. unfold parser_init.
    assert (V : Forall (valid_site natoms) D).
    { clear - E3 Hd. unfold parser_init in E3. inv_bind E3 dc E. unfold correct_drift in E. destruct D as [|i D]; [contradiction|].
      inv_bind E fw Ef. apply gather_valid in Ef. cbn [table a_rows] in Ef. now rewrite tab_length in Ef. }
    replace (correct_drift D (table natoms (kept n k) (fun a0 t => minus3 (cart cell (plus3 (x (t * k)%nat a0) (u (t * k)%nat))) (cart cell (plus3 (x 0%nat a0) (u 0%nat))))))
      with (correct_drift D (table natoms (kept n k) (fun a0 t => minus3 (cart cell (x (t * k)%nat a0)) (cart cell (x 0%nat a0))))); [reflexivity|].
    rewrite <- (C05_uniform_drift_proof natoms (kept n k) (fun a0 t => minus3 (cart cell (x (t * k)%nat a0)) (cart cell (x 0%nat a0))) D
                  (fun t => minus3 (cart cell (u (t * k)%nat)) (cart cell (u 0%nat))) Hd V).
    f_equal. apply table_ext. intros b t _ _. rewrite !cart_plus. v3eq. }
  rewrite EQ, E3. reflexivity.
Qed.
Section Drift.
  Context (circ : option (list R) -> list R -> Res R) (cell : M3 R) (types : list string) (vol : R) (n natoms k : nat) (x : nat -> nat -> V3 R) (u : nat -> V3 R) (img img' : nat -> nat -> V3 Z) (a : Params R).
  Hypothesis Hc : cell_volume cell <> 0%R.
  Hypothesis Hk : (0 < k)%nat.
  Hypothesis S1 : small_steps n natoms k x.
  Hypothesis S2 : small_steps n natoms k (fun f i => plus3 (x f i) (u f)).
  Hypothesis Ha : atomic_selection a.
  Hypothesis Ek : a_sub_sample_traj a = Z.of_nat k.
  Notation still := (frames_of types vol n natoms (fun f i => plus3 (x f i) (ivec (img f i))) (fun _ => cell)).
  Notation moving := (frames_of types vol n natoms (fun f i => plus3 (plus3 (x f i) (u f)) (ivec (img' f i))) (fun _ => cell)).
  Lemma C64_ase_proof p : ase_parser geomspace_R circ still a = Ok p -> p_drift_indices p <> [] -> ase_parser geomspace_R circ moving a = Ok p.
  Proof.
    unfold ase_parser. rewrite Ek. intros H Hd. inv_bind H r E. destruct r as [[st coords] latt].
    destruct (drift_invariant _ _ _ _ _ _ _ _ _ img' _ _ _ _ _ _ _ Hc Hk S1 S2 Ha E H Hd) as (coords' & latt' & -> & F). exact F.
  Qed.
  Lemma C64_pymatgen_proof p : pymatgen_parser geomspace_R circ still a = Ok p -> p_drift_indices p <> [] -> pymatgen_parser geomspace_R circ moving a = Ok p.
  Proof.
    unfold pymatgen_parser. rewrite Ek. intros H Hd. inv_bind H r E. destruct r as [[st coords] latt]. inv_bind H q Eq.
    assert (Hd' : p_drift_indices q <> []) by (destruct (a_time_step a); [discriminate|]; injection H as <-; exact Hd).
    destruct (drift_invariant _ _ _ _ _ _ _ _ _ img' _ _ _ _ _ _ _ Hc Hk S1 S2 Ha E Eq Hd') as (coords' & latt' & -> & F). cbn [bind]. rewrite F. exact H.
  Qed.
End Drift.
Lemma scaled_cart cell (c : nat -> nat -> V3 R) f a : cell_volume cell <> 0%R -> scaled_by (fun _ => cell) (fun f a => cart cell (c f a)) f a = c f a.
Proof.
  intros Hc. destruct (minv_ok cell Hc) as (i & E & _). unfold scaled_by, inverse_or_zero. rewrite E. destruct (minv_inv _ _ E) as (_ & H1 & _).
  rewrite vecmat_cart. apply H1.
Qed.
Lemma C64_mda_proof circ cell types vol n natoms k (x : nat -> nat -> V3 R) (u : nat -> V3 R) (img img' : nat -> nat -> V3 Z) (a : Params R) :
  cell_volume cell <> 0%R -> (0 < k)%nat -> small_steps n natoms k x -> small_steps n natoms k (fun f i => plus3 (x f i) (u f)) ->
  atomic_selection a -> a_sub_sample_traj a = Z.of_nat k -> a_sub_sample_atoms a = 1 ->
  forall p, mda_parser geomspace_R circ (frames_of types vol n natoms (fun f i => cart cell (plus3 (x f i) (ivec (img f i)))) (fun _ => cell)) a = Ok p ->
  p_drift_indices p <> [] ->
  mda_parser geomspace_R circ (frames_of types vol n natoms (fun f i => cart cell (plus3 (plus3 (x f i) (u f)) (ivec (img' f i)))) (fun _ => cell)) a = Ok p.
Proof.
  intros Hc Hk S1 S2 Ha Ek Ea p H Hd. unfold mda_parser in *. rewrite Ek, Ea in *.
  inv_bind H w Ew. rewrite ?Ew. cbn [bind]. inv_bind H r E.
  assert (Hi : forall f, (f < kept n k)%nat -> exists i, minv cell = Ok i) by (intros; destruct (minv_ok cell Hc) as (i & Ei & _); eauto).
  rewrite (read_mda_eq _ _ _ _ _ _ (fun _ => cell)) in E by assumption. rewrite (read_mda_eq _ _ _ _ _ _ (fun _ => cell)) by assumption.
  rewrite (frames_of_ext _ _ _ _ _ (fun f i => plus3 (x f i) (ivec (img f i)))) in E by (intros; now apply (scaled_cart cell (fun f i => plus3 (x f i) (ivec (img f i))))).
  rewrite (frames_of_ext _ _ _ _ _ (fun f i => plus3 (plus3 (x f i) (u f)) (ivec (img' f i)))) by (intros; now apply (scaled_cart cell (fun f i => plus3 (plus3 (x f i) (u f)) (ivec (img' f i))))).
  destruct r as [[st coords] latt].
  destruct (drift_invariant _ _ _ _ _ _ _ _ _ img' _ _ _ _ _ _ _ Hc Hk S1 S2 Ha E H Hd) as (coords' & latt' & -> & F). exact F.
Qed.
(** Each atom also takes part in a motion along x that goes back and forth. *)
Definition swaying (f : nat) : V3 R := mkV (if Nat.even f then 0 else 3 / 10)%R 0%R 0%R.
Lemma sway_small : small_steps 3 2 1 (fun f i => plus3 (hop f i) (swaying f)).
Proof.
  intros f i Hf Hi. rewrite !Nat.mul_1_r in *. unfold within_half, hop, swaying. rewrite Nat.even_succ, <- Nat.negb_even.
  destruct i; cbn [vx vy vz minus3 plus3 zero3]; rewrite ?S_INR; destruct (Nat.even f); cbn [negb]; lra.
Qed.
Lemma C64_example_proof circ : small_steps 3 2 1 hop /\ small_steps 3 2 1 (fun f i => plus3 (hop f i) (swaying f))
  /\ let a := hop_params 1 (PyFloat 1%R) (mkOptions (Some 1) (Some 3) 100 "linear" "multi-origin" 8 8)%R in
     exists p, ase_parser geomspace_R circ (hop_frames 3) a = Ok p /\ p_drift_indices p = [1]
       /\ ase_parser geomspace_R circ (frames_of ["Li"; "O"]%string 1%R 3 2 (fun f i => plus3 (hop f i) (swaying f)) (fun _ => unit_cell)) a = Ok p.
Proof.
  split; [apply hop_small; lia|]. split; [exact sway_small|]. intros a. destruct (C07_refuted_proof circ) as (p & arr & H & _ & Hd & _). exists p. split; [exact H|]. split; [exact Hd|].
  unfold hop_frames in H.
  rewrite <- (frames_of_ext _ _ _ _ _ _ _ (no_image_id (fun f i => hop f i))) in H.
  rewrite <- (frames_of_ext _ _ _ _ _ _ _ (no_image_id (fun f i => plus3 (hop f i) (swaying f)))).
  eapply (C64_ase_proof circ unit_cell _ _ 3 2 1 hop swaying no_image no_image a); [exact unit_cell_volume|lia|apply hop_small; lia|exact sway_small|left; discriminate|reflexivity|exact H|].
  rewrite Hd. discriminate.
Qed.
(** The two atoms of [hop] in the other order. *)
Definition swap (a : nat) : nat := (1 - a)%nat.
Lemma C65_example_proof circ : renumbering 2 swap /\ renumbered_types swap ["Li"; "O"]%string ["O"; "Li"]%string
  /\ let a := hop_params 1 (PyFloat 1%R) (mkOptions (Some 1) (Some 3) 100 "linear" "multi-origin" 8 8)%R in
     exists p p', ase_parser geomspace_R circ (hop_frames 3) a = Ok p /\ p_indices p = [0]
       /\ ase_parser geomspace_R circ (frames_of ["O"; "Li"]%string 1%R 3 2 (fun f i => hop f (swap i)) (fun _ => unit_cell)) a = Ok p'
       /\ p_indices p' = [1] /\ same_parse p p'.
Proof.
  assert (R1 : renumbering 2 swap) by (unfold swap; split; intros; lia).
  assert (R2 : renumbered_types swap ["Li"; "O"]%string ["O"; "Li"]%string).
  { split; [reflexivity|]. intros [|[|b]] Hb; [reflexivity|reflexivity|cbn in Hb; lia]. }
  split; [exact R1|]. split; [exact R2|]. intros a. destruct (C07_refuted_proof circ) as (p & arr & H & Hi & _).
  destruct (C65_ase_proof circ ["Li"; "O"]%string ["O"; "Li"]%string 1%R 3 2 1 hop (fun _ => unit_cell) swap a ["Li"%string] ltac:(lia) eq_refl R1 R2 eq_refl ltac:(discriminate) eq_refl p H) as (p' & H' & S).
  exists p, p'. split; [exact H|]. split; [exact Hi|]. split; [exact H'|]. split; [|exact S].
  unfold ase_parser in H'. inv_bind H' r E. destruct r as [[st coords] latt].
  pose proof (read_state _ _ _ _ _ _ 1 _ _ _ ltac:(lia) E) as ->. destruct (finish_sel _ _ _ _ _ _ _ H') as (c' & Es). cbn in Es. now injection Es as _ <- _.
Qed.

(** ** C66: the triclinic warning *)
Lemma off_diagonal_spec (m : M3 R) : off_diagonal_nonzero m = true <-> ~ orthorhombic m.
Proof.
  unfold off_diagonal_nonzero, orthorhombic.
  assert (A : forall x : R, neqb x n0 = true <-> x = 0%R) by (intros; rewrite neqb_R_true; reflexivity).
  rewrite negb_true_iff, <- not_true_iff_false, !andb_true_iff, !A. tauto.
Qed.
Lemma warns_read {T} (frames : list T) (cell : T -> M3 R) k sub latt : 0 < k -> py_stride k frames = Ok sub -> duplicate_first (map cell sub) = Ok latt ->
  (get_disp_warns latt = true <-> exists i f, nth_error frames (i * Z.to_nat k) = Some f /\ ~ orthorhombic (cell f)).
Proof.
  intros Hk E1 E2. pose proof (stride_sub _ _ _ Hk E1) as SS. unfold get_disp_warns. rewrite existsb_exists.
  destruct sub as [|f0 sub]; [discriminate|]. cbn in E2. injection E2 as <-. split.
  - intros (m & Hin & Hm). apply off_diagonal_spec in Hm.
    assert (Hin' : In m (map cell (f0 :: sub))) by (destruct Hin as [<-|Hin]; [now left|exact Hin]).
    apply in_map_iff in Hin' as (f & <- & Hf). apply In_nth_error in Hf as (i & Hi). exists i, f. rewrite <- (SS i). auto.
  - intros (i & f & Hi & Hf). rewrite <- (SS i) in Hi. exists (cell f). split; [|now apply off_diagonal_spec].
    right. apply (in_map cell (f0 :: sub)). eapply nth_error_In; exact Hi.
Qed.
Lemma C66_proof frames k st coords latt : 0 < k -> get_structure_coords_latt (A := R) frames k = Ok (st, coords, latt) ->
  (get_disp_warns latt = true <-> exists i f, nth_error frames (i * Z.to_nat k) = Some f /\ ~ orthorhombic (f_cell f)).
Proof.
  intros Hk H. unfold get_structure_coords_latt in H. inv_bind H sub E1. inv_bind H c E2. inv_bind H l E3.
  destruct sub as [|f0 sub'] eqn:Es; [discriminate|]. injection H as _ _ <-. rewrite <- Es in *. eapply warns_read; eassumption.
Qed.
Lemma C66_mda_proof frames ka k st coords latt : 0 < k -> get_structure_coords_latt_mda (A := R) frames ka k = Ok (st, coords, latt) ->
  (get_disp_warns latt = true <-> exists i f, nth_error frames (i * Z.to_nat k) = Some f /\ ~ orthorhombic (f_cell f)).
Proof.
  intros Hk H. unfold get_structure_coords_latt_mda in H. inv_bind H sub E1. inv_bind H sc E0. inv_bind H c E2. inv_bind H l E3.
  destruct sub as [|f0 sub'] eqn:Es; [discriminate|]. inv_bind H ty E4. injection H as _ _ <-. rewrite <- Es in *. eapply warns_read; eassumption.
Qed.
Lemma C66_example_proof : orthorhombic unit_cell /\ ~ orthorhombic (mkM (mkV 1 0 0) (mkV (1/2) 1 0) (mkV 0 0 1))%R.
Proof. split; unfold orthorhombic, unit_cell; cbn; lra. Qed.
