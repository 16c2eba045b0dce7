(** * ProofsMolList: one set of molecules written down in different ways (C94) *)
From Verif Require Import Base ModelParser ModelDiffusion ModelHdf ModelAnalyzer Spec SpecParser SpecStats SpecFit SpecAnalyzer SpecMol SpecRun SpecSym SpecOrder
  Lemmas ProofsDisp ProofsIntervals ProofsWindows ProofsParser ProofsTraj ProofsFit ProofsAnalyzer ProofsMol ProofsMolTraj ProofsOrder SpecMolList.
From Coq Require Import Reals Lra Lia Permutation.
Open Scope Z_scope.

(** ** The three parsers at once *)
Lemma stride_In {T} k (l l' : list T) y : py_stride k l = Ok l' -> In y l' -> In y l.
Proof. apply py_stride_In. Qed.
Lemma duplicate_In {T} (l l' : list T) y : duplicate_first l = Ok l' -> In y l' -> In y l.
Proof. unfold duplicate_first. destruct l as [|x l]; [discriminate|]. intros H. injection H as <-. intros [<-|H]; [now left|exact H]. Qed.
Definition cells_from (frames : list (Frame R)) (latt : list (M3 R)) : Prop := forall c, In c latt -> exists f, In f frames /\ c = f_cell f.
Lemma read_cells (frames : list (Frame R)) k st coords latt : get_structure_coords_latt frames k = Ok (st, coords, latt) -> cells_from frames latt.
Proof.
  unfold get_structure_coords_latt. intros H. inv_bind H sub E1. inv_bind H c E2. inv_bind H la E3. destruct sub as [|f sub]; [discriminate|].
  injection H as _ _ <-. intros x Hx. apply (duplicate_In _ _ _ E3) in Hx. apply in_map_iff in Hx as (g & <- & Hg).
  exists g. split; [|reflexivity]. eapply stride_In; [exact E1|exact Hg].
Qed.
Lemma read_cells_mda (frames : list (Frame R)) ka k st coords latt : get_structure_coords_latt_mda frames ka k = Ok (st, coords, latt) -> cells_from frames latt.
Proof.
  unfold get_structure_coords_latt_mda. intros H. inv_bind H sub E1. inv_bind H sc E0. inv_bind H c E2. inv_bind H la E3. destruct sub as [|f sub]; [discriminate|].
  inv_bind H ty E4. injection H as _ _ <-. intros x Hx. apply (duplicate_In _ _ _ E3) in Hx. apply in_map_iff in Hx as (g & <- & Hg).
  exists g. split; [|reflexivity]. eapply stride_In; [exact E1|exact Hg].
Qed.
Lemma parse_change (rel : Parsed R -> Parsed R -> Prop) (parse : parser_of) geo circ frames (a : Params R) s w p : In parse parsers ->
  a_specie_indices a <> SINone -> s <> SINone ->
  (forall f q q', rel q q' -> rel (set_delta_t q (map f (p_delta_t q))) (set_delta_t q' (map f (p_delta_t q')))) ->
  (forall st coords latt ss q, cells_from frames latt -> finish_parse geo circ st coords latt a ss = Ok q ->
     exists q', finish_parse geo circ st coords latt (with_selection a s w) ss = Ok q' /\ rel q q') ->
  parse geo circ frames a = Ok p -> exists p', parse geo circ frames (with_selection a s w) = Ok p' /\ rel p p'.
Proof.
  intros HP N1 N2 HR HF H. destruct HP as [<-|[<-|[<-|[]]]].
  - unfold ase_parser in *. cbn [with_selection a_sub_sample_traj a_step_skip]. inv_bind H r E. rewrite ?E. cbn [bind]. destruct r as [[st coords] latt].
    exact (HF _ _ _ _ _ (read_cells _ _ _ _ _ E) H).
  - unfold pymatgen_parser in *. cbn [with_selection a_sub_sample_traj a_step_skip a_time_step]. inv_bind H r E. rewrite ?E. cbn [bind]. destruct r as [[st coords] latt].
    inv_bind H q Eq. destruct (HF _ _ _ _ _ (read_cells _ _ _ _ _ E) Eq) as (q' & E' & RR). rewrite E'. cbn [bind].
    destruct (a_time_step a); [discriminate|]. injection H as <-. eexists. split; [reflexivity|]. now apply HR.
  - unfold mda_parser in *. cbn [with_selection a_sub_sample_traj a_step_skip a_sub_sample_atoms a_specie_indices].
    inv_bind H u Eu. 
    assert (G : (match s with SINone => true | _ => false end) = match a_specie_indices a with SINone => true | _ => false end)
      by (destruct s, (a_specie_indices a); congruence).
    rewrite G. rewrite ?Eu. cbn [bind]. inv_bind H r E. rewrite ?E. cbn [bind]. destruct r as [[st coords] latt].
    exact (HF _ _ _ _ _ (read_cells_mda _ _ _ _ _ _ E) H).
Qed.

(** ** Other molecules, same trajectory *)
Lemma molecules_guards circ natoms coords l (w : option (list R)) fw r : get_molecules circ natoms coords l w fw = Ok r ->
  same_length l = true /\ (match w with Some m => length m = length (hd [] l) | None => True end)
  /\ same_length coords = true /\ fw <> PyList [].
Proof.
  unfold get_molecules. intros H. inv_bind H u1 E1. destruct u1. apply guard_ok in E1. inv_bind H u2 E2. inv_bind H u3 E3. destruct u3. apply guard_ok in E3.
  inv_bind H u4 E4. inv_bind H u5 E5. split; [exact E1|]. split; [|split; [exact E3|]].
  - destruct w as [m|]; [|exact I]. destruct u2. apply guard_ok, Nat.eqb_eq in E2. rewrite E2. destruct l; [reflexivity|]. apply map_length.
  - intros ->. discriminate.
Qed.
Lemma get_molecules_change circ natoms coords l l' (w w' : option (list R)) fw new I D new' :
  get_molecules circ natoms coords l w fw = Ok (new, (I, D)) ->
  same_length l' = true -> match w' with Some m => length m = length (hd [] l') | None => True end ->
  drift_of natoms l' fw = drift_of natoms l fw -> length l' = length l ->
  mapM (molecule_frame circ w' (map minus_one l') (drift_of natoms l fw)) coords = Ok new' ->
  get_molecules circ natoms coords l' w' fw = Ok (new', (I, D)).
Proof.
  intros H H1 H2 H3 HL H4. destruct (molecules_guards _ _ _ _ _ _ _ H) as (_ & _ & G3 & G5).
  destruct (get_molecules_inv _ _ _ _ _ _ _ _ _ H) as (_ & -> & -> & _).
  unfold get_molecules. rewrite H1. cbn [guard bind].
  match goal with |- context [map (map (fun z : Z => z - 1)) l'] => change (map (map (fun z : Z => z - 1)) l') with (map minus_one l') end.
  assert (G2 : match w' with Some m => guard (length m =? length (hd [] (map minus_one l')))%nat ValueError | None => Ok tt end = Ok tt).
  { destruct w' as [m|]; [|reflexivity]. apply guard_ok, Nat.eqb_eq. rewrite H2. destruct l'; [reflexivity|]. symmetry. apply map_length. }
  rewrite G2. cbn [bind]. rewrite G3. cbn [guard bind].
  assert (G4 : exists r, mapM (fun frame => mapM (gather frame) (map minus_one l')) coords = Ok r).
  { clear - H4. revert new' H4. induction coords as [|a cs IH]; intros new' H4; [now exists []|]. cbn [mapM] in *.
    inv_bind H4 b Eb. inv_bind H4 bs Ebs. destruct (IH _ eq_refl) as [r Er].
    unfold molecule_frame in Eb. inv_bind Eb c E1. clear Eb. assert (X : exists q, mapM (gather a) (map minus_one l') = Ok q).
    { revert c E1. generalize (map minus_one l'). intros ms. induction ms as [|m ms IHm]; intros c E1; [now exists []|]. cbn [mapM] in *.
      inv_bind E1 x E2. inv_bind E2 at0 E3. inv_bind E1 cs' E4. destruct (IHm _ eq_refl) as [q ->]. cbn [bind]. eauto. }
    destruct X as [q ->]. rewrite Er. cbn [bind]. eauto. }
  destruct G4 as [r ->]. cbn [bind].
  assert (G6 : match fw with PyList [] => Raise IndexError | _ => Ok tt end = Ok tt) by (destruct fw as [|[|]|]; congruence).
  rewrite G6. cbn [bind]. rewrite <- H3 in *. unfold drift_of, minus_one in *. rewrite H4. cbn [bind]. rewrite HL. reflexivity.
Qed.

(** ** Atoms of a molecule in another order, masses in another unit *)
Definition pairs_alike (c : R) (w w' : option (list R)) {T} (m m' : list T) : Prop :=
  length (weights_of w (length m)) = length m /\ length (weights_of w' (length m')) = length m'
  /\ Permutation (combine (map (Rmult c) (weights_of w (length m))) m) (combine (weights_of w' (length m')) m').
Lemma combine_snd {S T} (u : list S) : forall (v : list T), length u = length v -> map snd (combine u v) = v.
Proof. induction u as [|x u IH]; intros [|y v] L; try discriminate; [reflexivity|]. cbn. now rewrite IH by (cbn in L; lia). Qed.
Lemma combine_fst {S T} (u : list S) : forall (v : list T), length u = length v -> map fst (combine u v) = u.
Proof. induction u as [|x u IH]; intros [|y v] L; try discriminate; [reflexivity|]. cbn. now rewrite IH by (cbn in L; lia). Qed.
Lemma combine_map_r {S T U} (g : T -> U) (u : list S) : forall v, combine u (map g v) = map (fun p => (fst p, g (snd p))) (combine u v).
Proof. induction u as [|x u IH]; intros [|y v]; try reflexivity. cbn. now rewrite IH. Qed.
Lemma pairs_perm c w w' {T} (m m' : list T) : pairs_alike c w w' m m' -> Permutation m m'.
Proof.
  intros (L1 & L2 & P). apply (Permutation_map snd) in P. rewrite !combine_snd in P; [exact P|exact L2|now rewrite map_length].
Qed.
Lemma pairs_map c w w' {T U} (g : T -> U) (m m' : list T) : pairs_alike c w w' m m' -> pairs_alike c w w' (map g m) (map g m').
Proof.
  intros (L1 & L2 & P). unfold pairs_alike. rewrite !map_length. split; [exact L1|]. split; [exact L2|]. rewrite !combine_map_r. now apply Permutation_map.
Qed.
Lemma pairs_weighted c w w' (f : R -> R) m m' : pairs_alike c w w' m m' ->
  weighted f (weights_of w' (length m')) m' = (c * weighted f (weights_of w (length m)) m)%R.
Proof.
  intros (L1 & L2 & P). unfold weighted. rewrite <- (rsum_perm _ _ (Permutation_map (fun p => (fst p * f (snd p))%R) P)).
  clear P L2. revert L1. generalize (weights_of w (length m)). intros u L1. revert m L1. induction u as [|x u IH]; intros [|y m] L1; try discriminate; cbn; [ring|].
  rewrite IH by (cbn in L1; lia). ring.
Qed.
Lemma pairs_sum c w w' {T} (m m' : list T) : pairs_alike c w w' m m' ->
  rsum (weights_of w' (length m')) = (c * rsum (weights_of w (length m)))%R.
Proof.
  intros (L1 & L2 & P). apply (Permutation_map fst) in P. rewrite !combine_fst in P; [|exact L2|now rewrite map_length].
  rewrite <- (rsum_perm _ _ P). generalize (weights_of w (length m)). intros u. clear. induction u as [|x u IH]; cbn; [ring|]. rewrite IH. ring.
Qed.
Lemma axis_alike c w w' m m' y : (c <> 0)%R -> (0 < length m)%nat -> pairs_alike c w w' m m' ->
  molecule_axis circular_mean_R w m = Ok y -> molecule_axis circular_mean_R w' m' = Ok y.
Proof.
  intros Hc Hm HA H. assert (LM : length m' = length m) by (symmetry; apply Permutation_length, (pairs_perm _ _ _ _ _ HA)).
  assert (S : rsum (weights_of w (length m)) <> 0%R).
  { destruct w as [u|]; cbn [weights_of].
    - unfold molecule_axis, circular_mean_R in H. cbn [np_average] in H. rewrite nsum_R in H. intros E. rewrite E in H.
      assert (Z : (neqb (0%R : R) n0) = true) by now apply neqb_R_true. rewrite Z in H. discriminate.
    - rewrite rsum_repeat_1. apply not_0_INR. lia. }
  pose proof (pairs_sum _ _ _ _ _ HA) as S'.
  assert (OK : weights_ok w (length m)) by (split; [exact Hm|]; split; [apply HA|exact S]).
  assert (OK' : weights_ok w' (length m')).
  { split; [lia|]. split; [apply HA|]. rewrite S'. now apply Rmult_integral_contrapositive_currified. }
  rewrite (axis_ok _ _ OK) in H. rewrite (axis_ok _ _ OK'). rewrite <- H. f_equal.
  assert (Q : forall f, (weighted f (weights_of w' (length m')) m' / rsum (weights_of w' (length m')))%R = (weighted f (weights_of w (length m)) m / rsum (weights_of w (length m)))%R).
  { intros f. rewrite (pairs_weighted _ _ _ f _ _ HA), S'. field. auto. }
  unfold axis_value, circle_mean, circle_angle. now rewrite !Q.
Qed.
Lemma centre_alike c w w' (m m' : list (V3 R)) y : (c <> 0)%R -> (0 < length m)%nat -> pairs_alike c w w' m m' ->
  molecule_centre circular_mean_R w m = Ok y -> molecule_centre circular_mean_R w' m' = Ok y.
Proof.
  intros Hc Hm HA H. destruct (centre_inv _ _ _ _ H) as (E1 & E2 & E3). destruct y as [x y z].
  apply centre_intro; (eapply axis_alike; [exact Hc| |now apply pairs_map; exact HA|eassumption]); now rewrite map_length.
Qed.
Lemma gather_alike c w w' (frame : list (V3 R)) m m' atoms : pairs_alike c w w' m m' -> gather frame (minus_one m) = Ok atoms ->
  exists atoms', gather frame (minus_one m') = Ok atoms' /\ pairs_alike c w w' atoms atoms'.
Proof.
  intros (L1 & L2 & P) H. pose proof (gather_length _ _ _ H) as LA. unfold minus_one in LA. rewrite map_length in LA.
  set (g := fun q : R * Z => let! x := py_index frame (snd q - 1) in Ok (fst q, x)).
  assert (G : forall u n at0, length u = length n -> gather frame (minus_one n) = Ok at0 -> mapM g (combine u n) = Ok (combine u at0)).
  { intros u. induction u as [|x u IH]; intros [|i n] at0 L E; try discriminate; [injection E as <-; reflexivity|].
    unfold gather in E. cbn [minus_one map mapM] in E. inv_bind E v Ev. inv_bind E vs Evs. injection E as <-. cbn [combine mapM]. unfold g at 1. cbn [snd fst].
    rewrite Ev. cbn [bind]. rewrite (IH n vs); [reflexivity|cbn in L; lia|exact Evs]. }
  assert (G' : forall u n r, length u = length n -> mapM g (combine u n) = Ok r -> exists at0, gather frame (minus_one n) = Ok at0 /\ r = combine u at0).
  { intros u. induction u as [|x u IH]; intros [|i n] r L E; try discriminate; [injection E as <-; exists []; split; reflexivity|].
    cbn [combine mapM] in E. unfold g at 1 in E. cbn [snd fst] in E. inv_bind E v Ev. inv_bind Ev v1 Ev1. injection Ev as <-. inv_bind E vs Evs. injection E as <-.
    destruct (IH n vs) as (t & Et & ->); [cbn in L; lia|exact Evs|]. exists (v1 :: t). split; [|reflexivity].
    unfold gather, minus_one in *. cbn [map mapM]. rewrite Ev1. cbn [bind]. rewrite Et. reflexivity. }
  assert (E0 := G _ _ _ (eq_trans (map_length (Rmult c) _) L1) H).
  destruct (mapM_perm _ _ _ _ P E0) as (r' & Er & Q). destruct (G' _ _ _ L2 Er) as (at' & Ea & ->). exists at'. split; [exact Ea|].
  pose proof (gather_length _ _ _ Ea) as LA'. unfold minus_one in LA'. rewrite map_length in LA'.
  unfold pairs_alike. rewrite LA, LA'. auto.
Qed.
Lemma frame_alike c w w' l l' drift frame r : (c <> 0)%R -> Forall2 (fun m m' => m <> [] /\ pairs_alike c w w' m m') l l' ->
  molecule_frame circular_mean_R w (map minus_one l) drift frame = Ok r -> molecule_frame circular_mean_R w' (map minus_one l') drift frame = Ok r.
Proof.
  intros Hc F. unfold molecule_frame. intros H. inv_bind H cs E1. inv_bind H fw E2. injection H as <-.
  assert (E : mapM (fun m => let! atoms := gather frame m in molecule_centre circular_mean_R w' atoms) (map minus_one l') = Ok cs).
  { revert cs E1. induction F as [|m m' l l' [N A] F IH]; intros cs E1; [exact E1|]. cbn [map mapM] in *. inv_bind E1 x Ex. inv_bind Ex at0 Ea.
    inv_bind E1 xs Exs. injection E1 as <-. destruct (gather_alike _ _ _ _ _ _ _ A Ea) as (at' & -> & A'). cbn [bind].
    rewrite (centre_alike c w w' at0 at' x Hc); [cbn [bind]; now rewrite (IH _ eq_refl)| |exact A'|exact Ex].
    apply gather_length in Ea. unfold minus_one in Ea. rewrite map_length in Ea. rewrite Ea. destruct m; [contradiction|cbn; lia]. }
  rewrite E. cbn [bind]. rewrite ?E2. reflexivity.
Qed.
Lemma concat_alike c w w' l l' : Forall2 (fun m m' => m <> [] /\ pairs_alike c w w' m m') l l' ->
  Permutation (List.concat (map minus_one l)) (List.concat (map minus_one l')).
Proof.
  induction 1 as [|m m' l l' [_ A] F IH]; [constructor|]. cbn. apply Permutation_app; [|exact IH]. apply Permutation_map, (pairs_perm _ _ _ _ _ A).
Qed.
Lemma molecules_alike_eq c w w' natoms coords l l' fw r : (c <> 0)%R -> l <> [] -> Forall2 (fun m m' => m <> [] /\ pairs_alike c w w' m m') l l' ->
  get_molecules circular_mean_R natoms coords l w fw = Ok r -> get_molecules circular_mean_R natoms coords l' w' fw = Ok r.
Proof.
  intros Hc Hl F H. destruct r as [new [I D]]. destruct (molecules_guards _ _ _ _ _ _ _ H) as (G1 & G2 & _ & _).
  destruct (get_molecules_inv _ _ _ _ _ _ _ _ _ H) as (_ & _ & _ & M).
  apply (get_molecules_change _ _ _ _ _ _ _ _ _ _ _ new H).
  - clear - G1 F. assert (L : map (@length Z) l' = map (@length Z) l).
    { induction F as [|m m' l l' [_ A] F IH]; [reflexivity|]. cbn. rewrite IH.
      - now rewrite (Permutation_length (pairs_perm _ _ _ _ _ A)).
      - destruct l as [|m1 l]; [reflexivity|]. cbn [same_length forallb] in *. rewrite !andb_true_iff in *. destruct G1 as (_ & E1 & E2).
        apply Nat.eqb_eq in E1. rewrite E1 in *. rewrite Nat.eqb_refl. split; [reflexivity|exact E2]. }
    unfold same_length in *. destruct l' as [|m' l']; [reflexivity|]. destruct l as [|m l]; [discriminate|]. rewrite forallb_forall in *.
    intros y Hy. apply Nat.eqb_eq. assert (Ly : In (length y) (map (@length Z) (m :: l))) by (rewrite <- L; now apply in_map).
    apply in_map_iff in Ly as (z & Ez & Hz). apply G1, Nat.eqb_eq in Hz. cbn [map] in L. injection L as L0 _. congruence.
  - destruct w' as [u'|]; [|exact Logic.I]. destruct F as [|m m' l l' [_ A] F]; [|exact (proj1 (proj2 A))].
    now destruct Hl.
  - unfold drift_of. destruct fw; try reflexivity; symmetry; apply complement_perm, (concat_alike _ _ _ _ _ F).
  - symmetry. eapply Forall2_length. exact F.
  - apply mapM_ok. apply mapM_ok in M. eapply Forall2_weaken; [|exact M]. cbv beta. intros frame rr E. eapply frame_alike; eassumption.
Qed.

Lemma finish_alike_eq geo st coords latt (a : Params R) ss c w' l l' q : (c <> 0)%R -> a_specie a = None -> a_specie_indices a = SIMol l ->
  Forall2 (fun m m' => m <> [] /\ pairs_alike c (a_masses a) w' m m') l l' ->
  finish_parse geo circular_mean_R st coords latt a ss = Ok q -> finish_parse geo circular_mean_R st coords latt (with_selection a (SIMol l') w') ss = Ok q.
Proof.
  intros Hc Hs Hl F H. unfold finish_parse in *. inv_bind H sel Es.
  assert (E' : choose_atoms circular_mean_R st coords (with_selection a (SIMol l') w') = Ok sel).
  { unfold choose_atoms in *. cbn [with_selection a_specie a_specie_indices a_masses a_framework]. rewrite Hs, Hl in *.
    destruct F as [|m m' l0 l0' HF F]; [discriminate|]. eapply molecules_alike_eq; [exact Hc| |constructor; eassumption|exact Es]. discriminate. }
  rewrite E'. cbn [bind]. exact H.
Qed.
Lemma reweighted (parse : parser_of) geo frames (a : Params R) c w' l l' p : In parse parsers -> (c <> 0)%R -> a_specie a = None -> a_specie_indices a = SIMol l ->
  Forall2 (fun m m' => m <> [] /\ pairs_alike c (a_masses a) w' m m') l l' ->
  parse geo circular_mean_R frames a = Ok p -> parse geo circular_mean_R frames (with_selection a (SIMol l') w') = Ok p.
Proof.
  intros HP Hc Hs Hl F H.
  destruct (parse_change eq parse geo circular_mean_R frames a (SIMol l') w' p HP) as (p' & E & <-); try assumption; try discriminate; try congruence.
  intros st coords latt ss q _ Hq. exists q. split; [|reflexivity]. eapply finish_alike_eq; eassumption.
Qed.
Lemma C94_atoms_proof (parse : parser_of) geo frames (a : Params R) l l' w' p : In parse parsers -> a_specie a = None -> a_specie_indices a = SIMol l ->
  Forall (fun m => m <> []) l -> Forall2 (same_molecule (a_masses a) w') l l' ->
  parse geo circular_mean_R frames a = Ok p -> parse geo circular_mean_R frames (with_selection a (SIMol l') w') = Ok p.
Proof.
  intros HP Hs Hl HN F. eapply reweighted with (c := 1%R); try eassumption; [lra|].
  clear - HN F. induction F as [|m m' l l' S F IH]; constructor; [|apply IH; now inversion HN].
  split; [now inversion HN|]. unfold same_molecule, pairs_alike in *.
  assert (M1 : forall u : list R, map (Rmult 1) u = u) by (intros u; rewrite <- (map_id u) at 2; apply map_ext; intros; ring).
  rewrite M1. destruct (a_masses a) as [u|], w' as [u'|]; cbn [weights_of]; try contradiction; [exact S|].
  rewrite !repeat_length. split; [reflexivity|]. split; [reflexivity|].
  assert (C : forall n : list Z, combine (repeat 1%R (length n)) n = map (fun i => (1%R, i)) n) by (intros n; induction n; cbn; congruence).
  rewrite !C. now apply Permutation_map.
Qed.
Lemma pairs_self c w w' {T} (m : list T) : length (weights_of w (length m)) = length m -> weights_of w' (length m) = map (Rmult c) (weights_of w (length m)) -> pairs_alike c w w' m m.
Proof. intros L E. unfold pairs_alike. rewrite E, map_length. auto. Qed.
(** What a run tells about the masses. *)
Lemma finish_masses geo circ st coords latt (a : Params R) ss l q : a_specie a = None -> a_specie_indices a = SIMol l ->
  finish_parse geo circ st coords latt a ss = Ok q -> forall m, In m l -> length (weights_of (a_masses a) (length m)) = length m.
Proof.
  intros Hs Hl H. unfold finish_parse in H. inv_bind H sel Es. unfold choose_atoms in Es. rewrite Hs, Hl in Es. destruct l as [|m0 l]; [discriminate|].
  destruct sel as [new [I D]]. apply (get_molecules_inv _ _ _ _ _ _ _ _ _ Es).
Qed.
Lemma C94_units_proof (parse : parser_of) geo frames (a : Params R) l ws c p : In parse parsers -> a_specie a = None -> a_specie_indices a = SIMol l ->
  Forall (fun m => m <> []) l -> a_masses a = Some ws -> (c <> 0)%R ->
  parse geo circular_mean_R frames a = Ok p -> parse geo circular_mean_R frames (with_selection a (SIMol l) (Some (map (Rmult c) ws))) = Ok p.
Proof.
  intros HP Hs Hl HN Hw Hc H.
  destruct (parse_change eq parse geo circular_mean_R frames a (SIMol l) (Some (map (Rmult c) ws)) p HP) as (p' & E & <-); try assumption; try discriminate; try congruence.
  intros st coords latt ss q _ Hq. exists q. split; [|reflexivity]. eapply finish_alike_eq; [exact Hc|exact Hs|exact Hl| |exact Hq].
  pose proof (finish_masses _ _ _ _ _ _ _ _ _ Hs Hl Hq) as W. rewrite Hw in *.
  apply Forall2_refl_In. intros m Hm. split; [rewrite Forall_forall in HN; now apply HN|]. apply pairs_self; [now apply W|reflexivity].
Qed.
Lemma C94_equal_proof (parse : parser_of) geo frames (a : Params R) l c k p : In parse parsers -> a_specie a = None -> a_specie_indices a = SIMol l ->
  Forall (fun m => length m = S k) l -> a_masses a = None -> (c <> 0)%R ->
  parse geo circular_mean_R frames a = Ok p -> parse geo circular_mean_R frames (with_selection a (SIMol l) (Some (repeat c (S k)))) = Ok p.
Proof.
  intros HP Hs Hl HN Hw Hc H. eapply reweighted with (c := c); try eassumption. rewrite Hw.
  apply Forall2_refl_In. intros m Hm. rewrite Forall_forall in HN. pose proof (HN m Hm) as Lm. split; [intros ->; discriminate|].
  apply pairs_self; cbn [weights_of]; [apply repeat_length|]. rewrite Lm. generalize (S k). intros n. induction n; cbn; [reflexivity|]. rewrite <- IHn. f_equal. ring.
Qed.

(** ** Displacements of renumbered sites *)
Lemma disp_reindex (coords coords' : list (list (V3 R))) latt d N' s : get_disp coords latt = Ok d ->
  length coords' = length coords -> (forall f, In f coords' -> length f = N') ->
  (forall li b, mapM minv latt = Ok li -> (b < N')%nat ->
     get_disp_row (map (fun f => nth b f v0) coords') latt li = get_disp_row (map (fun f => nth (s b) f v0) coords) latt li) ->
  exists r, a_rows d = tab (length (hd [] coords)) r /\ get_disp coords' latt = Ok (mkArr (a_obs d) (tab N' (fun b => r (s b)))).
Proof.
  intros E HL HN HC. unfold get_disp in *. destruct coords as [|f0 coords]; [discriminate|]. destruct coords' as [|f0' coords']; [discriminate|].
  inv_bind E u E1. inv_bind E li E2. inv_bind E u' E3. destruct u'. injection E as <-. cbn [a_rows a_obs hd].
  exists (fun i => get_disp_row (map (fun f => nth i f v0) (f0 :: coords)) latt li). split; [reflexivity|].
  assert (G : forallb (fun f => Nat.eqb (length f) (length f0')) (f0' :: coords') = true).
  { apply forallb_forall. intros f Hf. apply Nat.eqb_eq. rewrite (HN f Hf). symmetry. apply HN. now left. }
  rewrite G. cbn [guard bind]. rewrite HL, E3. cbn [bind]. rewrite (HN f0') by now left. f_equal. f_equal.
  unfold tab. apply map_ext_in. intros b Hb. apply in_seq in Hb. apply HC; [reflexivity|lia].
Qed.
Lemma nat_sites N a n : (a + n <= N)%nat -> Forall (valid_site N) (map Z.of_nat (seq a n)).
Proof. intros H. apply Forall_forall. intros i Hi. apply in_map_iff in Hi as (x & <- & Hx). apply in_seq in Hx. unfold valid_site. lia. Qed.
Lemma gather_block {T} N (r : nat -> T) a n : (a + n <= N)%nat -> gather (tab N r) (map Z.of_nat (seq a n)) = Ok (map r (seq a n)).
Proof.
  intros H. rewrite gather_tab by now apply nat_sites. f_equal. rewrite map_map. apply map_ext. intros b. now rewrite site_nat.
Qed.

(** ** Molecules in another order *)
Lemma frame_perm (circ : option (list R) -> list R -> Res R) w l l' drift (frame : list (V3 R)) r (s : nat -> nat) : length l' = length l ->
  (forall x, (x < length l)%nat -> (s x < length l)%nat /\ nth x l' [] = nth (s x) l []) ->
  Permutation l l' -> molecule_frame circ w (map minus_one l) drift frame = Ok r ->
  exists r', molecule_frame circ w (map minus_one l') drift frame = Ok r' /\ length r = (length l + length drift)%nat /\ length r' = (length l + length drift)%nat
  /\ (forall b, (b < length l)%nat -> nth b r' v0 = nth (s b) r v0) /\ (forall b, (length l <= b)%nat -> nth b r' v0 = nth b r v0).
Proof.
  intros HL HS P H. unfold molecule_frame in *. inv_bind H cs E1. inv_bind H fw E2. injection H as <-.
  destruct (mapM_perm _ _ _ _ (Permutation_map minus_one P) E1) as (cs' & E1' & _). rewrite E1'. cbn [bind]. exists (cs' ++ fw)%list.
  pose proof (mapM_length _ _ _ E1) as L1. pose proof (mapM_length _ _ _ E1') as L2. pose proof (gather_length _ _ _ E2) as L3. rewrite map_length in L1, L2.
  split; [reflexivity|]. rewrite !app_length. split; [lia|]. split; [lia|]. split.
  - intros b Hb. destruct (HS b Hb) as [H1 H2]. rewrite !app_nth1 by lia. apply mapM_ok in E1, E1'.
    assert (N1 : nth_error (map minus_one l) (s b) = Some (minus_one (nth (s b) l []))) by (rewrite nth_error_map, (nth_error_nth' l [] H1); reflexivity).
    assert (N2 : nth_error (map minus_one l') b = Some (minus_one (nth (s b) l []))) by (rewrite nth_error_map, (nth_error_nth' l' []) by lia; now rewrite <- H2).
    destruct (Forall2_nth_error _ _ _ _ _ E1 N1) as (c1 & X1 & Y1). destruct (Forall2_nth_error _ _ _ _ _ E1' N2) as (c2 & X2 & Y2).
    rewrite (nth_error_nth _ _ _ X1), (nth_error_nth _ _ _ X2). congruence.
  - intros b Hb. rewrite !app_nth2 by lia. f_equal. lia.
Qed.
Lemma same_length_perm {T} (l l' : list (list T)) : Permutation l l' -> same_length l = true -> same_length l' = true.
Proof.
  intros P H. unfold same_length in *. destruct l' as [|x' l']; [reflexivity|]. destruct l as [|x l]; [apply Permutation_length in P; discriminate|].
  rewrite forallb_forall in *. intros y Hy. apply Nat.eqb_eq.
  assert (K : forall z, In z (x' :: l') -> length z = length x) by (intros z Hz; apply Nat.eqb_eq, H; eapply Permutation_in; [apply Permutation_sym, P|exact Hz]).
  rewrite (K y Hy). symmetry. apply K. now left.
Qed.
Lemma hd_length_perm {T} (l l' : list (list T)) : Permutation l l' -> same_length l = true -> length (hd [] l') = length (hd [] l).
Proof.
  intros P H. destruct l' as [|x' l']; [apply Permutation_sym, Permutation_nil in P; now subst|]. cbn [hd].
  apply same_length_In; [exact H|]. eapply Permutation_in; [apply Permutation_sym, P|now left].
Qed.
Lemma finish_order geo circ st coords latt (a : Params R) ss l l' q : a_specie a = None -> a_specie_indices a = SIMol l -> Permutation l l' ->
  finish_parse geo circ st coords latt a ss = Ok q ->
  exists q', finish_parse geo circ st coords latt (with_selection a (SIMol l') (a_masses a)) ss = Ok q' /\ same_parse q q'.
Proof.
  intros Hs Hl P H. unfold finish_parse in H. inv_bind H sel Es. inv_bind H d Ed. inv_bind H q0 Eq. injection H as <-. destruct sel as [new [I D]]. cbn [fst snd] in *.
  unfold choose_atoms in Es. rewrite Hs, Hl in Es. destruct l as [|m0 l0]; [discriminate|]. set (l := m0 :: l0) in *.
  destruct (molecules_guards _ _ _ _ _ _ _ Es) as (G1 & G2 & _ & _). destruct (get_molecules_inv _ _ _ _ _ _ _ _ _ Es) as (_ & EI & ED & M).
  set (drift := drift_of (length (s_types st)) l (a_framework a)) in *.
  pose proof (Permutation_length P) as HL.
  destruct (proj1 (Permutation_nth l l' []) P) as (_ & s & B & J & N).
  assert (HS : forall x, (x < length l)%nat -> (s x < length l)%nat /\ nth x l' [] = nth (s x) l []) by (intros x Hx; split; [now apply B|now apply N]).
  assert (X : exists new', mapM (molecule_frame circ (a_masses a) (map minus_one l') drift) coords = Ok new'
     /\ Forall2 (fun r r' => length r = (length l + length drift)%nat /\ length r' = (length l + length drift)%nat
        /\ (forall b, (b < length l)%nat -> nth b r' v0 = nth (s b) r v0) /\ (forall b, (length l <= b)%nat -> nth b r' v0 = nth b r v0)) new new').
  { clear Es Ed. revert new M. induction coords as [|f coords IH]; intros new M; [injection M as <-; exists []; split; [reflexivity|constructor]|].
    cbn [mapM] in M. inv_bind M r Er. inv_bind M rs Ers. injection M as <-. destruct (IH _ eq_refl) as (rs' & E' & F).
    destruct (frame_perm _ _ _ _ _ _ _ s (eq_sym HL) HS P Er) as (r' & Er' & HH). exists (r' :: rs'). cbn [mapM]. rewrite Er', E'. cbn [bind].
    split; [reflexivity|]. constructor; assumption. }
  destruct X as (new' & M' & F).
  assert (DR : drift_of (length (s_types st)) l' (a_framework a) = drift).
  { unfold drift, drift_of. destruct (a_framework a); try reflexivity; symmetry; apply complement_perm, concat_perm, Permutation_map, P. }
  assert (EG : get_molecules circ (length (s_types st)) coords l' (a_masses a) (a_framework a) = Ok (new', (I, D))).
  { eapply get_molecules_change; [exact Es|now apply (same_length_perm l)| |exact DR|lia|exact M'].
    destruct (a_masses a); [|exact Logic.I]. now rewrite (hd_length_perm l l' P G1). }
  set (n := length l) in *. set (k := length drift) in *. set (s' := fun b => if Nat.ltb b n then s b else b).
  assert (FN : forall b, (b < n + k)%nat -> map (fun f => nth b f v0) new' = map (fun f => nth (s' b) f v0) new).
  { intros b Hb. clear - F. induction F as [|r r' rs rs' (A1 & A2 & A3 & A4) F IH]; [reflexivity|]. cbn [map]. rewrite IH. f_equal.
    unfold s'. destruct (Nat.ltb_spec b n) as [Hb|Hb]; [now apply A3|now apply A4]. }
  destruct (disp_reindex new new' latt d (n + k) s' Ed) as (r & Er & Ed').
  - symmetry. eapply Forall2_length. exact F.
  - intros f Hf. clear - F Hf. induction F as [|r r' rs rs' (A1 & A2 & _) F IH]; [contradiction|]. destruct Hf as [<-|Hf]; auto.
  - intros li b _ Hb. now rewrite FN.
  - assert (HN : length (hd [] new) = (n + k)%nat).
    { destruct F as [|r1 r1' rs rs' (A1 & _) F]; [discriminate Ed|exact A1]. }
    rewrite HN in Er.
    destruct (parser_init_order geo d (mkArr (a_obs d) (tab (n + k) (fun b => r (s' b)))) I I D D (pynum_val (a_time_step a)) ss (a_opts a) q0) as (q' & Eq' & SP);
      [reflexivity| | |reflexivity|exact Eq|].
    + intros rr. cbn [a_rows]. rewrite Er, ED, !gather_block by lia. intros E. injection E as <-. eexists. split; [reflexivity|].
      erewrite map_ext_in; [apply Permutation_refl|]. intros b Hb. apply in_seq in Hb. unfold s'. destruct (Nat.ltb_spec b n); [lia|reflexivity].
    + intros rr. cbn [a_rows]. rewrite Er, EI, !gather_block by lia. intros E. assert (RR : rr = map r (seq 0 n)) by congruence. clear E. subst rr. eexists. split; [reflexivity|].
      rewrite <- (map_map s' r). apply Permutation_map.
      assert (MS : map s' (seq 0 n) = map s (seq 0 n)).
      { apply map_ext_in. intros b Hb. apply in_seq in Hb. unfold s'. destruct (Nat.ltb_spec b n); [reflexivity|lia]. }
      rewrite MS. apply NoDup_Permutation_bis.
      * apply seq_NoDup.
      * now rewrite map_length.
      * intros x Hx. apply in_seq in Hx. destruct (proj1 (FinFun.bInjective_bSurjective B) J x) as (y & Hy & <-); [lia|]. apply in_map, in_seq. lia.
    + exists (set_volume q' (s_volume st)). split.
      * unfold finish_parse, choose_atoms. cbn [with_selection a_specie a_specie_indices a_framework a_masses a_time_step a_opts]. rewrite Hs.
        destruct l' as [|m1 l']; [apply Permutation_length in P; discriminate|]. rewrite EG. cbn [bind fst snd]. rewrite Ed'. cbn [bind]. rewrite Eq'. reflexivity.
      * destruct SP as (S1 & S2 & S3 & S4 & S5 & S6 & S7). repeat split; assumption.
Qed.
Lemma C94_molecules_proof (parse : parser_of) geo circ frames (a : Params R) l l' p : In parse parsers -> a_specie a = None -> a_specie_indices a = SIMol l ->
  Permutation l l' -> parse geo circ frames a = Ok p ->
  exists p', parse geo circ frames (with_selection a (SIMol l') (a_masses a)) = Ok p' /\ same_parse p p'.
Proof.
  intros HP Hs Hl P H. eapply parse_change; try eassumption; try discriminate; try congruence.
  - intros f q q'. apply same_parse_delta.
  - intros st coords latt ss q _ Hq. eapply finish_order; eassumption.
Qed.

(** ** Molecules of one atom *)
Lemma init_selected geo (d d' : Arr R) I I' D D' rI rD (ts : R) ss o p : a_obs d' = a_obs d ->
  gather (a_rows d) I = Ok rI -> gather (a_rows d') I' = Ok rI -> gather (a_rows d) D = Ok rD -> gather (a_rows d') D' = Ok rD ->
  parser_init geo d I D ts ss o = Ok p -> exists p', parser_init geo d' I' D' ts ss o = Ok p' /\ same_results p p'.
Proof.
  intros HO GI GI' GD GD' H.
  assert (LI : length I' = length I) by (apply gather_length in GI, GI'; congruence).
  assert (LD : length D' = length D) by (apply gather_length in GD, GD'; congruence).
  unfold parser_init in *. inv_bind H dc E1.
  assert (X : exists dc', correct_drift D' d' = Ok dc' /\ a_obs dc' = a_obs dc /\ gather (a_rows dc') I' = gather (a_rows dc) I).
  { unfold correct_drift in *. destruct D as [|i D], D' as [|i' D']; try discriminate.
    - injection E1 as <-. exists d'. split; [reflexivity|]. split; [exact HO|]. congruence.
    - rewrite GD in E1. rewrite GD'. cbn [bind] in *. injection E1 as <-. eexists. split; [reflexivity|]. split; [exact HO|]. cbn [a_rows].
      rewrite !gather_map, GI, GI', HO. reflexivity. }
  destruct X as (dc' & -> & HO' & HS). cbn [bind]. rewrite HO'.
  inv_bind H q Eq. rewrite ?Eq. cbn [bind]. inv_bind H m Em. rewrite ?Em. cbn [bind].
  destruct (_ <=? m); [discriminate|]. inv_bind H tis Et. rewrite ?Et. cbn [bind]. inv_bind H r Er.
  assert (Er' : get_disps ts ss I' (o_sampling o) (o_memory_limit o) (o_itemsize o) tis dc' = Ok r).
  { unfold get_disps in *. now rewrite HS, LI, HO'. }
  rewrite Er'. cbn [bind]. injection H as <-. eexists. split; [reflexivity|]. repeat split.
Qed.
Lemma one_atom_centre w (x c : V3 R) : length (weights_of w 1) = 1%nat -> molecule_centre circular_mean_R w [x] = Ok c -> exists k, c = plus3 x (ivec k).
Proof.
  intros L H.
  assert (H0 : molecule_centre circular_mean_R None [x] = Ok c).
  { destruct w as [u|]; [|exact H]. cbn [weights_of] in L. destruct u as [|u [|]]; try discriminate.
    assert (U : u <> 0%R).
    { intros ->. destruct (centre_inv _ _ _ _ H) as (E & _). unfold molecule_axis, circular_mean_R in E. cbn [np_average] in E. rewrite nsum_R in E.
      assert (Z : neqb (rsum [0%R]) n0 = true) by (apply neqb_R_true; cbn; ring). rewrite Z in E. discriminate. }
    apply (centre_alike (/ u) (Some [u]) None [x] [x] c); [now apply Rinv_neq_0_compat|cbn; lia| |exact H].
    apply pairs_self; [reflexivity|]. cbn. f_equal. now field. }
  destruct (centre_com None [x] [x]) as (c' & C1 & C2).
  - discriminate.
  - reflexivity.
  - exact Logic.I.
  - assert (S : forall z : R, narrow [z]) by (intros z a b [<-|[]] [<-|[]]; rewrite Rminus_diag_eq, Rabs_R0 by reflexivity; lra).
    repeat split; apply S.
  - constructor; [|constructor]. exists (mkV 0 0 0). v3eq.
  - rewrite H0 in C1. injection C1 as <-. destruct (wraps3_image _ _ C2) as (k & ->). exists k. f_equal.
    unfold com3, centre_of_mass, weighted. cbn. destruct x as [x y z]. cbn. f_equal; field.
Qed.
Lemma tab_ofl {T} (l : list T) d : l = tab (length l) (fun i => nth i l d).
Proof. unfold tab. symmetry. apply map_nth_seq. Qed.
Lemma row_images (cs cs' : list (V3 R)) latt li cell : (forall x, In x latt -> x = cell) -> length cs = length latt -> mapM minv latt = Ok li ->
  Forall2 (fun x y => exists k, y = plus3 x (ivec k)) cs cs' -> get_disp_row cs' latt li = get_disp_row cs latt li.
Proof.
  intros HC HL HI F. pose proof (Forall2_length _ _ _ F) as LF. pose proof (mapM_length _ _ _ HI) as LI.
  destruct cs as [|x0 cs0]; [destruct cs'; [reflexivity|discriminate]|]. set (cs := x0 :: cs0) in *. set (n := length cs0).
  assert (Ln : length cs = S n) by reflexivity.
  rewrite (tab_ofl cs v0), (tab_ofl cs' v0), (tab_ofl latt cell), (tab_ofl li cell). rewrite LI, <- HL, <- LF, Ln. rewrite !get_disp_row_fun.
  apply tab_ext. intros t Ht. apply vsum_ext. intros f Hf.
  assert (NL : forall g, (g < S n)%nat -> nth g latt cell = cell) by (intros g Hg; apply HC, nth_In; lia).
  assert (NI : minv cell = Ok (nth (S f) li cell)).
  { apply mapM_ok in HI. destruct (Forall2_nth_error _ _ _ (S f) cell HI) as (y & Y1 & Y2).
    - rewrite (nth_error_nth' latt cell) by lia. f_equal. apply NL. lia.
    - now rewrite (nth_error_nth _ _ _ Y1). }
  assert (NC : forall g, (g < S n)%nat -> exists k, nth g cs' v0 = plus3 (nth g cs v0) (ivec k)).
  { intros g Hg. destruct (Forall2_nth_error _ _ _ g (nth g cs v0) F) as (y & Y1 & k & Y2); [apply nth_error_nth'; lia|].
    exists k. now rewrite (nth_error_nth _ _ _ Y1). }
  rewrite !NL by lia. destruct (NC f ltac:(lia)) as (k1 & ->). destruct (NC (S f) ltac:(lia)) as (k2 & ->).
  apply tor_step_image; [exact NI|now left].
Qed.

Lemma disp_of (coords : list (list (V3 R))) latt li N : coords <> [] -> (forall f, In f coords -> length f = N) -> mapM minv latt = Ok li -> length coords = length latt ->
  get_disp coords latt = Ok (mkArr (length coords - 1) (tab N (fun i => get_disp_row (map (fun f => nth i f v0) coords) latt li))).
Proof.
  intros HN HL HI HE. unfold get_disp. destruct coords as [|f0 coords]; [contradiction|].
  assert (G : forallb (fun f => Nat.eqb (length f) (length f0)) (f0 :: coords) = true).
  { apply forallb_forall. intros f Hf. apply Nat.eqb_eq. rewrite (HL f Hf). symmetry. apply HL. now left. }
  rewrite G. cbn [guard bind]. rewrite HI. cbn [bind]. rewrite HE, Nat.eqb_refl. cbn [guard bind]. now rewrite (HL f0) by now left.
Qed.
Lemma disp_of_inv (coords : list (list (V3 R))) latt d : get_disp coords latt = Ok d ->
  coords <> [] /\ exists li, mapM minv latt = Ok li /\ length coords = length latt.
Proof.
  unfold get_disp. destruct coords as [|f0 coords]; [discriminate|]. intros H. inv_bind H u E1. inv_bind H li E2. inv_bind H u' E3. destruct u'. apply guard_ok, Nat.eqb_eq in E3.
  split; [discriminate|]. exists li. split; [reflexivity|exact E3].
Qed.
Lemma same_length_all {T} (l : list (list T)) x : same_length (x :: l) = true -> forall f, In f (x :: l) -> length f = length x.
Proof. intros H f Hf. exact (same_length_In _ _ H Hf). Qed.
Lemma index_valid {T} (l : list T) i x : py_index l i = Ok x -> valid_site (length l) i.
Proof.
  unfold py_index, valid_site. destruct (_ && _) eqn:E; [|discriminate]. apply andb_true_iff in E as [E1 E2]. apply Z.leb_le in E1. apply Z.ltb_lt in E2.
  intros _. destruct (i <? 0)%Z eqn:E3; [apply Z.ltb_lt in E3|apply Z.ltb_ge in E3]; lia.
Qed.
Lemma index_nth {T} (l : list T) i x d : py_index l i = Ok x -> nth (site (length l) i) l d = x.
Proof. intros H. destruct (nth_error_site l i (index_valid _ _ _ H)) as (y & Y1 & Y2). rewrite (nth_error_nth _ _ _ Y2). congruence. Qed.
(** What one frame of molecules of one atom holds. *)
Lemma single_frame w l drift (frame : list (V3 R)) r : (l <> [] -> length (weights_of w 1) = 1%nat) -> molecule_frame circular_mean_R w (map minus_one (one_each l)) drift frame = Ok r ->
  length r = (length l + length drift)%nat
  /\ Forall (valid_site (length frame)) l /\ Forall (valid_site (length frame)) drift
  /\ (forall b i, nth_error l b = Some i -> exists k, nth b r v0 = plus3 (nth (site (length frame) i) frame v0) (ivec k))
  /\ (forall b i, nth_error drift b = Some i -> nth (length l + b) r v0 = nth (site (length frame) i) frame v0).
Proof.
  intros W H. destruct (molecule_frame_inv _ _ _ _ _ _ H) as (cs & fw & -> & F & G).
  pose proof (Forall2_length _ _ _ F) as L1. rewrite map_length in L1. unfold one_each in L1. rewrite map_length in L1.
  pose proof (gather_length _ _ _ G) as L2. rewrite app_length. split; [lia|].
  assert (X : forall b i, nth_error l b = Some i -> exists c x, nth_error cs b = Some c /\ py_index frame i = Ok x /\ molecule_centre circular_mean_R w [x] = Ok c).
  { intros b i Hb. destruct (Forall2_nth_error _ _ _ b [i] F) as (c & C1 & at0 & C2 & C3).
    - unfold one_each. rewrite map_map, nth_error_map, Hb. cbn. do 2 f_equal. lia.
    - unfold gather in C2. cbn [mapM] in C2. inv_bind C2 x Ex. injection C2 as <-. eauto. }
  assert (Y : forall b i, nth_error drift b = Some i -> exists x, nth_error fw b = Some x /\ py_index frame i = Ok x).
  { intros b i Hb. unfold gather in G. apply mapM_ok in G. exact (Forall2_nth_error _ _ _ _ _ G Hb). }
  split; [|split; [|split]].
  - apply Forall_forall. intros i Hi. apply In_nth_error in Hi as (b & Hb). destruct (X b i Hb) as (c & x & _ & E & _). eapply index_valid; exact E.
  - apply Forall_forall. intros i Hi. apply In_nth_error in Hi as (b & Hb). destruct (Y b i Hb) as (x & _ & E). eapply index_valid; exact E.
  - intros b i Hb. destruct (X b i Hb) as (c & x & C1 & E & C2). assert (Hbl : (b < length cs)%nat) by (apply nth_error_Some; congruence).
    rewrite app_nth1 by exact Hbl. rewrite (nth_error_nth _ _ _ C1), (index_nth _ _ _ _ E). eapply one_atom_centre; [|exact C2].
    apply W. intros ->. destruct b; discriminate.
  - intros b i Hb. destruct (Y b i Hb) as (x & C1 & E). rewrite app_nth2 by lia. replace (length l + b - length cs)%nat with b by lia.
    now rewrite (nth_error_nth _ _ _ C1), (index_nth _ _ _ _ E).
Qed.
Lemma finish_single geo st coords latt (a : Params R) ss l q cell : a_specie a = None -> a_specie_indices a = SIMol (one_each l) ->
  (forall fw, a_framework a <> PyList fw) -> (forall x, In x latt -> x = cell) ->
  finish_parse geo circular_mean_R st coords latt a ss = Ok q ->
  exists q', finish_parse geo circular_mean_R st coords latt (with_selection a (SIFlat l) None) ss = Ok q' /\ same_results q q'.
Proof.
  intros Hs Hl Hf HC H. unfold finish_parse in H. inv_bind H sel Es. inv_bind H d Ed. inv_bind H q0 Eq. injection H as <-. destruct sel as [new [I D]]. cbn [fst snd] in *.
  unfold choose_atoms in Es. rewrite Hs, Hl in Es. destruct l as [|i0 l0]; [discriminate|]. set (l := i0 :: l0) in *.
  change (get_molecules circular_mean_R (length (s_types st)) coords (one_each l) (a_masses a) (a_framework a) = Ok (new, (I, D))) in Es.
  destruct (molecules_guards _ _ _ _ _ _ _ Es) as (_ & _ & G3 & _). destruct (get_molecules_inv _ _ _ _ _ _ _ _ _ Es) as (W & EI & ED & M).
  set (drift := drift_of (length (s_types st)) (one_each l) (a_framework a)) in *.
  assert (W1 : length (weights_of (a_masses a) 1) = 1%nat) by (specialize (W [i0 + 1] (or_introl eq_refl)); exact W).
  assert (EDr : drift = complement (length (s_types st)) l).
  { assert (C : List.concat (map minus_one (one_each l)) = l).
    { clear. generalize l. intros m. induction m as [|i m IH]; [reflexivity|]. cbn [one_each map minus_one List.concat app]. unfold one_each in IH. rewrite IH. f_equal. lia. }
    unfold drift, drift_of. rewrite C. destruct (a_framework a) as [|fw|]; [reflexivity|now destruct (Hf fw)|reflexivity]. }
  destruct (disp_of_inv _ _ _ Ed) as (Nn & li & Eli & Lc).
  pose proof (mapM_length _ _ _ M) as LM. destruct coords as [|f0 coords]; [destruct new; [contradiction|discriminate LM]|]. set (cs := f0 :: coords) in *.
  pose proof (same_length_all _ _ G3) as HL. fold cs in HL. set (N := length f0) in *.
  set (n := length l) in *. set (k := length drift) in *.
  assert (LO : length (one_each l) = n) by apply map_length. rewrite LO in EI, ED.
  assert (FF : Forall2 (fun frame r => length r = (n + k)%nat /\ Forall (valid_site N) l /\ Forall (valid_site N) drift
     /\ (forall b i, nth_error l b = Some i -> exists k, nth b r v0 = plus3 (nth (site N i) frame v0) (ivec k))
     /\ (forall b i, nth_error drift b = Some i -> nth (n + b) r v0 = nth (site N i) frame v0)) cs new).
  { apply mapM_ok in M. clear - M HL W1. clearbody cs N. induction M as [|f r fs rs E M IH]; constructor.
    - rewrite <- (HL f (or_introl eq_refl)). eapply single_frame; [|exact E]. intros _. exact W1.
    - apply IH. intros g Hg. apply HL. now right. }
  assert (V : Forall (valid_site N) l /\ Forall (valid_site N) drift).
  { clear - FF Nn. destruct FF as [|? ? ? ? (_ & A & B & _) _]; [contradiction|auto]. }
  destruct V as [V1 V2].
  assert (LN : forall f, In f new -> length f = (n + k)%nat).
  { clear - FF. intros f Hf. clearbody cs. induction FF as [|? ? ? ? (A & _) _ IH]; [contradiction|]. destruct Hf as [<-|Hf]; auto. }
  set (row := fun c i => get_disp_row (map (fun f => nth i f v0) c) latt li).
  assert (EC : get_disp cs latt = Ok (mkArr (length cs - 1) (tab N (row cs)))).
  { apply disp_of; [discriminate|exact HL|exact Eli|]. rewrite <- LM. exact Lc. }
  pose proof (disp_of new latt li (n + k) Nn LN Eli Lc) as Ed2. fold (row new) in Ed2. assert (Ed3 : mkArr (length new - 1) (tab (n + k) (row new)) = d) by congruence. clear Ed Ed2. rename Ed3 into Ed.
  assert (R1 : forall b i, nth_error l b = Some i -> row new b = row cs (site N i)).
  { intros b i Hb. unfold row. eapply row_images; [exact HC| |exact Eli|].
    - rewrite map_length. rewrite <- LM. exact Lc.
    - clear - FF Hb. clearbody cs N. induction FF as [|f r fs rs (_ & _ & _ & A & _) _ IH]; constructor; [now apply A|exact IH]. }
  assert (R2 : forall b i, nth_error drift b = Some i -> row new (n + b)%nat = row cs (site N i)).
  { intros b i Hb. unfold row. f_equal. clear - FF Hb. clearbody cs N. induction FF as [|f r fs rs (_ & _ & _ & _ & A) _ IH]; [reflexivity|]. cbn [map]. rewrite IH. f_equal. now apply A. }
  assert (GI : gather (a_rows d) I = Ok (map (fun i => row cs (site N i)) l)).
  { rewrite <- Ed. cbn [a_rows]. rewrite EI. rewrite gather_block by lia. f_equal.
    apply list_ext. intros b. rewrite !nth_error_map. destruct (nth_error l b) as [i|] eqn:Eb.
    - assert (b < n)%nat by (apply nth_error_Some; congruence). rewrite (nth_error_nth' (seq 0 n) 0%nat) by (rewrite seq_length; lia). rewrite seq_nth by lia. cbn. f_equal. now apply R1.
    - apply nth_error_None in Eb. assert (Z : nth_error (seq 0 n) b = None) by (apply nth_error_None; rewrite seq_length; exact Eb). now rewrite Z. }
  assert (GD : gather (a_rows d) D = Ok (map (fun i => row cs (site N i)) drift)).
  { rewrite <- Ed. cbn [a_rows]. rewrite ED. rewrite gather_block by lia. f_equal.
    apply list_ext. intros b. rewrite !nth_error_map. destruct (nth_error drift b) as [i|] eqn:Eb.
    - assert (b < k)%nat by (apply nth_error_Some; congruence). rewrite (nth_error_nth' (seq n k) 0%nat) by (rewrite seq_length; lia). rewrite seq_nth by lia. cbn. f_equal. now apply R2.
    - apply nth_error_None in Eb. assert (Z : nth_error (seq n k) b = None) by (apply nth_error_None; rewrite seq_length; exact Eb). now rewrite Z. }
  set (d' := mkArr (length cs - 1) (tab N (row cs))).
  assert (HO : a_obs d' = a_obs d) by (rewrite <- Ed; cbn [a_obs d']; now rewrite LM).
  destruct (init_selected geo d d' I l D drift _ _ (pynum_val (a_time_step a)) ss (a_opts a) q0 HO GI (gather_tab N (row cs) l V1) GD (gather_tab N (row cs) drift V2) Eq) as (q' & Eq' & SP).
  exists (set_volume q' (s_volume st)). split.
    + unfold finish_parse, choose_atoms. cbn [with_selection a_specie a_specie_indices a_framework a_masses a_time_step a_opts]. rewrite Hs. unfold l at 1.
      assert (EF : get_framework (length (s_types st)) l (a_framework a) = Ok (l, drift)).
      { unfold get_framework. rewrite EDr. destruct (a_framework a) as [|fw|]; [reflexivity|now destruct (Hf fw)|reflexivity]. }
      change (i0 :: l0) with l. rewrite EF. cbn [bind fst snd]. fold cs. rewrite EC. fold d'. cbn [bind]. rewrite Eq'. reflexivity.
    + destruct SP as (S1 & S2 & S3 & S4 & S5 & S6 & S7). repeat split; assumption.
Qed.
Lemma same_results_delta f p p' : same_results p p' -> same_results (set_delta_t p (map f (p_delta_t p))) (set_delta_t p' (map f (p_delta_t p'))).
Proof. intros (S1 & S2 & S3 & S4 & S5 & S6 & S7). repeat split; cbn; try assumption. now rewrite S3. Qed.
Lemma C94_single_proof (parse : parser_of) geo frames (a : Params R) l cell p : In parse parsers -> a_specie a = None -> a_specie_indices a = SIMol (one_each l) ->
  (forall fw, a_framework a <> PyList fw) -> Forall (fun f => f_cell f = cell) frames -> parse geo circular_mean_R frames a = Ok p ->
  exists p', parse geo circular_mean_R frames (with_selection a (SIFlat l) None) = Ok p' /\ same_results p p'.
Proof.
  intros HP Hs Hl Hf HC H. eapply parse_change; try eassumption; try discriminate; try congruence.
  - apply same_results_delta.
  - intros st coords latt ss q HL Hq. eapply finish_single; try eassumption. intros x Hx. destruct (HL x Hx) as (f & Hi & ->). rewrite Forall_forall in HC. now apply HC.
Qed.

(** ** Examples *)
Definition strolling (f i : nat) : V3 R := match i with O => line3 (INR f / 10) | S O => line3 (1 / 2) | _ => line3 (1 / 4) end.
Definition strolling_frames : list (Frame R) := frames_of ["Li"; "Li"; "O"]%string 1%R 3 3 strolling (fun _ => unit_cell).
Definition strolling_params : Params R := mkParams None (PyFloat 1%R) 1 1 1 one_step (SIMol [[1]; [2]]) None PyNone.
Lemma strolling_range f i : (f < 3)%nat -> (0 <= vx (strolling f i) < 1)%R /\ vy (strolling f i) = 0%R /\ vz (strolling f i) = 0%R.
Proof.
  intros Hf. assert (0 <= INR f <= 2)%R by (split; [apply pos_INR|]; change 2%R with (INR 2); apply le_INR; lia).
  destruct i as [|[|i]]; cbn; repeat split; lra.
Qed.
Lemma inside_centre (x : V3 R) : (0 <= vx x < 1)%R -> vy x = 0%R -> vz x = 0%R -> molecule_centre circular_mean_R None [x] = Ok x.
Proof.
  intros H1 H2 H3. destruct (centre_com None [x] [x]) as (c & C1 & C2 & C3 & C4).
  - discriminate.
  - reflexivity.
  - exact Logic.I.
  - assert (S : forall z : R, narrow [z]) by (intros z a b [<-|[]] [<-|[]]; rewrite Rminus_diag_eq, Rabs_R0 by reflexivity; lra).
    repeat split; apply S.
  - constructor; [|constructor]. exists (mkV 0 0 0). v3eq.
  - rewrite C1. f_equal. destruct x as [x y z]. cbn in *. subst y z. destruct c as [cx cy cz]. cbn in *.
    assert (K : forall u, centre_of_mass (repeat 1%R 1) [u] = u) by (intros u; unfold centre_of_mass, weighted; cbn; field).
    cbn in K. rewrite !K in *. f_equal; (eapply wraps_unique; [eassumption|]); (split; [lra|exists 0; cbn; ring]).
Qed.
Lemma C94_example_proof : exists p arr p' p'', ase_parser geomspace_R circular_mean_R strolling_frames strolling_params = Ok p
  /\ p_disp_3d p = [arr] /\ arr_entry arr 0 2 = Some (line3 (1 / 10)) /\ arr_entry arr 1 2 = Some (line3 0)
  /\ ase_parser geomspace_R circular_mean_R strolling_frames (with_selection strolling_params (SIMol [[2]; [1]]) None) = Ok p' /\ same_parse p p'
  /\ ase_parser geomspace_R circular_mean_R strolling_frames (with_selection strolling_params (SIFlat [0; 1]) None) = Ok p'' /\ same_results p p''.
Proof.
  assert (X : exists p arr, ase_parser geomspace_R circular_mean_R strolling_frames strolling_params = Ok p
    /\ p_disp_3d p = [arr] /\ arr_entry arr 0 2 = Some (line3 (1 / 10)) /\ arr_entry arr 1 2 = Some (line3 0)).
  { unfold strolling_frames. rewrite (ase_mol_run geomspace_R circular_mean_R unit_cell _ 1 3 3 strolling strolling strolling_params [[1]; [2]]).
    - cbn [strolling_params a_time_step pynum_val a_step_skip a_opts a_framework]. change (length [[1]; [2]]%Z + length (drift_of 3 [[1]; [2]]%Z PyNone))%nat with 3%nat.
      change (centre_ids [[1]; [2]]) with [0; 1]. change (framework_ids [[1]; [2]] (drift_of 3 [[1]; [2]] PyNone)) with [2].
      unfold one_step. rewrite (parser_init_ints geomspace_R 3 3 _ [0; 1] [2] 1 1 1 "multi-origin" 8 8) by (first [repeat constructor; cbn; lia | lia]).
      change (tab _ (lin _ 1 _)) with (map Z.of_nat [1]%nat).
      rewrite get_disps_multi' by (repeat constructor; cbn; lia).
      assert (E : Rltb 8 (in_gigabytes (fold_right Z.add 0%Z (map (ProofsWindows.estimate (length [0; 1]) 3 8) [1]%nat))) = false).
      { apply Rltb_false. unfold in_gigabytes. cbn. lra. }
      rewrite E. cbn [bind]. do 2 eexists. split; [reflexivity|]. split; [reflexivity|].
      unfold arr_entry. cbn. change (Pos.to_nat 1) with 1%nat. change (Pos.to_nat 2) with 2%nat. unfold average. cbn [strolling]. split; f_equal; apply V3_eq; unfold line3; cbn; numR; field.
    - exact unit_cell_volume.
    - lia.
    - reflexivity.
    - split; reflexivity.
    - discriminate.
    - reflexivity.
    - reflexivity.
    - exact Logic.I.
    - discriminate.
    - intros f Hf. unfold molecule_frame. cbn [strolling_params a_masses a_framework].
      change (map minus_one [[1]; [2]]) with [[0]; [1]]. change (drift_of 3 [[1]; [2]] PyNone) with [2]. cbn [mapM].
      change (gather (tab 3 (strolling f)) [0]) with (Ok [strolling f 0%nat]). change (gather (tab 3 (strolling f)) [1]) with (Ok [strolling f 1%nat]).
      change (gather (tab 3 (strolling f)) [2]) with (Ok [strolling f 2%nat]). cbn [bind].
      destruct (strolling_range f 0 Hf) as (A1 & A2 & A3). destruct (strolling_range f 1 Hf) as (B1 & B2 & B3).
      rewrite (inside_centre _ A1 A2 A3), (inside_centre _ B1 B2 B3). reflexivity.
    - intros f i Hf Hi. unfold within_half. cbn [length one_each] in Hi. destruct i as [|[|i]]; cbn [strolling line3 vx vy vz minus3];
        rewrite ?Nat.mul_1_r, ?S_INR; repeat split; try lra. }
  destruct X as (p & arr & E & E1 & E2 & E3).
  destruct (C94_molecules_proof ase_parser geomspace_R circular_mean_R strolling_frames strolling_params [[1]; [2]] [[2]; [1]] p) as (p' & E' & S');
    [now left|reflexivity|reflexivity|constructor|exact E|].
  destruct (C94_single_proof ase_parser geomspace_R strolling_frames strolling_params [0; 1] unit_cell p) as (p'' & E'' & S'');
    [now left|reflexivity|reflexivity|discriminate| |exact E|].
  - repeat constructor.
  - exists p, arr, p', p''. auto 10.
Qed.
Lemma C94_example_masses_proof : exists p, let frames := frames_of pair_types 1%R 3 3 (fun f i => plus3 (crossing f i) (ivec (crossing_img f i))) (fun _ => unit_cell) in
  ase_parser geomspace_R circular_mean_R frames (pair_params (Some [1; 3]%R)) = Ok p /\ p_disp_3d p <> []
  /\ ase_parser geomspace_R circular_mean_R frames (with_selection (pair_params (Some [1; 3]%R)) (SIMol [[2; 1]]) (Some [3; 1]%R)) = Ok p.
Proof.
  destruct C20_example_proof as (p & arr & E & Ep & _). exists p. cbv zeta. split; [exact E|]. split; [rewrite Ep; discriminate|].
  apply (C94_atoms_proof ase_parser geomspace_R _ (pair_params (Some [1; 3]%R)) [[1; 2]] [[2; 1]] (Some [3; 1]%R) p); [now left|reflexivity|reflexivity|repeat constructor; discriminate| |exact E].
  constructor; [|constructor]. cbn. split; [reflexivity|]. split; [reflexivity|]. constructor.
Qed.
