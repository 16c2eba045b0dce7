(** * ProofsLive: documented input is accepted (C84) *)
From Verif Require Import Base Spec SpecParser SpecStats SpecMol ModelParser ModelDiffusion ModelHdf ModelAnalyzer SpecRun SpecTrue SpecFit SpecSym SpecLive Lemmas
  ProofsDisp ProofsIntervals ProofsWindows ProofsParser ProofsTraj ProofsShape ProofsMol ProofsBoot ProofsStats ProofsFit ProofsFit2 ProofsSym ProofsTime.
From Coq Require Import Reals Lra Lia Arith Sorting.Sorted.
Open Scope Z_scope.

(** ** Reading *)
Lemma mapM_succeeds {S T} (f : S -> Res T) l : (forall x, In x l -> exists y, f x = Ok y) -> exists r, mapM f l = Ok r.
Proof.
  induction l as [|x l IH]; intros H; [eexists; reflexivity|]. cbn [mapM].
  destruct (H x (or_introl eq_refl)) as (y & ->). destruct IH as (r & ->); [intros z Hz; apply H; now right|]. cbn [bind]. eauto.
Qed.
Lemma stride_any {T} k (l : list T) : 0 < k -> exists l', py_stride k l = Ok l' /\ sub_sample (Z.to_nat k) l l' /\ length l' = kept (length l) (Z.to_nat k)
  /\ forall x, In x l' -> In x l.
Proof.
  intros Hk. unfold py_stride. destruct (k =? 0) eqn:E; [apply Z.eqb_eq in E; lia|]. destruct (0 <? k) eqn:E2; [|apply Z.ltb_ge in E2; lia].
  eexists. split; [reflexivity|]. assert (S : sub_sample (Z.to_nat k) l (every (Z.to_nat k) 0 l)) by (intros j; apply nth_error_every; lia).
  split; [exact S|]. split; [|intros x Hx; eapply sub_sample_In; eauto].
  assert (H : forall j, (j < length (every (Z.to_nat k) 0 l) <-> j < kept (length l) (Z.to_nat k))%nat).
  { intros j. rewrite kept_spec by lia. rewrite <- !nth_error_Some, S. tauto. }
  destruct (Nat.lt_trichotomy (length (every (Z.to_nat k) 0 l)) (kept (length l) (Z.to_nat k))) as [C|[C|C]]; [|exact C|].
  - apply H in C. lia.
  - apply H in C. lia.
Qed.
Lemma sub_sample_one {T} (l l' : list T) : sub_sample 1 l l' -> l' = l.
Proof. intros H. apply list_ext. intros j. now rewrite H, Nat.mul_1_r. Qed.
Lemma sub_sample_same {T} k (l a b : list T) : sub_sample k l a -> sub_sample k l b -> a = b.
Proof. intros H H'. apply list_ext. intros j. now rewrite H, H'. Qed.

(** What a constructor has read. *)
Definition readable (types : list string) (T : nat) (st : Structure R) (coords : list (list (V3 R))) (latt : list (M3 R)) : Prop :=
  s_types st = types /\ length coords = S T /\ length latt = S T /\ Forall (fun f => length f = length types) coords
  /\ Forall (fun c => cell_volume c <> 0%R) latt.
Lemma kept_length {T} k (l l' : list T) : (0 < k)%nat -> sub_sample k l l' -> length l' = kept (length l) k.
Proof.
  intros Hk S. destruct (stride_any (Z.of_nat k) l ltac:(lia)) as (r & _ & S' & L & _). rewrite Nat2Z.id in *.
  now rewrite (sub_sample_same _ _ _ _ S S').
Qed.
Lemma read_plain frames types k : frames <> [] -> 0 < k ->
  Forall (fun f => f_types f = types /\ length (f_pos f) = length types /\ cell_volume (f_cell f) <> 0%R) frames ->
  exists st coords latt, get_structure_coords_latt frames k = Ok (st, coords, latt) /\ readable types (kept (length frames) (Z.to_nat k)) st coords latt.
Proof.
  intros Hf Hk F. unfold get_structure_coords_latt. destruct (stride_any k frames Hk) as (sub & -> & Hs & L & I). cbn [bind].
  assert (K : (0 < kept (length frames) (Z.to_nat k))%nat) by (apply kept_pos; [lia|destruct frames; [congruence|cbn; lia]]).
  rewrite Forall_forall in F. destruct sub as [|f sub]; [cbn in L; lia|]. cbn [map duplicate_first bind]. do 3 eexists. split; [reflexivity|].
  assert (G : forall x, In x (f :: sub) -> In x frames) by exact I. cbn [length] in L.
  assert (Ff := F f (I f (or_introl eq_refl))).
  unfold readable. split; [|split; [|split; [|split]]].
  - cbn [s_types]. apply Ff.
  - cbn [length]. rewrite map_length. lia.
  - cbn [length]. rewrite map_length. lia.
  - apply (Forall_cons (f_pos f)); [apply Ff|]. change (Forall (fun c => length c = length types) (map f_pos (f :: sub))). apply Forall_forall. intros c Hc.
    apply in_map_iff in Hc as (g & <- & Hg). now apply F, G.
  - apply (Forall_cons (f_cell f)); [apply Ff|]. change (Forall (fun c => cell_volume c <> 0%R) (map f_cell (f :: sub))). apply Forall_forall. intros c Hc.
    apply in_map_iff in Hc as (g & <- & Hg). now apply F, G.
Qed.
Lemma read_mda frames types types' ka k : frames <> [] -> 0 < k -> 0 < ka -> sub_sample (Z.to_nat ka) types types' ->
  Forall (fun f => f_types f = types /\ length (f_pos f) = length types /\ cell_volume (f_cell f) <> 0%R) frames ->
  exists st coords latt, get_structure_coords_latt_mda frames ka k = Ok (st, coords, latt) /\ readable types' (kept (length frames) (Z.to_nat k)) st coords latt.
Proof.
  intros Hf Hk Ha St F. unfold get_structure_coords_latt_mda. destruct (stride_any k frames Hk) as (sub & -> & Hs & L & I). cbn [bind].
  assert (K : (0 < kept (length frames) (Z.to_nat k))%nat) by (apply kept_pos; [lia|destruct frames; [congruence|cbn; lia]]).
  assert (LT : length types' = kept (length types) (Z.to_nat ka)) by (apply kept_length; [lia|exact St]).
  rewrite Forall_forall in F.
  destruct (mapM_succeeds (fun f => let! inv_matrix := minv (f_cell f) in let! atoms := py_stride ka (f_pos f) in Ok (map (fun p => vecmat p inv_matrix) atoms)) sub) as (scaled & E).
  { intros f Hf'. destruct (F f (I f Hf')) as (_ & _ & V). destruct (minv_ok _ V) as (mi & -> & _). cbn [bind].
    destruct (stride_any ka (f_pos f) Ha) as (at' & -> & _). cbn [bind]. eauto. }
  rewrite E. cbn [bind].
  assert (G : Forall (fun c => length c = length types') scaled).
  { apply mapM_ok in E. clear Hs L. induction E as [|f c sub scaled Hc _ IH]; [constructor|]. constructor; [|apply IH; intros y Hy; apply I; now right].
    destruct (F f (I f (or_introl eq_refl))) as (_ & LP & _). inv_bind Hc mi E1. inv_bind Hc at' E2. injection Hc as <-.
    rewrite map_length. destruct (stride_any ka (f_pos f) Ha) as (at2 & E3 & _ & L3 & _). rewrite E2 in E3. injection E3 as <-. rewrite LT. congruence. }
  assert (LS := mapM_length _ _ _ E).
  destruct sub as [|f sub]; [cbn in L; lia|]. destruct scaled as [|c scaled]; [cbn in LS; lia|]. cbn [map duplicate_first bind].
  assert (Ff := F f (I f (or_introl eq_refl))). destruct Ff as (Ft & Fp & Fv). rewrite Ft.
  destruct (stride_any ka types Ha) as (t2 & -> & S2 & _). cbn [bind]. do 3 eexists. split; [reflexivity|]. cbn [length] in *.
  unfold readable. split; [|split; [|split; [|split]]].
  - cbn [s_types]. eapply sub_sample_same; eauto.
  - cbn [length]. lia.
  - cbn [length]. rewrite map_length. lia.
  - constructor; [|exact G]. now inversion G.
  - apply (Forall_cons (f_cell f)); [exact Fv|]. change (Forall (fun c => cell_volume c <> 0%R) (map f_cell (f :: sub))). apply Forall_forall. intros c' Hc.
    apply in_map_iff in Hc as (g & <- & Hg). now apply F, I.
Qed.

(** ** Choosing atoms *)
Lemma complement_valid n l : Forall (valid_site n) (complement n l).
Proof.
  apply Forall_forall. intros i Hi. apply filter_In in Hi as [Hi _]. apply in_map_iff in Hi as (q & <- & Hq). apply in_seq in Hq. unfold valid_site. lia.
Qed.
Lemma gather_succeeds {T} (l : list T) idx : Forall (valid_site (length l)) idx -> exists r, gather l idx = Ok r /\ length r = length idx.
Proof.
  intros H. destruct (mapM_succeeds (py_index l) idx) as (r & E).
  - intros i Hi. rewrite Forall_forall in H. destruct (nth_error_site l i (H i Hi)) as (x & -> & _). eauto.
  - exists r. split; [exact E|now apply mapM_length in E].
Qed.
Lemma Forall_minus n l : Forall (fun z => valid_site n (z - 1)) l -> Forall (valid_site n) (map (fun z => z - 1) l).
Proof. intros H. apply Forall_forall. intros j Hj. apply in_map_iff in Hj as (z & <- & Hz). rewrite Forall_forall in H. now apply H. Qed.
Lemma same_length_all {T} (l : list (list T)) n : Forall (fun m => length m = n) l -> same_length l = true.
Proof.
  intros H. destruct l as [|x l]; [reflexivity|]. unfold same_length. apply forallb_forall. intros y Hy. apply Nat.eqb_eq.
  rewrite Forall_forall in H. rewrite (H y Hy). symmetry. apply H. now left.
Qed.
Lemma centre_ok w (atoms : list (V3 R)) : weights_ok w (length atoms) -> exists c, molecule_centre circular_mean_R w atoms = Ok c.
Proof.
  intros H. unfold molecule_centre.
  rewrite (axis_ok w (map vx atoms)) by (now rewrite map_length). cbn [bind].
  rewrite (axis_ok w (map vy atoms)) by (now rewrite map_length). cbn [bind].
  rewrite (axis_ok w (map vz atoms)) by (now rewrite map_length). cbn [bind]. eauto.
Qed.
Lemma frame_ok w mols drift (frame : list (V3 R)) len : (0 < len)%nat -> weights_ok w len ->
  Forall (fun m => length m = len /\ Forall (valid_site (length frame)) m) mols -> Forall (valid_site (length frame)) drift ->
  exists r, molecule_frame circular_mean_R w mols drift frame = Ok r /\ length r = (length mols + length drift)%nat.
Proof.
  intros Hl Hw Hm Hd. unfold molecule_frame. rewrite Forall_forall in Hm.
  destruct (mapM_succeeds (fun m => let! atoms := gather frame m in molecule_centre circular_mean_R w atoms) mols) as (cs & E).
  { intros m Hin. destruct (Hm m Hin) as [L V]. destruct (gather_succeeds frame m V) as (at' & -> & La). cbn [bind]. apply centre_ok. now rewrite La, L. }
  rewrite E. cbn [bind]. destruct (gather_succeeds frame drift Hd) as (fw & -> & Lf). cbn [bind]. eexists. split; [reflexivity|].
  rewrite app_length, (mapM_length _ _ _ E). lia.
Qed.
Lemma seq_valid n m q : (n + m <= q)%nat -> Forall (valid_site q) (map Z.of_nat (seq n m)).
Proof. intros H. apply Forall_forall. intros i Hi. apply in_map_iff in Hi as (j & <- & Hj). apply in_seq in Hj. unfold valid_site. lia. Qed.

Lemma select_count sp types : forall i, length (select_where true sp i types) = length (filter (fun name => existsb (String.eqb name) sp) types).
Proof.
  induction types as [|t types IH]; intros i; [reflexivity|]. cbn [select_where filter]. destruct (existsb (String.eqb t) sp); cbn [Bool.eqb length]; now rewrite IH.
Qed.
Lemma choose_live types st T coords latt a : readable types T st coords latt -> selects types a ->
  exists coords' I D N, choose_atoms circular_mean_R st coords a = Ok (coords', (I, D)) /\ length coords' = S T
    /\ Forall (fun f => length f = N) coords' /\ Forall (valid_site N) I /\ Forall (valid_site N) D /\ I <> [] /\ length I = followed types a.
Proof.
  intros (Et & Lc & _ & Fc & _) S. unfold choose_atoms. destruct S as [sp name Hs Hn Hi HF|l Hs Hi Hl Hv HF|l len Hs Hi Hl Hlen Hm Hw HF].
  - rewrite Hs. unfold get_indices. rewrite Et. destruct (select_lists types sp) as [L1 L2].
    assert (NE : select_where true sp 0 types <> []).
    { apply In_nth_error in Hn as (q & Hq). intros E. destruct L1 as [_ L1]. rewrite E in L1. apply (L1 (Z.of_nat q)). exists q, name. auto. }
    destruct (select_where true sp 0 types) as [|i0 rest] eqn:ES; [congruence|].
    apply lists_atoms_valid in L1. apply lists_atoms_valid in L2.
    assert (C : exists D, match a_framework a with PyList l => Ok (i0 :: rest, l) | _ => Ok (i0 :: rest, select_where false sp 0 types) end
                = Ok (i0 :: rest, D) /\ Forall (valid_site (length types)) D).
    { destruct (a_framework a) as [|l|]; eexists; (split; [reflexivity|]); auto. }
    destruct C as (D & -> & HD). cbn [bind]. exists coords, (i0 :: rest), D, (length types). repeat (split; [solve [auto]|]).
    unfold followed. rewrite Hs, <- ES. apply select_count.
  - rewrite Hs, Hi. destruct l as [|z l]; [congruence|]. unfold get_framework. rewrite Et.
    assert (C : match a_framework a with PyList l0 => match complement (length types) (z :: l) with [] => Ok (z :: l, map (fun z => z - 1) l0) | _ :: _ => Raise AttributeError end
                | _ => Ok (z :: l, complement (length types) (z :: l)) end = Ok (z :: l, complement (length types) (z :: l))).
    { destruct (a_framework a) as [|f|]; try reflexivity. now specialize (HF f). }
    rewrite C. cbn [bind]. exists coords, (z :: l), (complement (length types) (z :: l)), (length types).
    unfold followed. rewrite Hs, Hi. repeat split; auto using complement_valid.
  - rewrite Hs, Hi. destruct l as [|m0 l]; [congruence|]. rewrite Et. unfold get_molecules.
    assert (HL : Forall (fun m => length m = len) (m0 :: l)) by (eapply Forall_impl; [|exact Hm]; cbn; tauto).
    rewrite (same_length_all _ _ HL). cbn [guard bind].
    set (mols := map (map (fun z => z - 1)) (m0 :: l)).
    assert (HM : Forall (fun m => length m = len /\ Forall (valid_site (length types)) m) mols).
    { apply Forall_forall. intros m Hin. apply in_map_iff in Hin as (m1 & <- & Hin). rewrite Forall_forall in Hm. destruct (Hm m1 Hin) as [L V].
      rewrite map_length. split; [exact L|now apply Forall_minus]. }
    assert (H0 : length (hd [] mols) = len) by (cbn [mols map hd]; rewrite map_length; inversion HL; auto).
    set (drift := match a_framework a with PyList f => map (fun z => z - 1) f | _ => complement (length types) (List.concat mols) end).
    assert (HD : Forall (valid_site (length types)) drift).
    { unfold drift. destruct (a_framework a) as [|f|]; try apply complement_valid. apply Forall_minus. now apply (HF f). }
    assert (HG : match a_masses a with None => Ok tt | Some m => guard (Nat.eqb (length m) (length (hd [] mols))) ValueError end = Ok tt).
    { rewrite H0. destruct (a_masses a) as [w|]; [|reflexivity]. destruct (Hw w eq_refl) as [-> _]. now rewrite Nat.eqb_refl. }
    rewrite HG. cbn [bind]. rewrite (same_length_all _ _ Fc). cbn [guard bind].
    assert (W : weights_ok (a_masses a) len).
    { unfold weights_ok. split; [exact Hlen|]. destruct (a_masses a) as [w|]; cbn [weights_of]; [now apply Hw|].
      rewrite repeat_length. split; [reflexivity|]. rewrite rsum_repeat_1. apply not_0_INR. lia. }
    rewrite Forall_forall in Fc.
    destruct (mapM_succeeds (fun frame => mapM (gather frame) mols) coords) as (u & ->).
    { intros f Hf. apply mapM_succeeds. intros m Hin. rewrite Forall_forall in HM. destruct (HM m Hin) as [_ V]. rewrite <- (Fc f Hf) in V.
      destruct (gather_succeeds f m V) as (r & E & _). eauto. }
    cbn [bind].
    assert (HP : match a_framework a with PyList [] => Raise IndexError | _ => Ok tt end = Ok tt).
    { destruct (a_framework a) as [|[|? ?]|]; try reflexivity. destruct (HF [] eq_refl). congruence. }
    rewrite HP. cbn [bind].
    assert (FR : forall f, In f coords -> exists r, molecule_frame circular_mean_R (a_masses a) mols drift f = Ok r /\ length r = (length mols + length drift)%nat).
    { intros f Hf. apply (frame_ok _ _ _ _ len Hlen W); rewrite (Fc f Hf); assumption. }
    destruct (mapM_succeeds (molecule_frame circular_mean_R (a_masses a) mols drift) coords) as (nc & E).
    { intros f Hf. destruct (FR f Hf) as (r & E & _). eauto. }
    rewrite E. cbn [bind]. do 3 eexists. exists (length mols + length drift)%nat. split; [reflexivity|].
    split; [now rewrite (mapM_length _ _ _ E)|]. assert (Lm : length mols = length (m0 :: l)) by apply map_length.
    split; [|split; [|split; [|split; [discriminate|unfold followed; rewrite Hs, Hi, map_length, seq_length; reflexivity]]]].
    + apply mapM_ok in E. clear -E FR. induction E as [|f r coords nc H _ IH]; constructor; [|apply IH; intros g Hg; apply FR; now right].
      destruct (FR f (or_introl eq_refl)) as (r' & E & L). congruence.
    + apply seq_valid. lia.
    + apply seq_valid. lia.
Qed.

(** ** The constructors *)
Lemma get_disp_live (coords : list (list (V3 R))) latt N T : length coords = S T -> length latt = S T -> Forall (fun f => length f = N) coords ->
  Forall (fun c => cell_volume c <> 0%R) latt -> exists x, get_disp coords latt = Ok (table N T x).
Proof.
  intros L1 L2 F V. assert (E : exists d, get_disp coords latt = Ok d).
  { unfold get_disp. destruct coords as [|f0 coords]; [discriminate|].
    assert (G : forallb (fun f => Nat.eqb (length f) (length f0)) (f0 :: coords) = true).
    { apply forallb_forall. intros f Hf. rewrite Forall_forall in F. apply Nat.eqb_eq. rewrite (F f Hf). symmetry. apply F. now left. }
    rewrite G. cbn [guard bind]. destruct (mapM_succeeds minv latt) as (li & ->).
    { intros c Hc. rewrite Forall_forall in V. destruct (minv_ok c (V c Hc)) as (mi & -> & _). eauto. }
    cbn [bind]. rewrite L1, L2, Nat.eqb_refl. cbn [guard bind]. eauto. }
  destruct E as (d & E). destruct (get_disp_wf _ _ _ E) as (W & O & _ & f0 & t & Ec & Lr).
  assert (OT : a_obs d = T) by lia. subst coords. inversion F as [|? ? F0 _]; subst.
  destruct (rectangular_is_table d (length f0)) as (x & Ex); [split; [exact Lr|exact W]|]. exists x. rewrite E, Ex at 1. reflexivity.
Qed.

Definition finished (i : interface) (vol : R) (p : Parsed R) : Parsed R :=
  match i with Pymatgen => set_delta_t (set_volume p vol) (map (fun d => d * (n1 / nofZ 1000))%num (p_delta_t p)) | _ => set_volume p vol end.
Lemma parsers_live i frames types a : documented i frames types a -> exists N x I D vol,
  Forall (valid_site N) I /\ Forall (valid_site N) D /\ I <> [] /\ (forall types', types_read i types types' a -> length I = followed types' a)
  /\ parser_by i geomspace_R circular_mean_R frames a
     = let! p := parser_init geomspace_R (table N (kept (length frames) (Z.to_nat (a_sub_sample_traj a))) x) I D (pynum_val (a_time_step a)) (steps_by i a) (a_opts a) in
       Ok (finished i vol p).
Proof.
  intros [Hf Ha Ht Hs (types' & St & Hsel & Hm) Hti _ _].
  assert (R : exists st coords latt, readable types' (kept (length frames) (Z.to_nat (a_sub_sample_traj a))) st coords latt
    /\ parser_by i geomspace_R circular_mean_R frames a = let! p := finish_parse geomspace_R circular_mean_R st coords latt a (steps_by i a) in
         Ok (match i with Pymatgen => set_delta_t p (map (fun d => d * (n1 / nofZ 1000))%num (p_delta_t p)) | _ => p end)).
  { destruct i; cbn [parser_by steps_by atom_stride] in *.
    - change (Z.to_nat 1) with 1%nat in St. apply sub_sample_one in St. subst types'.
      destruct (read_plain frames types _ Hf Ht Ha) as (st & coords & latt & E & RD). exists st, coords, latt. split; [exact RD|].
      unfold ase_parser. rewrite E. cbn [bind]. destruct (finish_parse _ _ _ _ _ _ _); reflexivity.
    - change (Z.to_nat 1) with 1%nat in St. apply sub_sample_one in St. subst types'.
      destruct (read_plain frames types _ Hf Ht Ha) as (st & coords & latt & E & RD). exists st, coords, latt. split; [exact RD|].
      unfold pymatgen_parser. rewrite E. cbn [bind]. destruct (Hti eq_refl) as (t & Ett). destruct (finish_parse _ _ _ _ _ _ _); [|reflexivity]. cbn [bind]. now rewrite Ett.
    - destruct (read_mda frames types types' _ _ Hf Ht Hs St Ha) as (st & coords & latt & E & RD). exists st, coords, latt. split; [exact RD|].
      unfold mda_parser. rewrite E.
      assert (G : ((a_sub_sample_atoms a =? 1) || match a_specie_indices a with SINone => true | _ => false end)%bool = true).
      { destruct (a_specie_indices a) eqn:Ei; [apply orb_true_r|rewrite Hm by (auto; discriminate); reflexivity..]. }
      rewrite G. cbn [guard bind]. destruct (finish_parse _ _ _ _ _ _ _); reflexivity. }
  destruct R as (st & coords & latt & RD & ->). destruct (choose_live _ _ _ _ _ _ RD Hsel) as (c' & I & D & N & E & L & F & VI & VD & NI & NF).
  destruct RD as (_ & _ & LL & _ & V). destruct (get_disp_live c' latt N _ L LL F V) as (x & Ex).
  exists N, x, I, D, (s_volume st). do 3 (split; [assumption|]). split; [intros t2 S2; now rewrite (sub_sample_same _ _ _ _ S2 St)|]. unfold finish_parse. rewrite E. cbn [bind fst snd]. rewrite Ex. cbn [bind].
  destruct (parser_init _ _ _ _ _ _ _); [|reflexivity]. cbn [bind]. destruct i; reflexivity.
Qed.
Lemma C84_parsers_proof i frames types a : documented i frames types a ->
  (exists p, parser_by i geomspace_R circular_mean_R frames a = Ok p) \/ parser_by i geomspace_R circular_mean_R frames a = Raise MemoryError.
Proof.
  intros Hd. destruct (parsers_live _ _ _ _ Hd) as (N & x & I & D & vol & VI & VD & _ & _ & ->). destruct Hd as [_ _ _ _ _ _ Hs (S & _ & Hlt)].
  destruct (runs N _ x I D _ _ (a_opts a) VI VD S Hlt Hs) as [(p & ->)| ->]; cbn [bind]; [left; eauto|now right].
Qed.
Lemma bytes_bound N T isz tis : 0 <= isz -> Forall (fun n => (0 < n <= T)%nat) tis ->
  fold_right Z.add 0 (map (estimate N T isz) tis) <= Z.of_nat (length tis) * (Z.of_nat N * Z.of_nat T * 3 * isz).
Proof.
  intros Hz H. induction H as [|n tis Hn _ IH]; [cbn; lia|]. cbn [map fold_right length].
  assert (E : estimate N T isz n <= Z.of_nat N * Z.of_nat T * 3 * isz).
  { unfold estimate. apply Z.mul_le_mono_nonneg_r; [exact Hz|]. apply Z.mul_le_mono_nonneg_r; [lia|]. apply Z.mul_le_mono_nonneg_l; lia. }
  rewrite Nat2Z.inj_succ. nia.
Qed.
Lemma C84_memory_proof i frames types types' a : documented i frames types a -> types_read i types types' a -> 0 <= o_itemsize (a_opts a) ->
  (in_gigabytes (o_n_steps (a_opts a) * (Z.of_nat (followed types' a) * Z.of_nat (kept (length frames) (Z.to_nat (a_sub_sample_traj a))) * 3 * o_itemsize (a_opts a)))
    <= o_memory_limit (a_opts a))%R ->
  exists p, parser_by i geomspace_R circular_mean_R frames a = Ok p.
Proof.
  intros Hd Ht Hz Hm. destruct (parsers_live _ _ _ _ Hd) as (N & x & I & D & vol & VI & VD & _ & NF & ->). destruct Hd as [_ _ _ _ _ _ Hs (S & S1 & Hlt)].
  rewrite <- (NF _ Ht) in Hm. set (T := kept _ _) in *.
  destruct (parser_init_sensible N T x I D _ _ (a_opts a) VI VD S Hlt) as (tis & F1 & F2 & (F3 & _) & ->).
  assert (B := bytes_bound (length I) T _ tis Hz F1).
  assert (B2 : Z.of_nat (length tis) * (Z.of_nat (length I) * Z.of_nat T * 3 * o_itemsize (a_opts a)) <= o_n_steps (a_opts a) * (Z.of_nat (length I) * Z.of_nat T * 3 * o_itemsize (a_opts a))).
  { apply Z.mul_le_mono_nonneg_r; [|lia]. repeat apply Z.mul_nonneg_nonneg; lia. }
  assert (E : Rltb (o_memory_limit (a_opts a)) (in_gigabytes (fold_right Z.add 0 (map (estimate (length I) T (o_itemsize (a_opts a))) tis))) = false).
  { apply Rltb_false. eapply Rle_trans; [|exact Hm]. unfold in_gigabytes. unfold Rdiv. apply Rmult_le_compat_r; [lra|]. apply IZR_le. lia. }
  destruct Hs as [-> | ->].
  - rewrite get_disps_multi' by assumption. rewrite E. cbn [bind]. eauto.
  - rewrite get_disps_single' by (first [assumption | eapply Forall_impl; [|exact F1]; cbn; lia]). rewrite E. cbn [bind]. eauto.
Qed.

(** What comes out. *)
Record outcome (i : interface) (frames : list (Frame R)) (types : list string) (a : ModelParser.Params R) (p : Parsed R) (N : nat) (x : nat -> nat -> V3 R) (I : list Z) (tis : list nat) : Prop := {
  out_followed : forall types', types_read i types types' a -> length I = followed types' a;
  out_some : I <> [];
  out_range : Forall (fun n => (0 < n <= kept (length frames) (Z.to_nat (a_sub_sample_traj a)))%nat) tis;
  out_sorted : StronglySorted le tis;
  out_tis : tis <> [];
  out_intervals : p_intervals p = map Z.of_nat tis;
  out_dt : length (p_delta_t p) = length tis;
  out_form : let T := kept (length frames) (Z.to_nat (a_sub_sample_traj a)) in
    let lst := Z.of_nat (last tis 0%nat) in
    (o_sampling (a_opts a) = "multi-origin"%string /\ p_disp_3d p = map (multi_window N T x I) (filter (enough (length I) T) tis)
      /\ p_n_o p = map (obs_count (length I) lst) (filter (enough (length I) T) tis))
    \/ (o_sampling (a_opts a) = "single-origin"%string /\ let ks := if Nat.ltb 1 (length I) then Nat.min (length tis) T else 0%nat in
        p_disp_3d p = tab ks (single_window N x I) /\ p_n_o p = map (obs_count (length I) lst) (firstn ks tis)) }.
Lemma outcome_of i frames types a p : documented i frames types a -> parser_by i geomspace_R circular_mean_R frames a = Ok p ->
  exists N x I tis, outcome i frames types a p N x I tis.
Proof.
  intros Hd H. destruct (parsers_live _ _ _ _ Hd) as (N & x & I & D & vol & VI & VD & NI & NF & E). rewrite E in H. clear E. destruct Hd as [_ _ _ _ _ _ Hs (S & S1 & Hlt)].
  set (T := kept _ _) in *.
  destruct (parser_init_sensible N T x I D _ _ (a_opts a) VI VD S Hlt) as (tis & F1 & F2 & (F3 & F4) & E). rewrite E in H. clear E.
  exists N, (corrected N x D), I, tis.
  assert (LD : length (delta_ts (pynum_val (a_time_step a)) (steps_by i a) tis) = length tis) by (unfold delta_ts; now rewrite map_length).
  destruct Hs as [Em|Em]; rewrite Em in H.
  - rewrite get_disps_multi' in H by assumption. destruct (Rltb _ _); [discriminate|]. cbn [bind fst snd] in H. injection H as <-.
    split; try assumption; try (now apply F4).
    + destruct i; reflexivity.
    + destruct i; cbn; rewrite ?map_length; exact LD.
    + cbv zeta. left. split; [exact Em|]. destruct i; split; reflexivity.
  - rewrite get_disps_single' in H by (first [assumption | eapply Forall_impl; [|exact F1]; cbn; lia]). destruct (Rltb _ _); [discriminate|]. cbn [bind fst snd] in H. injection H as <-.
    split; try assumption; try (now apply F4).
    + destruct i; reflexivity.
    + destruct i; cbn; rewrite ?map_length; exact LD.
    + cbv zeta. right. split; [exact Em|]. destruct i; split; reflexivity.
Qed.

Lemma enough_two N T m : (0 < m <= T)%nat -> (2 <= N)%nat -> enough N T m = true.
Proof. intros Hm HN. unfold enough. apply Nat.ltb_lt. pose proof (kept_pos (T - m + 1) m ltac:(lia) ltac:(lia)). nia. Qed.
Lemma enough_one T m : (0 < m <= T)%nat -> (enough 1 T m = true <-> (2 * m <= T)%nat).
Proof. intros Hm. unfold enough. rewrite Nat.ltb_lt, Nat.mul_1_l, kept_spec by lia. lia. Qed.
Lemma sorted_head m tis n : StronglySorted le (m :: tis) -> In n (m :: tis) -> (m <= n)%nat.
Proof. intros S [<-|H]; [lia|]. inversion S as [|? ? _ F]; subst. rewrite Forall_forall in F. now apply F. Qed.
Lemma C84_observations_proof i frames types types' a p : documented i frames types a -> types_read i types types' a ->
  parser_by i geomspace_R circular_mean_R frames a = Ok p ->
  (p_disp_3d p <> [] <-> (2 <= followed types' a)%nat
    \/ (o_sampling (a_opts a) = "multi-origin"%string /\ exists m rest, p_intervals p = m :: rest
        /\ 2 * m <= Z.of_nat (kept (length frames) (Z.to_nat (a_sub_sample_traj a))))).
Proof.
  intros Hd Ht H. destruct (outcome_of _ _ _ _ _ Hd H) as (N & x & I & tis & [NF NI F1 F2 F3 EI _ EF]). rewrite <- (NF _ Ht), EI. cbv zeta in EF. set (T := kept _ _) in *.
  assert (LI : (0 < length I)%nat) by (destruct I; [congruence|cbn; lia]).
  destruct tis as [|m tis]; [congruence|]. cbn [map]. inversion F1 as [|? ? Fm _]; subst.
  destruct EF as [(Em & -> & _)|(Em & ED)].
  - assert (EQ : map (multi_window N T x I) (filter (enough (length I) T) (m :: tis)) <> [] <-> exists n, In n (m :: tis) /\ enough (length I) T n = true).
    { split.
      - intros Hn. destruct (filter (enough (length I) T) (m :: tis)) as [|n l] eqn:E; [cbn in Hn; congruence|]. exists n. apply filter_In. rewrite E. now left.
      - intros (n & Hn). apply filter_In in Hn. destruct (filter _ _); [destruct Hn|discriminate]. }
    rewrite EQ. split.
    + intros (n & Hn & He). destruct (Nat.le_gt_cases 2 (length I)) as [L|L]; [now left|]. right. split; [exact Em|]. exists (Z.of_nat m), (map Z.of_nat tis). split; [reflexivity|].
      assert (length I = 1)%nat by lia. rewrite H0 in He. rewrite Forall_forall in F1. apply (enough_one T n (F1 n Hn)) in He. pose proof (sorted_head _ _ _ F2 Hn). lia.
    + intros [L|(_ & m' & rest & Er & L)].
      * exists m. split; [now left|]. now apply enough_two.
      * injection Er as <- _. exists m. split; [now left|]. destruct (Nat.le_gt_cases 2 (length I)) as [L2|L2]; [now apply enough_two|].
        assert (E1 : length I = 1%nat) by lia. rewrite E1. apply enough_one; [exact Fm|lia].
  - cbv zeta in ED. destruct ED as [-> _]. split.
    + intros Hn. left. destruct (Nat.ltb 1 (length I)) eqn:E; [apply Nat.ltb_lt in E; lia|]. now contradiction Hn.
    + intros [L|(Em' & _)]; [|congruence]. assert (E : Nat.ltb 1 (length I) = true) by (apply Nat.ltb_lt; lia). rewrite E. cbn [length].
      destruct (Nat.min (S (length tis)) T) eqn:Eq; [lia|]. rewrite tab_S. discriminate.
Qed.

(** ** The analysers *)
Definition falling {T} (P : T -> Prop) (l : list T) : Prop :=
  forall i j x y, (i <= j)%nat -> nth_error l i = Some x -> nth_error l j = Some y -> P y -> P x.
Lemma falling_stride {T} (P : T -> Prop) k (l l' : list T) : sub_sample k l l' -> falling P l -> falling P l'.
Proof. intros S H i j x y Hij Hx Hy. rewrite S in Hx, Hy. eapply H; [|exact Hx|exact Hy]. nia. Qed.
Lemma falling_firstn {T} (P : T -> Prop) k (l : list T) : falling P l -> falling P (firstn k l).
Proof.
  intros H i j x y Hij Hx Hy. rewrite <- (firstn_skipn k l) in H. eapply H; [exact Hij| |]; rewrite nth_error_app1; try assumption; apply nth_error_Some; congruence.
Qed.
Lemma falling_split {T} (P : T -> Prop) (l : list T) : (forall x, P x \/ ~ P x) -> falling P l ->
  exists good bad, l = (good ++ bad)%list /\ Forall P good /\ Forall (fun x => ~ P x) bad.
Proof.
  intros D. induction l as [|x l IH]; intros H; [now exists [], []|]. destruct (D x) as [Px|Nx].
  - destruct IH as (good & bad & -> & G & B).
    { intros i j a b Hij Ha Hb. apply (H (S i) (S j)); [lia|exact Ha|exact Hb]. }
    exists (x :: good), bad. repeat split; auto.
  - exists [], (x :: l). split; [reflexivity|]. split; [constructor|]. constructor; [exact Nx|]. apply Forall_forall. intros y Hy Py.
    apply In_nth_error in Hy as (j & Hj). apply Nx. apply (H 0%nat (S j) x y); [lia|reflexivity|exact Hj|exact Py].
Qed.
Section Analysers.
  Context {G Seed RS : Type} (X : Ext R G Seed RS).
  Hypothesis HX : draws_in_range X.
  Lemma loop_live u quantity (ns : R -> nat -> R) n_o dts sl Qf axes : slice_axes sl axes ->
    forall good bad i b (g : G), b_delta_t b = dts -> b_slice b = sl -> length (b_v b) = i ->
    (forall d, In d good -> quantity d (map (map (fun v => map (coord v) axes)) (a_rows d)) = Ok (Qf d) /\ (1 < length (Qf d))%nat
       /\ forall no, In no n_o -> (1 <= ns no (length (a_rows d)))%R) ->
    (forall d, In d bad -> quantity d (map (map (fun v => map (coord v) axes)) (a_rows d)) = Ok (Qf d) /\ (length (Qf d) <= 1)%nat) ->
    (i + length good <= length dts)%nat -> (i + length good <= length n_o)%nat ->
    exists b' g', boot_loop X u quantity ns n_o i (good ++ bad)%list b g = Ok (b', g').
  Proof.
    intros Hsl. induction good as [|d good IH]; intros bad i b g Hd Hs Hv HQ HB L1 L2.
    - cbn [app]. clear Hv L1 L2. revert i. induction bad as [|d bad IH]; intros i; [do 2 eexists; reflexivity|]. cbn [boot_loop]. unfold boot_step.
      rewrite Hs, (disp_slice_axes sl axes d Hsl). cbn [bind]. destruct (HB d (or_introl eq_refl)) as [Q1 Q2]. rewrite Q1. cbn [bind].
      destruct (length (Qf d) <=? 1)%nat eqn:E; [|apply Nat.leb_gt in E; lia]. cbn [bind]. apply IH. intros d' Hd'. apply HB. now right.
    - cbn [length app] in *. cbn [boot_loop]. destruct (HQ d (or_introl eq_refl)) as (Q1 & Q2 & Q3).
      assert (N : exists no, nth_error n_o i = Some no).
      { destruct (nth_error n_o i) eqn:En; [eauto|]. apply nth_error_None in En. lia. }
      destruct N as (no & N).
      assert (M : exists dt, nth_error dts i = Some dt).
      { destruct (nth_error dts i) eqn:En; [eauto|]. apply nth_error_None in En. lia. }
      destruct M as (dt & M).
      assert (E : exists b' g', boot_step X u quantity ns n_o i d b g = Ok (b', g')
                  /\ b_delta_t b' = dts /\ b_slice b' = sl /\ length (b_v b') = S i).
      { unfold boot_step. rewrite Hs, (disp_slice_axes sl axes d Hsl). cbn [bind]. rewrite Q1. cbn [bind].
        destruct (length (Qf d) <=? 1)%nat eqn:E; [apply Nat.leb_le in E; lia|]. rewrite !py_index_nat, N. cbn [opt_res bind].
        assert (BT : exists boot g', (if u_bootstrap u then
             match sample_until_normal X g (Qf d) (ns no (length (a_rows d))) (u_n_resamples u) (u_max_resamples u) (u_alpha u) with
             | None => Raise RuntimeError | Some (Raise e) => Raise e
             | Some (Ok (distro, _, g')) => Ok (Some (distro, nmean distro, nvar distro, x_sqrt X (nvar distro)), g') end
           else Ok (None, g)) = Ok (boot, g')).
        { destruct (u_bootstrap u); [|do 2 eexists; reflexivity].
          destruct (sample_total X HX g (Qf d) (ns no (length (a_rows d))) (u_n_resamples u) (u_max_resamples u) (u_alpha u)) as (v & w & g' & ->).
          - destruct (Qf d); [cbn in Q2; lia|discriminate].
          - apply Q3. eapply nth_error_In; eauto.
          - do 2 eexists. reflexivity. }
        destruct BT as (boot & g' & ->). cbn [bind].
        destruct (u_block u).
        - destruct (x_reblock X (Qf d)) as [mn se]. cbn [bind]. rewrite !py_index_nat.
          rewrite nth_app_end' by congruence. cbn [opt_res bind]. rewrite Hd, M. cbn [opt_res bind].
          do 2 eexists. split; [reflexivity|]. cbn. rewrite app_length. cbn. split; [exact Hd|]. split; [exact Hs|]. lia.
        - rewrite ?py_index_nat. cbn [opt_res bind].
          rewrite ?py_index_nat, nth_app_end' by congruence. cbn [opt_res bind]. rewrite Hd, M. cbn [opt_res bind].
          do 2 eexists. split; [reflexivity|]. cbn. rewrite app_length. cbn. split; [exact Hd|]. split; [exact Hs|]. lia. }
      destruct E as (b' & g' & E & D1 & D2 & D3). rewrite E. cbn [bind].
      apply (IH bad (S i) b' g' D1 D2 D3); [|exact HB|lia|lia]. intros d' Hd'. apply HQ. now right.
  Qed.
  Record analysable (dts n_o : list R) (disps : list (Arr R)) (natoms : nat) : Prop := {
    ay_some : disps <> [];
    ay_natoms : (0 < natoms)%nat;
    ay_wf : Forall arr_wf disps;
    ay_rows : Forall (fun d => length (a_rows d) = natoms) disps;
    ay_entries : Forall (fun d => 1 < length (entries d))%nat disps;
    ay_falling : falling (fun d => 1 < a_obs d)%nat disps;
    ay_dts : (length disps <= length dts)%nat;
    ay_no : (length disps <= length n_o)%nat;
    ay_count : Forall (fun no => INR natoms <= no)%R n_o }.
  Lemma three_live dts n_o disps natoms u axes : analysable dts n_o disps natoms -> 0 < u_sub_sample_dt u -> names (pystr_text (u_dimension u)) axes -> forall g : G,
    (exists b g', msd_bootstrap X u dts disps n_o g = Ok (b, g'))
    /\ (exists b g', mstd_bootstrap X u dts disps n_o g = Ok (b, g'))
    /\ forall q, (forall l, q = QArray l -> length l = natoms) -> exists b g', mscd_bootstrap X u dts disps q n_o g = Ok (b, g').
  Proof.
    intros [Hd HN Hwf Hr HE HF L1 L2 HC] Hk Hn g.
    destruct (bootstrap_init_total dts disps n_o _ _ axes Hk Hd Hn) as (b0 & E0).
    destruct (bootstrap_init_ok _ _ _ _ _ _ E0) as (axes' & N1 & N2 & N3 & N4 & N5 & N6 & d0 & N7 & _).
    assert (axes' = axes) by (eapply names_unique; eauto). subst axes'.
    assert (S1 := stride_sub _ _ _ Hk N4). assert (S2 := stride_sub _ _ _ Hk N5).
    assert (LL := sub_sample_length (Z.to_nat (u_sub_sample_dt u)) _ _ ltac:(lia) S1). assert (LM := sub_sample_le _ _ _ _ _ L1 S1 S2).
    assert (LH := first_half_length (b_displacements b0)).
    assert (Hdec : forall d : Arr R, (1 < a_obs d)%nat \/ ~ (1 < a_obs d)%nat) by (intros d; lia).
    destruct (falling_split _ _ Hdec (falling_firstn _ (Nat.div (length (b_displacements b0)) 2) _ (falling_stride _ _ _ _ S1 HF))) as (good & bad & Egb & Fg & Fb).
    change (first_half (b_displacements b0) = (good ++ bad)%list) in Egb.
    assert (LG : (length good <= length (first_half (b_displacements b0)))%nat) by (rewrite Egb, app_length; lia).
    assert (Ig : forall d, In d good -> In d disps).
    { intros d Hin. eapply sub_sample_In; [exact S1|]. apply first_half_In. rewrite Egb. apply in_or_app. now left. }
    assert (Ib : forall d, In d bad -> In d disps).
    { intros d Hin. eapply sub_sample_In; [exact S1|]. apply first_half_In. rewrite Egb. apply in_or_app. now right. }
    rewrite Forall_forall in Hwf, Hr, HE, HC, Fg, Fb.
    assert (HN' : (1 <= INR natoms)%R) by (apply (le_INR 1); lia).
    assert (HC' : forall no d, In d disps -> In no n_o -> (1 <= ndiv no (nofnat (length (a_rows d))))%R).
    { intros no d Hin Hno. rewrite (Hr d Hin), nofnat_R. numR. specialize (HC no Hno). apply (Rmult_le_reg_r (INR natoms)); [lra|].
      unfold Rdiv. rewrite Rmult_assoc, Rinv_l by lra. lra. }
    split; [|split].
    - destruct (loop_live u (fun _ ds => Ok (d_squared ds)) (fun no _ => no) n_o (b_delta_t b0) (b_slice b0) (msd_values axes) axes N2
                  (b_displacements b0) [] 0%nat b0 g eq_refl eq_refl) as (b1 & g1 & E1).
      + now rewrite N6.
      + intros d Hin. rewrite d_squared_axes. split; [reflexivity|]. unfold msd_values. rewrite map_length.
        assert (Hin' : In d disps) by (eapply sub_sample_In; eauto). split; [now apply HE|]. intros no Hno. specialize (HC no Hno). lra.
      + intros d [].
      + lia.
      + lia.
      + unfold msd_bootstrap. rewrite E0. cbn [bind]. rewrite app_nil_r in E1. rewrite E1. cbn [bind]. eauto.
    - destruct (loop_live u (fun d ds => Ok (coll_motion (a_obs d) (b_dims b0) ds)) (fun no n => ndiv no (nofnat n)) n_o (b_delta_t b0) (b_slice b0)
                  (mstd_values axes) axes N2 good bad 0%nat b0 g eq_refl eq_refl) as (b1 & g1 & E1).
      + now rewrite N6.
      + intros d Hin. rewrite N3, coll_motion_axes by (apply Hwf; auto). split; [reflexivity|].
        change (mstd_values axes d) with (tab (a_obs d) (fun t => sqlen axes (sum3 (at_time d t)))); rewrite tab_length. split; [now apply Fg|].
        intros no Hno. apply HC'; auto.
      + intros d Hin. rewrite N3, coll_motion_axes by (apply Hwf; auto). split; [reflexivity|].
        change (mstd_values axes d) with (tab (a_obs d) (fun t => sqlen axes (sum3 (at_time d t)))); rewrite tab_length. specialize (Fb d Hin). lia.
      + lia.
      + lia.
      + unfold mstd_bootstrap. rewrite E0. cbn [bind]. rewrite Egb. rewrite E1. cbn [bind]. eauto.
    - intros q Hq.
      assert (QS : forall d, In d disps -> sq_chg_motion (charges q natoms) d = Ok (mscd_values (charges q natoms) d)).
      { intros d Hin. apply sq_chg_motion_axes; [|now apply Hwf]. rewrite (Hr d Hin). destruct q as [c|l]; cbn; [apply repeat_length|]. now apply Hq. }
      destruct (loop_live u (fun d (_ : list (list (list R))) => sq_chg_motion (charges q natoms) d) (fun no n => ndiv no (nofnat n)) n_o (b_delta_t b0) (b_slice b0)
                  (mscd_values (charges q natoms)) axes N2 good bad 0%nat b0 g eq_refl eq_refl) as (b1 & g1 & E1).
      + now rewrite N6.
      + intros d Hin. split; [now apply QS, Ig|]. unfold mscd_values. rewrite tab_length. split; [now apply Fg|]. intros no Hno. apply HC'; auto.
      + intros d Hin. split; [now apply QS, Ib|]. unfold mscd_values. rewrite tab_length. specialize (Fb d Hin). lia.
      + lia.
      + lia.
      + unfold mscd_bootstrap. rewrite E0. cbn [bind]. change 0 with (Z.of_nat 0). rewrite py_index_nat, N7. cbn [opt_res bind].
        rewrite charge_array_R. assert (Hd0 : length (a_rows d0) = natoms).
        { apply Hr. eapply sub_sample_In; [exact S1|]. eapply nth_error_In; eauto. }
        rewrite Hd0, Egb, E1. cbn [bind]. eauto.
  Qed.

  Lemma last_largest tis n : StronglySorted le tis -> In n tis -> (n <= last tis 0)%nat.
  Proof.
    intros S. induction S as [|m tis S IH F]; [intros []|]. intros [<-|H].
    - destruct tis as [|t tis]; [cbn; lia|]. rewrite Forall_forall in F. apply F. change (last (m :: t :: tis) 0%nat) with (last (t :: tis) 0%nat).
      destruct (@exists_last _ (t :: tis) ltac:(discriminate)) as (l & z & ->). rewrite last_last. apply in_or_app. right. now left.
    - destruct tis as [|t tis]; [destruct H|]. change (last (m :: t :: tis) 0%nat) with (last (t :: tis) 0%nat). now apply IH.
  Qed.
  Lemma count_large N tis n : (0 < n)%nat -> StronglySorted le tis -> In n tis -> (INR N <= obs_count N (Z.of_nat (last tis 0%nat)) n)%R.
  Proof.
    intros Hn S Hin. unfold obs_count. rewrite <- INR_IZR_INZ. apply last_largest in Hin; [|exact S]. apply le_INR in Hin. apply lt_0_INR in Hn.
    pose proof (pos_INR N). apply (Rmult_le_reg_r (INR n)); [lra|]. unfold Rdiv. rewrite !Rmult_assoc, Rinv_l by lra. rewrite Rmult_1_r. now apply Rmult_le_compat_l.
  Qed.
  Lemma length_entries (d : Arr R) natoms : arr_wf d -> length (a_rows d) = natoms -> length (entries d) = (natoms * a_obs d)%nat.
  Proof.
    unfold arr_wf, entries. intros W <-. induction W as [|r l Hr _ IH]; [reflexivity|]. cbn [List.concat length]. rewrite app_length, IH, Hr. lia.
  Qed.
  Lemma live_analysable i frames types types' a p : documented i frames types a -> types_read i types types' a -> parser_by i geomspace_R circular_mean_R frames a = Ok p ->
    p_disp_3d p <> [] -> analysable (p_delta_t p) (p_n_o p) (p_disp_3d p) (followed types' a).
  Proof.
    intros Hd Ht H Hne. destruct (outcome_of _ _ _ _ _ Hd H) as (N & x & I & tis & [NF NI F1 F2 F3 EI ED EF]). rewrite <- (NF _ Ht). cbv zeta in EF. set (T := kept _ _) in *.
    assert (LI : (0 < length I)%nat) by (destruct I; [congruence|cbn; lia]). rewrite Forall_forall in F1.
    destruct EF as [(Em & EP & EN)|(Em & EP & EN)].
    - assert (FP : filter (enough (length I) T) tis = firstn (length (filter (enough (length I) T) tis)) tis).
      { apply enough_prefix; [exact F2|]. apply Forall_forall. intros n Hn. specialize (F1 n Hn). lia. }
      assert (LF : (length (filter (enough (length I) T) tis) <= length tis)%nat) by (rewrite FP, firstn_length; lia).
      set (ks := filter (enough (length I) T) tis) in *.
      assert (KI : forall n, In n ks -> In n tis /\ enough (length I) T n = true) by (intros n Hn; now apply filter_In in Hn).
      assert (W : forall n, arr_wf (multi_window N T x I n)).
      { intros n. unfold arr_wf, multi_window. cbn [a_rows a_obs]. apply Forall_forall. intros r Hr. apply in_map_iff in Hr as (j & <- & _). apply tab_length. }
      split; try assumption; rewrite ?EP, ?EN.
      + apply Forall_forall. intros d Hin. apply in_map_iff in Hin as (n & <- & _). apply W.
      + apply Forall_forall. intros d Hin. apply in_map_iff in Hin as (n & <- & _). apply map_length.
      + apply Forall_forall. intros d Hin. apply in_map_iff in Hin as (n & <- & Hn). rewrite (length_entries _ (length I)) by (first [apply W | apply map_length]).
        cbn [multi_window a_obs]. apply KI in Hn as [Hn He]. unfold enough in He. apply Nat.ltb_lt in He. specialize (F1 n Hn).
        assert (kept (T - n + 1) n <= T - n + 1)%nat; [|nia]. destruct (Nat.le_gt_cases (kept (T - n + 1) n) (T - n + 1)) as [|C]; [assumption|].
        apply kept_spec in C; [|lia]. nia.
      + intros j1 j2 d1 d2 Hj H1 H2. rewrite nth_error_map in H1, H2. destruct (nth_error ks j1) as [n1|] eqn:G1; [|discriminate]. destruct (nth_error ks j2) as [n2|] eqn:G2; [|discriminate].
        injection H1 as <-. injection H2 as <-. cbn [multi_window a_obs].
        assert (n1 <= n2)%nat; [|lia]. assert (J1 : nth_error tis j1 = Some n1).
        { rewrite FP in G1. rewrite <- (firstn_skipn (length ks) tis). rewrite nth_error_app1; [exact G1|apply nth_error_Some; congruence]. }
        assert (J2 : nth_error tis j2 = Some n2).
        { rewrite FP in G2. rewrite <- (firstn_skipn (length ks) tis). rewrite nth_error_app1; [exact G2|apply nth_error_Some; congruence]. }
        clear -F2 Hj J1 J2. revert j1 j2 Hj J1 J2. induction F2 as [|m tis S IH F]; intros j1 j2 Hj J1 J2; [destruct j1; discriminate|].
        destruct j1 as [|j1], j2 as [|j2]; cbn in *.
        * injection J1 as ->. injection J2 as ->. lia.
        * injection J1 as ->. rewrite Forall_forall in F. apply F. eapply nth_error_In; eauto.
        * lia.
        * apply (IH j1 j2); auto. lia.
      + rewrite map_length, ED. exact LF.
      + rewrite !map_length. lia.
      + apply Forall_forall. intros no Hno. apply in_map_iff in Hno as (n & <- & Hn). apply KI in Hn as [Hn _]. apply count_large; auto. specialize (F1 n Hn). lia.
    - set (ks := if Nat.ltb 1 (length I) then Nat.min (length tis) T else 0%nat) in *.
      assert (L1 : (1 < length I)%nat).
      { destruct (Nat.ltb 1 (length I)) eqn:E; [now apply Nat.ltb_lt in E|]. rewrite EP in Hne. now contradiction Hne. }
      assert (K : (ks <= length tis)%nat) by (unfold ks; destruct (Nat.ltb 1 _); lia).
      assert (W : forall n, arr_wf (single_window N x I n)).
      { intros n. unfold arr_wf, single_window. cbn [a_rows a_obs]. apply Forall_forall. intros r Hr. apply in_map_iff in Hr as (j & <- & _). reflexivity. }
      assert (TI : forall d, In d (tab ks (single_window N x I)) -> exists n, d = single_window N x I n).
      { intros d Hin. unfold tab in Hin. apply in_map_iff in Hin as (n & <- & _). eauto. }
      split; try assumption; rewrite ?EP, ?EN.
      + apply Forall_forall. intros d Hin. apply TI in Hin as (n & ->). apply W.
      + apply Forall_forall. intros d Hin. apply TI in Hin as (n & ->). apply map_length.
      + apply Forall_forall. intros d Hin. apply TI in Hin as (n & ->). rewrite (length_entries _ (length I)) by (first [apply W | apply map_length]). cbn [single_window a_obs]. lia.
      + intros j1 j2 d1 d2 _ H1 H2. apply nth_error_In, TI in H1 as (n1 & ->). apply nth_error_In, TI in H2 as (n2 & ->). auto.
      + rewrite tab_length, ED. exact K.
      + rewrite tab_length, map_length, firstn_length. lia.
      + apply Forall_forall. intros no Hno. apply in_map_iff in Hno as (n & <- & Hn). assert (In n tis) by (rewrite <- (firstn_skipn ks tis); apply in_or_app; now left).
        apply count_large; auto. specialize (F1 n H0). lia.
  Qed.
  Lemma C84_analysers_proof i frames types types' a p u axes : documented i frames types a -> types_read i types types' a ->
    parser_by i geomspace_R circular_mean_R frames a = Ok p -> p_disp_3d p <> [] -> 0 < u_sub_sample_dt u -> names (pystr_text (u_dimension u)) axes -> forall g : G,
    (exists r, diffusion_analyzer X (of_parsed p) u g = Ok r) /\ (exists r, jump_diffusion_analyzer X (of_parsed p) u g = Ok r)
    /\ forall q, (forall l, q = QArray l -> length l = followed types' a) -> exists r, conductivity_analyzer X (of_parsed p) q u g = Ok r.
  Proof.
    intros Hd Ht H Hne Hk Hn g. destruct (three_live _ _ _ _ u axes (live_analysable _ _ _ _ _ _ Hd Ht H Hne) Hk Hn g) as ((b1 & g1 & E1) & (b2 & g2 & E2) & E3).
    unfold diffusion_analyzer, jump_diffusion_analyzer, conductivity_analyzer. cbn [of_parsed an_delta_t an_disp_3d an_n_o]. rewrite E1, E2. cbn [bind].
    split; [eauto|]. split; [eauto|]. intros q Hq. destruct (E3 q Hq) as (b3 & g3 & ->). cbn [bind]. eauto.
  Qed.
End Analysers.
(** Without observations nothing can be analysed. *)
Lemma C84_nothing_proof G Seed RS (X : Ext R G Seed RS) d q u (g : G) : an_disp_3d d = [] -> 0 < u_sub_sample_dt u ->
  diffusion_analyzer X d u g = Raise IndexError /\ jump_diffusion_analyzer X d u g = Raise IndexError /\ conductivity_analyzer X d q u g = Raise IndexError.
Proof.
  intros E Hk.
  assert (B : bootstrap_init (an_delta_t d) (an_disp_3d d) (an_n_o d) (u_sub_sample_dt u) (u_dimension u) = Raise IndexError).
  { rewrite E. unfold bootstrap_init, py_stride. destruct (_ =? 0) eqn:E1; [apply Z.eqb_eq in E1; lia|]. destruct (0 <? _) eqn:E2; [|apply Z.ltb_ge in E2; lia]. reflexivity. }
  unfold diffusion_analyzer, jump_diffusion_analyzer, conductivity_analyzer, msd_bootstrap, mstd_bootstrap, mscd_bootstrap. rewrite B. auto.
Qed.
(** ** Examples *)
Lemma hop_documented i n lo hi mem : (0 < n)%nat -> (1 <= lo)%R -> (lo <= hi <= INR n)%R -> (lo < INR n)%R ->
  documented i (hop_frames n) ["Li"; "O"]%string (hop_params 1 (PyFloat 1%R) (mkOptions (Some lo) (Some hi) 2 "linear" "multi-origin" mem 8)).
Proof.
  intros Hn H1 H2 H3. split; cbn [hop_params a_sub_sample_traj a_sub_sample_atoms a_specie_indices a_time_step a_opts o_sampling a_step_skip pynum_val].
  - unfold hop_frames, frames_of. destruct n; [lia|]. rewrite tab_S. discriminate.
  - apply Forall_forall. intros f Hf. unfold hop_frames, frames_of, tab in Hf. apply in_map_iff in Hf as (j & <- & _). cbn [f_types f_pos f_cell].
    split; [reflexivity|]. split; [reflexivity|]. exact unit_cell_volume.
  - lia.
  - lia.
  - exists ["Li"; "O"]%string. split; [|split].
    + unfold types_read. destruct i; intros j; cbn [atom_stride hop_params a_sub_sample_atoms]; change (Z.to_nat 1) with 1%nat; now rewrite Nat.mul_1_r.
    + apply (by_species _ _ ["Li"%string] "Li"); [reflexivity|now left|now left|]. intros l. discriminate.
    + intros _ C. now contradiction C.
  - intros _. now exists 1%R.
  - now left.
  - cbv zeta. change (Z.to_nat 1) with 1%nat. unfold hop_frames, frames_of. rewrite tab_length, kept_one.
    assert (U : (IZR (steps_by i (hop_params 1 (PyFloat 1%R) (mkOptions (Some lo) (Some hi) 2 "linear" "multi-origin" mem 8))) * 1 = 1)%R) by (destruct i; cbn; lra).
    rewrite U. split; [|split; [cbn; lia|]].
    + split; unfold min_time, max_time; cbn [o_min_dt o_max_dt o_n_steps o_spacing]; try lra; try lia. now left.
    + unfold min_time. cbn [o_min_dt]. lra.
Qed.
Lemma C84_refuted_proof : exists frames types a p, documented Ase frames types a /\ parser_by Ase geomspace_R circular_mean_R frames a = Ok p
  /\ forall G Seed RS (X : Ext R G Seed RS) q u (g : G), 0 < u_sub_sample_dt u ->
     diffusion_analyzer X (of_parsed p) u g = Raise IndexError /\ jump_diffusion_analyzer X (of_parsed p) u g = Raise IndexError
     /\ conductivity_analyzer X (of_parsed p) q u g = Raise IndexError.
Proof.
  exists (hop_frames 3), ["Li"; "O"]%string, (hop_params 1 (PyFloat 1%R) (mkOptions (Some 2%R) (Some 3%R) 2 "linear" "multi-origin" 8%R 8)).
  assert (D : documented Ase (hop_frames 3) ["Li"; "O"]%string (hop_params 1 (PyFloat 1%R) (mkOptions (Some 2%R) (Some 3%R) 2 "linear" "multi-origin" 8%R 8))).
  { apply hop_documented; [lia|lra|cbn; lra|cbn; lra]. }
  assert (TR : types_read Ase ["Li"; "O"]%string ["Li"; "O"]%string (hop_params 1 (PyFloat 1%R) (mkOptions (Some 2%R) (Some 3%R) 2 "linear" "multi-origin" 8%R 8))).
  { intros j. change (Z.to_nat _) with 1%nat. now rewrite Nat.mul_1_r. }
  destruct (C84_memory_proof _ _ _ _ _ D TR) as (p & E).
  { cbn. lia. }
  { unfold in_gigabytes. match goal with |- (IZR ?z / _ <= _)%R => replace z with 144 by reflexivity end. cbn [hop_params a_opts o_memory_limit]. lra. }
  exists p. split; [exact D|]. split; [exact E|]. intros G Seed RS X q u g Hu. apply C84_nothing_proof; [|exact Hu].
  cbn [of_parsed an_disp_3d].
  cbn [parser_by] in E. unfold hop_frames in E.
  rewrite (ase_run geomspace_R _ unit_cell _ _ 3 2 1 hop _ ["Li"%string] [0] [1]) in E
    by (first [exact unit_cell_volume | apply hop_small; lia | lia | reflexivity]).
  cbn [hop_params a_time_step pynum_val a_step_skip a_opts] in E. rewrite kept_one in E.
  rewrite (parser_init_ints geomspace_R 2 3 _ [0] [1] 2 3 2 "multi-origin" 8 8) in E by (first [repeat constructor; cbn; lia | lia]).
  change (tab _ (lin _ 3 _)) with (map Z.of_nat [2;3]%nat) in E.
  rewrite get_disps_multi' in E by (repeat constructor; cbn; lia).
  destruct (Rltb _ _); [discriminate|]. cbn [bind] in E. injection E as <-. reflexivity.
Qed.
Lemma C84_example_proof : forall G Seed RS (X : Ext R G Seed RS) g, draws_in_range X -> exists p,
  documented Pymatgen (hop_frames 4) ["Li"; "O"]%string (hop_params 1 (PyFloat 1%R) (mkOptions (Some 1%R) (Some 4%R) 2 "linear" "multi-origin" 8%R 8))
  /\ parser_by Pymatgen geomspace_R circular_mean_R (hop_frames 4) (hop_params 1 (PyFloat 1%R) (mkOptions (Some 1%R) (Some 4%R) 2 "linear" "multi-origin" 8%R 8)) = Ok p
  /\ exists r, diffusion_analyzer X (of_parsed p) (mkBootParams 1 true false 1000 1500 (PyStr "xyz") 0.001%R) g = Ok r.
Proof.
  intros G Seed RS X g HX.
  assert (D : documented Pymatgen (hop_frames 4) ["Li"; "O"]%string (hop_params 1 (PyFloat 1%R) (mkOptions (Some 1%R) (Some 4%R) 2 "linear" "multi-origin" 8%R 8))).
  { apply hop_documented; [lia|lra|cbn; lra|cbn; lra]. }
  assert (TR : types_read Pymatgen ["Li"; "O"]%string ["Li"; "O"]%string (hop_params 1 (PyFloat 1%R) (mkOptions (Some 1%R) (Some 4%R) 2 "linear" "multi-origin" 8%R 8))).
  { intros j. change (Z.to_nat _) with 1%nat. now rewrite Nat.mul_1_r. }
  destruct (C84_memory_proof _ _ _ _ _ D TR) as (p & E).
  { cbn. lia. }
  { unfold in_gigabytes. match goal with |- (IZR ?z / _ <= _)%R => replace z with 192 by reflexivity end. cbn [hop_params a_opts o_memory_limit]. lra. }
  exists p. split; [exact D|]. split; [exact E|].
  destruct (C84_analysers_proof X HX _ _ _ _ _ _ (mkBootParams 1 true false 1000 1500 (PyStr "xyz") 0.001%R) all_axes D TR E) with (g := g) as (R1 & _); [|reflexivity|exact names_xyz|exact R1].
  apply (C84_observations_proof _ _ _ _ _ _ D TR E). right. split; [reflexivity|].
  destruct (outcome_of _ _ _ _ _ D E) as (N & x & I & tis & O).
  cbn [parser_by] in E. destruct (parsers_live _ _ _ _ D) as (N' & x' & I' & D' & vol & VI & VD & _ & _ & E'). cbn [parser_by] in E'. rewrite E' in E.
  change (kept (length (hop_frames 4)) (Z.to_nat _)) with 4%nat in *.
  cbn [hop_params a_time_step pynum_val a_step_skip a_opts steps_by a_sub_sample_traj] in E. change (1 * 1) with 1 in E.
  rewrite (parser_init_ints geomspace_R N' 4 _ I' D' 1 4 2 "multi-origin" 8 8) in E by (first [assumption | lia]).
  change (tab _ (lin _ 4 _)) with (map Z.of_nat [1;4]%nat) in E.
  rewrite get_disps_multi' in E by (first [assumption | repeat constructor; cbn; lia]).
  destruct (Rltb _ _); [discriminate|]. cbn [bind] in E. injection E as <-. exists 1, [4]. split; [reflexivity|]. cbn. lia.
Qed.
(** A selection of two molecules with a framework. *)
Lemma molecules_selected : selects ["H"; "O"; "H"; "O"; "Li"]%string (mkParams None (PyFloat 1%R) 1 1 1 (mkOptions None None 2 "linear" "multi-origin" 8%R 8) (SIMol [[1; 2]; [3; 4]]) (Some [1; 16]%R) (PyList [5])).
Proof.
  apply (by_molecules _ _ [[1; 2]; [3; 4]] 2); try reflexivity; try discriminate; try lia.
  - repeat first [apply Forall_nil | apply Forall_cons]; (split; [reflexivity|]); repeat first [apply Forall_nil | apply Forall_cons]; unfold valid_site; cbn; lia.
  - cbn. intros w E. injection E as <-. split; [reflexivity|]. cbn. lra.
  - cbn. intros f E. injection E as <-. split; [discriminate|]. repeat first [apply Forall_nil | apply Forall_cons]. unfold valid_site; cbn; lia.
Qed.
