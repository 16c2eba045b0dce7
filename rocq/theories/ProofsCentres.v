(** * ProofsCentres: molecules followed as if they were atoms (C95) *)
From Verif Require Import Base Spec SpecParser SpecStats SpecMol SpecAnalyzer ModelParser ModelDiffusion ModelHdf ModelAnalyzer
  Lemmas ProofsDisp ProofsIntervals ProofsWindows ProofsParser ProofsTraj ProofsBoot ProofsStats ProofsStats2 ProofsFit ProofsFit2 ProofsShape ProofsAnalyzer SpecGrid ProofsGrid SpecPool ProofsCollective ProofsPool ProofsMol ProofsMolTraj
  SpecRun SpecSym ProofsSym SpecInterfaces ProofsInterfaces SpecTrue ProofsTrue SpecColl ProofsColl ProofsChain SpecStable ProofsStable SpecCentres.
From Coq Require Import Reals Lra Lia Sorting.Sorted.
Open Scope Z_scope.

(** ** Reading *)
Lemma cartesian_frames cell types vol n natoms (y : nat -> nat -> V3 R) :
  frames_of types vol n natoms (fun f b => cart cell (y f b)) (fun _ => cell) = map cartesian (frames_of types vol n natoms y (fun _ => cell)).
Proof.
  unfold frames_of, tab. rewrite map_map. apply map_ext. intros f. unfold cartesian. cbn [f_types f_pos f_cell f_volume]. now rewrite map_map.
Qed.
Lemma frames_proper cell types vol n natoms (y : nat -> nat -> V3 R) : cell_volume cell <> 0%R -> proper_cells (frames_of types vol n natoms y (fun _ => cell)).
Proof.
  intros H. unfold proper_cells, frames_of. apply Forall_forall. intros f I. unfold tab in I. apply in_map_iff in I as (j & <- & _). exact H.
Qed.
(** All three parsers read fractional coordinates and finish alike. *)
Lemma parse_as i circ cell types vol n natoms (y : nat -> nat -> V3 R) (a : Params R) k p :
  cell_volume cell <> 0%R -> a_sub_sample_traj a = Z.of_nat k -> (i = MDAnalysis -> a_specie_indices a <> SINone) ->
  parser_by i geomspace_R circ (handed_over i cell types vol n natoms y) a = Ok p ->
  (i = MDAnalysis -> a_sub_sample_atoms a = 1) /\ (i = Pymatgen -> exists t, a_time_step a = PyFloat t)
  /\ exists st coords latt q, get_structure_coords_latt (frames_of types vol n natoms y (fun _ => cell)) (Z.of_nat k) = Ok (st, coords, latt)
    /\ finish_parse geomspace_R circ st coords latt a (steps_by i a) = Ok q /\ p = stamped i q.
Proof.
  intros Hc Ek Hn H. destruct i; cbn [parser_by handed_over steps_by stamped] in *.
  - split; [discriminate|]. split; [discriminate|]. unfold ase_parser in H. rewrite Ek in H. inv_bind H r E. destruct r as [[st coords] latt].
    exists st, coords, latt, p. auto.
  - split; [discriminate|]. unfold pymatgen_parser in H. rewrite Ek in H. inv_bind H r E. destruct r as [[st coords] latt]. inv_bind H q E2.
    destruct (a_time_step a) as [z|t] eqn:Et; [discriminate|]. injection H as <-. split; [eexists; reflexivity|]. rewrite Ek. exists st, coords, latt, q. auto.
  - unfold mda_parser in H. inv_bind H u E0. destruct u. apply guard_ok in E0.
    assert (Ea : a_sub_sample_atoms a = 1).
    { specialize (Hn eq_refl). destruct (a_specie_indices a); try contradiction; rewrite orb_false_r in E0; now apply Z.eqb_eq in E0. }
    split; [auto|]. split; [discriminate|]. rewrite Ea, Ek, cartesian_frames, read_cartesian in H by now apply frames_proper.
    inv_bind H r E. destruct r as [[st coords] latt]. exists st, coords, latt, p. rewrite Ek. auto.
Qed.
Lemma parse_back i circ cell types vol n natoms (y : nat -> nat -> V3 R) (a : Params R) k st coords latt q :
  cell_volume cell <> 0%R -> a_sub_sample_traj a = Z.of_nat k -> a_sub_sample_atoms a = 1 -> (i = Pymatgen -> exists t, a_time_step a = PyFloat t) ->
  get_structure_coords_latt (frames_of types vol n natoms y (fun _ => cell)) (Z.of_nat k) = Ok (st, coords, latt) ->
  finish_parse geomspace_R circ st coords latt a (steps_by i a) = Ok q ->
  parser_by i geomspace_R circ (handed_over i cell types vol n natoms y) a = Ok (stamped i q).
Proof.
  intros Hc Ek Ea Hp E F. destruct i; cbn [parser_by handed_over steps_by stamped] in *.
  - unfold ase_parser. rewrite Ek, E. cbn [bind]. exact F.
  - unfold pymatgen_parser. rewrite Ek, E. cbn [bind]. rewrite Ek in F. rewrite F. cbn [bind]. destruct (Hp eq_refl) as (t & ->). reflexivity.
  - unfold mda_parser. rewrite Ea. cbn [Z.eqb Pos.eqb orb guard bind]. rewrite Ek, cartesian_frames, read_cartesian by now apply frames_proper.
    rewrite E. cbn [bind]. rewrite Ek in F. exact F.
Qed.

Lemma numbers_sorted n m : StronglySorted Z.lt (map Z.of_nat (seq n m)).
Proof.
  revert n. induction m as [|m IH]; intros n; cbn; constructor; [apply IH|]. apply Forall_forall. intros z Z. apply in_map_iff in Z as (j & <- & J). apply in_seq in J. lia.
Qed.
Lemma rest_framework indices (fw : list Z) : complement (sites indices fw) (centre_ids indices) = framework_ids indices fw.
Proof.
  destruct (complement_spec (sites indices fw) (centre_ids indices)) as [S H]. apply sorted_lt_unique; [exact S|apply numbers_sorted|].
  intros j. rewrite H. unfold sites, centre_ids, framework_ids. rewrite !in_map_iff. split.
  - intros [B C]. exists (Z.to_nat j). split; [lia|]. apply in_seq. destruct (le_lt_dec (length indices) (Z.to_nat j)) as [L|L]; [lia|].
    exfalso. apply C. exists (Z.to_nat j). split; [lia|]. apply in_seq. lia.
  - intros (m & <- & M). apply in_seq in M. split; [lia|]. intros (m' & E & M'). apply in_seq in M'. lia.
Qed.

Lemma C95_proof i cell types types' vol n natoms k x (a : Params R) indices fw p circ (img : nat -> nat -> V3 Z) :
  molecule_read i cell types vol n natoms k x a indices fw p -> length types' = sites indices fw ->
  parser_by i geomspace_R circ (handed_over i cell types' vol n (sites indices fw)
     (fun f b => plus3 (centres natoms (a_masses a) indices fw x f b) (ivec (img f b)))) (following a (centre_ids indices)) = Ok p.
Proof.
  intros [Hc Ht Hk Ek Ha Hfw Hne HP HN (img0 & H)] Ht'.
  assert (Ef : drift_of natoms indices (a_framework a) = fw) by (eapply framework_unique; [apply drift_spec|exact Hfw]).
  destruct (parse_as _ _ _ _ _ _ _ _ _ _ _ Hc Ek ltac:(intros _; destruct Ha as [_ ->]; discriminate) H) as (_ & Hp & st & coords & latt & q & E & F & ->).
  destruct (finish_inv _ _ _ _ _ _ _ F) as (c' & I & D & disp & r & E1 & E2 & E3 & ->).
  set (y := centres natoms (a_masses a) indices fw x) in *. set (N := sites indices fw) in *.
  assert (st = mkStructure types vol) as -> by (eapply read_structure; eassumption).
  destruct (molecule_pseudo types types' vol n natoms k (fun f a => plus3 (x f a) (ivec (img0 f a))) y (fun _ => cell) _ coords latt circular_mean_R a indices c' (I, D) Hk Ht Ha E E1)
    as (EI & img' & E').
  { intros W f w b Hf Er Hb. rewrite Ef in Er, Hb. eapply centres_images; try eassumption. intros mol M. split; [now apply Hne|]. split; [now apply W|now apply HN]. }
  rewrite Ef in EI, E'. injection EI as -> ->. fold (sites indices fw) in E'. fold N in E'.
  assert (Ed := displacements_read _ _ _ _ _ E'). rewrite (C02_proof cell types' vol n N k y img' Hk) in Ed.
  assert (Hn : (0 < n)%nat).
  { destruct n; [|lia]. exfalso. unfold get_structure_coords_latt, frames_of in E. rewrite py_stride_tab in E by exact Hk. cbn [bind] in E.
    assert (K0 : kept 0 k = 0%nat) by (destruct (kept 0 k) eqn:EK; [reflexivity|]; exfalso; pose proof (proj1 (kept_spec 0 k Hk 0)); lia). rewrite K0 in E. discriminate E. }
  destruct (read_ok cell types' vol n N k (fun f b => plus3 (y f b) (ivec (img f b))) Hn Hk) as (co & la & R0).
  assert (Ed' := displacements_read _ _ _ _ _ R0). rewrite (C02_proof cell types' vol n N k y img Hk), Ed, E2 in Ed'.
  assert (Hix : indices <> []) by (intros ->; unfold choose_atoms in E1; destruct Ha as [A1 A2]; rewrite A1, A2 in E1; discriminate).
  eapply parse_back; try exact R0; try exact Hc; try exact Ek; try reflexivity; try exact Hp.
  assert (ES : steps_by i (following a (centre_ids indices)) = steps_by i a) by (destruct i; reflexivity). rewrite ES.
  unfold finish_parse, choose_atoms. cbn [following a_specie a_specie_indices a_framework a_masses a_time_step a_opts s_types].
  destruct (centre_ids indices) as [|z l] eqn:EL; [destruct indices; [contradiction|discriminate]|]. rewrite <- EL in *.
  cbn [get_framework bind]. rewrite Ht'. fold N. change N with (sites indices fw). rewrite rest_framework. cbn [bind fst snd s_volume].
  rewrite <- Ed'. cbn [bind]. rewrite E3. reflexivity.
Qed.

Lemma read_ids i cell types vol n natoms k x (a : Params R) indices fw p : molecule_read i cell types vol n natoms k x a indices fw p ->
  p_indices p = centre_ids indices /\ p_drift_indices p = framework_ids indices fw.
Proof.
  intros H. set (t' := repeat EmptyString (sites indices fw)). assert (L : length t' = sites indices fw) by apply repeat_length.
  assert (P := C95_proof _ _ _ t' _ _ _ _ _ _ _ _ _ circular_mean_R no_image H L).
  pose proof (mr_cell _ _ _ _ _ _ _ _ _ _ _ _ H) as Hc. pose proof (mr_k _ _ _ _ _ _ _ _ _ _ _ _ H) as Hk. pose proof (mr_traj _ _ _ _ _ _ _ _ _ _ _ _ H) as Ek.
  destruct (parse_as _ _ _ _ _ _ _ _ (following a (centre_ids indices)) _ _ Hc Ek ltac:(discriminate) P) as (_ & _ & st & coords & latt & q & E & F & ->).
  destruct (finish_inv _ _ _ _ _ _ _ F) as (c' & I & D & disp & r & E1 & E2 & E3 & ->).
  assert (st = mkStructure t' vol) as -> by (eapply read_structure; eassumption).
  unfold choose_atoms in E1. cbn [following a_specie a_specie_indices a_framework s_types get_framework bind] in E1.
  destruct (centre_ids indices) as [|z l] eqn:EL; [discriminate|]. rewrite <- EL in *. rewrite L, rest_framework in E1.
  destruct (parser_init_sel _ _ _ _ _ _ _ _ E3) as [EI ED]. destruct i; cbn [stamped set_delta_t set_volume p_indices p_drift_indices]; rewrite EI, ED; split; congruence.
Qed.
Lemma C95_faithful_proof i cell types vol n natoms k x (a : Params R) indices fw p circ types' :
  molecule_read i cell types vol n natoms k x a indices fw p -> well_sampled i n natoms k x a indices fw -> length types' = sites indices fw ->
  faithful_read i circ cell types' vol n (sites indices fw) k (centres natoms (a_masses a) indices fw x) (following a (centre_ids indices)) p.
Proof.
  intros H [W1 W2 W3] L. destruct (read_ids _ _ _ _ _ _ _ _ _ _ _ _ H) as [I D]. destruct (H) as [Hc Ht Hk Ek Ha Hfw Hne HP HN _].
  split; try assumption; try reflexivity.
  - right. eexists. reflexivity.
  - rewrite I. apply ids_valid. unfold sites. lia.
  - rewrite D. apply ids_valid. unfold sites. lia.
  - exists no_image. eapply C95_proof; eassumption.
Qed.

(** ** Distances *)
Lemma gather_valid {T} n (p : nat -> T) idx r : gather (tab n p) idx = Ok r -> Forall (valid_site n) idx.
Proof.
  unfold gather. rewrite mapM_ok. intros H. induction H as [|j q idx r E _ IH]; constructor; [|exact IH].
  unfold py_index in E. rewrite tab_length in E. destruct (_ && _) eqn:B; [|discriminate]. apply andb_true_iff in B as [E1 E2]. apply Z.leb_le in E1. apply Z.ltb_lt in E2.
  unfold valid_site. destruct (_ <? 0)%Z eqn:E3; [apply Z.ltb_lt in E3|apply Z.ltb_ge in E3]; lia.
Qed.
Lemma mapM_each {S T} (f : S -> Res T) l r s : mapM f l = Ok r -> In s l -> exists t, f s = Ok t.
Proof. rewrite mapM_ok. intros H. induction H as [|s' t' l r E _ IH]; [contradiction|]. intros [<-|I]; [eexists; exact E|now apply IH]. Qed.
Lemma read_sites i cell types vol n natoms k x (a : Params R) indices fw p : molecule_read i cell types vol n natoms k x a indices fw p ->
  (forall mol, In mol indices -> length (weights_of (a_masses a) (length mol)) = length mol /\ Forall (fun j => valid_site natoms (j - 1)) mol) /\ Forall (valid_site natoms) fw.
Proof.
  intros [Hc Ht Hk Ek Ha Hfw Hne HP HN (img0 & H)].
  assert (Ef : drift_of natoms indices (a_framework a) = fw) by (eapply framework_unique; [apply drift_spec|exact Hfw]).
  destruct (parse_as _ _ _ _ _ _ _ _ _ _ _ Hc Ek ltac:(intros _; destruct Ha as [_ ->]; discriminate) H) as (_ & _ & st & coords & latt & q & E & F & _).
  destruct (finish_inv _ _ _ _ _ _ _ F) as (c' & I & D & disp & r & E1 & _).
  assert (st = mkStructure types vol) as -> by (eapply read_structure; eassumption).
  apply (choose_molecules _ _ _ _ _ _ Ha) in E1. cbn [s_types] in E1. rewrite Ht in E1. destruct (get_molecules_inv _ _ _ _ _ _ _ _ _ E1) as (W & _ & _ & M). rewrite Ef in M.
  unfold get_structure_coords_latt, frames_of in E. rewrite py_stride_tab in E by exact Hk. cbn [bind] in E.
  destruct (kept n k) as [|m] eqn:EK; [discriminate|]. rewrite tab_S in E. cbn [map duplicate_first bind f_pos] in E.
  assert (EC : exists rest, coords = tab natoms (fun b => plus3 (x (0 * k)%nat b) (ivec (img0 (0 * k)%nat b))) :: rest) by (injection E; intros _ E0; eexists; symmetry; exact E0).
  destruct EC as (rest & EC0). subst coords. cbn [mapM] in M. inv_bind M fr EF. clear M.
  unfold molecule_frame in EF. inv_bind EF cs EC. inv_bind EF f2 EG. apply gather_valid in EG. split; [|exact EG].
  intros mol I0. split; [now apply W|]. destruct (mapM_each _ _ _ (minus_one mol) EC ltac:(now apply in_map)) as (y & EY).
  inv_bind EY at1 EA. apply gather_valid in EA. unfold minus_one in EA. rewrite Forall_map in EA. exact EA.
Qed.

Definition summed (ws : list R) (l : list (V3 R)) : V3 R :=
  (mkV (weighted (fun v => v) ws (map vx l)) (weighted (fun v => v) ws (map vy l)) (weighted (fun v => v) ws (map vz l)))%R.
Lemma com_summed ws l : com3 ws l = scale3 (/ rsum ws) (summed ws l).
Proof. unfold com3, centre_of_mass, summed. apply V3_eq; cbn; unfold Rdiv; ring. Qed.
Lemma summed_cons w ws v l : summed (w :: ws) (v :: l) = plus3 (scale3 w v) (summed ws l).
Proof. unfold summed, weighted. apply V3_eq; cbn; ring. Qed.
Lemma cart_scale m c v : cart m (scale3 c v) = scale3 c (cart m v).
Proof. destruct m as [[] [] []], v. unfold cart. apply V3_eq; cbn; ring. Qed.
Section Means.
  Context (axes : list axis) (m m' : M3 R).
  Notation apart u v := (len axes (minus3 (cart m u) (cart m' v))).
  Lemma summed_close {T} (h h' : T -> V3 R) e l : forall ws, length ws = length l -> Forall (fun w => 0 < w)%R ws ->
    (forall t, In t l -> (apart (h t) (h' t) <= e)%R) -> (apart (summed ws (map h l)) (summed ws (map h' l)) <= rsum ws * e)%R.
  Proof.
    induction l as [|t l IH]; intros [|w ws] L P H; try discriminate.
    - change (summed [] (map h [])) with zero3. change (summed [] (map h' [])) with zero3. rewrite !cart_zero.
      replace (minus3 zero3 zero3) with zero3 by v3eq. rewrite len_zero. cbn. lra.
    - cbn [map]. rewrite !summed_cons, !cart_plus, !cart_scale.
      set (a := cart m (h t)). set (a' := cart m' (h' t)). set (b := cart m (summed ws (map h l))). set (b' := cart m' (summed ws (map h' l))).
      replace (minus3 (plus3 (scale3 w a) b) (plus3 (scale3 w a') b')) with (plus3 (scale3 w (minus3 a a')) (minus3 b b')) by (apply V3_eq; cbn; ring).
      inversion P as [|? ? P1 P2]; subst. eapply Rle_trans; [apply len_plus|]. rewrite len_scale, Rabs_pos_eq by lra.
      assert (A : (len axes (minus3 a a') <= e)%R) by (apply H; now left).
      assert (B : (len axes (minus3 b b') <= rsum ws * e)%R) by (apply IH; [now injection L|exact P2|intros; apply H; now right]).
      change (rsum (w :: ws)) with (w + rsum ws)%R. assert (w * len axes (minus3 a a') <= w * e)%R by (apply Rmult_le_compat_l; lra). lra.
  Qed.
  Lemma positive_sum ws : ws <> [] -> Forall (fun w => 0 < w)%R ws -> (0 < rsum ws)%R.
  Proof.
    destruct ws as [|w ws]; [contradiction|]. intros _ P. inversion P as [|? ? P1 P2]; subst. change (rsum (w :: ws)) with (w + rsum ws)%R.
    assert (0 <= rsum ws)%R; [|lra]. clear - P2. induction P2 as [|w ws Hw _ IH]; cbn; lra.
  Qed.
  Lemma com_close {T} (h h' : T -> V3 R) e l ws : l <> [] -> length ws = length l -> Forall (fun w => 0 < w)%R ws ->
    (forall t, In t l -> (apart (h t) (h' t) <= e)%R) -> (apart (com3 ws (map h l)) (com3 ws (map h' l)) <= e)%R.
  Proof.
    intros NE L P H. pose proof (summed_close h h' e l ws L P H) as B. assert (S : (0 < rsum ws)%R) by (apply positive_sum; [destruct ws; [destruct l; [contradiction|discriminate]|discriminate]|exact P]).
    rewrite !com_summed, !cart_scale. set (b := cart m (summed ws (map h l))) in *. set (b' := cart m' (summed ws (map h' l))) in *.
    replace (minus3 (scale3 (/ rsum ws) b) (scale3 (/ rsum ws) b')) with (scale3 (/ rsum ws) (minus3 b b')) by (apply V3_eq; cbn; ring).
    rewrite len_scale, Rabs_pos_eq by (apply Rlt_le, Rinv_0_lt_compat, S).
    apply Rle_trans with (/ rsum ws * (rsum ws * e))%R; [apply Rmult_le_compat_l; [apply Rlt_le, Rinv_0_lt_compat, S|exact B]|]. right. field. lra.
  Qed.
End Means.
Lemma weights_positive masses n : positive_masses masses -> Forall (fun w => 0 < w)%R (weights_of masses n).
Proof. destruct masses; cbn; [trivial|]. intros _. induction n; constructor; [lra|assumption]. Qed.
Lemma centres_near i cell cell' types vol n natoms k x x' (a : Params R) indices fw p axes eps : molecule_read i cell types vol n natoms k x a indices fw p -> (0 <= eps)%R ->
  near axes n natoms k eps (fun f b => cart cell (x f b)) (fun f b => cart cell' (x' f b)) ->
  near axes n (sites indices fw) k eps (fun f b => cart cell (centres natoms (a_masses a) indices fw x f b)) (fun f b => cart cell' (centres natoms (a_masses a) indices fw x' f b)).
Proof.
  intros H He HN f b Hf Hb. destruct (read_sites _ _ _ _ _ _ _ _ _ _ _ _ H) as [V1 V2]. unfold centres.
  destruct (nth_error indices b) as [mol|] eqn:Em.
  - assert (I : In mol indices) by (eapply nth_error_In; exact Em). destruct (V1 mol I) as [L V].
    apply (com_close axes cell cell' (fun j => x (f * k)%nat (site natoms (j - 1))) (fun j => x' (f * k)%nat (site natoms (j - 1)))).
    + exact (mr_atoms _ _ _ _ _ _ _ _ _ _ _ _ H mol I).
    + exact L.
    + apply weights_positive. exact (mr_masses _ _ _ _ _ _ _ _ _ _ _ _ H).
    + intros j Hj. rewrite Forall_forall in V. apply HN; [exact Hf|]. apply ProofsDisp.site_lt. now apply V.
  - destruct (nth_error fw (b - length indices)) as [j|] eqn:Ej.
    + apply HN; [exact Hf|]. apply ProofsDisp.site_lt. rewrite Forall_forall in V2. apply V2. eapply nth_error_In; exact Ej.
    + rewrite !cart_zero. replace (minus3 zero3 zero3) with zero3 by v3eq. rewrite len_zero. exact He.
Qed.

(** ** What is reported *)
Section Reported.
  Context {G Seed RS : Type} (X : Ext R G Seed RS).
  Context (i : interface) (cell : M3 R) (types : list string) (vol : R) (n natoms k : nat) (x : nat -> nat -> V3 R) (a : Params R) (indices : list (list Z)) (fw : list Z) (p : Parsed R) (u : BootParams R).
  Hypotheses (M : molecule_read i cell types vol n natoms k x a indices fw p) (W : well_sampled i n natoms k x a indices fw) (Hk : 0 < u_sub_sample_dt u) (Hb : u_block u = false).
  Notation N := (sites indices fw).
  Notation pos := (fun f b => cart cell (centres natoms (a_masses a) indices fw x f b)).
  Let F := C95_faithful_proof _ _ _ _ _ _ _ _ _ _ _ _ circular_mean_R (repeat EmptyString N) M W (repeat_length _ _).
  Lemma C95_msd_proof axes g an g' : names (pystr_text (u_dimension u)) axes -> diffusion_analyzer X (of_parsed p) u g = Ok (an, g') ->
    forall j t, nth_error (b_dt (an_diff an)) j = Some t ->
    exists m, nth_error (p_intervals p) (j * Z.to_nat (u_sub_sample_dt u)) = Some (Z.of_nat m) /\ nth_error (p_delta_t p) (j * Z.to_nat (u_sub_sample_dt u)) = Some t
      /\ (0 < m <= kept n k)%nat
      /\ let T := kept n k in
         nth_error (b_n (an_diff an)) j = Some ((INR (T - m) * true_msd axes N k pos (centre_ids indices) (framework_ids indices fw) T m
             + square_between axes N k pos (centre_ids indices) (framework_ids indices fw) 0 (m - 1)) / INR (T - m + 1))%R.
  Proof.
    intros Hn H j t Ht. destruct (read_ids _ _ _ _ _ _ _ _ _ _ _ _ M) as [<- <-].
    exact (C81_reported_proof X _ _ _ _ _ _ _ _ _ _ _ _ _ _ _ _ F Hk Hb Hn H j t Ht).
  Qed.
  Lemma C95_mstd_proof axes g an g' : names (pystr_text (u_dimension u)) axes -> jump_diffusion_analyzer X (of_parsed p) u g = Ok (an, g') ->
    forall j t, nth_error (b_dt (an_diff an)) j = Some t ->
    exists m, nth_error (p_intervals p) (j * Z.to_nat (u_sub_sample_dt u)) = Some (Z.of_nat m) /\ nth_error (p_delta_t p) (j * Z.to_nat (u_sub_sample_dt u)) = Some t
      /\ (0 < m <= kept n k)%nat
      /\ let T := kept n k in let between := total_between axes N k pos (centre_ids indices) (framework_ids indices fw) in
         nth_error (b_n (an_diff an)) j = Some ((INR (T - m) * over_time T m between + between 0%nat (m - 1)%nat) / INR (T - m + 1))%R.
  Proof.
    intros Hn H j t Ht. destruct (read_ids _ _ _ _ _ _ _ _ _ _ _ _ M) as [<- <-].
    exact (C85_mstd_proof X _ _ _ _ _ _ _ _ _ _ _ _ _ _ _ _ F Hk Hb Hn H j t Ht).
  Qed.
  Section Near.
    Context (cell' : M3 R) (vol' : R) (x' : nat -> nat -> V3 R) (p' : Parsed R) (eps : R).
    Hypotheses (M' : molecule_read i cell' types vol' n natoms k x' a indices fw p') (W' : well_sampled i n natoms k x' a indices fw) (H0 : (0 <= eps)%R).
    Let F' := C95_faithful_proof _ _ _ _ _ _ _ _ _ _ _ _ circular_mean_R (repeat EmptyString N) M' W' (repeat_length _ _).
    Lemma C95_near_proof axes g g1 an h h1 an' : names (pystr_text (u_dimension u)) axes -> near axes n natoms k eps (fun f b => cart cell (x f b)) (fun f b => cart cell' (x' f b)) ->
      diffusion_analyzer X (of_parsed p) u g = Ok (an, g1) -> diffusion_analyzer X (of_parsed p') u h = Ok (an', h1) ->
      forall j t t', nth_error (b_dt (an_diff an)) j = Some t -> nth_error (b_dt (an_diff an')) j = Some t' -> t = t' /\ exists v v',
        nth_error (b_n (an_diff an)) j = Some v /\ nth_error (b_n (an_diff an')) j = Some v' /\ (Rabs (sqrt v - sqrt v') <= ends (p_drift_indices p) * eps)%R.
    Proof.
      intros Hn HN. apply (C93_msd_proof X _ _ _ _ _ _ _ _ _ _ _ _ F Hk Hb _ _ _ _ _ F' H0 axes); [exact Hn|].
      exact (centres_near _ _ _ _ _ _ _ _ _ _ _ _ _ _ _ _ M H0 HN).
    Qed.
    Lemma C95_near_together_proof axes g g1 an h h1 an' : names (pystr_text (u_dimension u)) axes -> near axes n natoms k eps (fun f b => cart cell (x f b)) (fun f b => cart cell' (x' f b)) ->
      jump_diffusion_analyzer X (of_parsed p) u g = Ok (an, g1) -> jump_diffusion_analyzer X (of_parsed p') u h = Ok (an', h1) ->
      forall j t t', nth_error (b_dt (an_diff an)) j = Some t -> nth_error (b_dt (an_diff an')) j = Some t' -> t = t' /\ exists v v',
        nth_error (b_n (an_diff an)) j = Some v /\ nth_error (b_n (an_diff an')) j = Some v'
        /\ (Rabs (sqrt v - sqrt v') <= INR (length indices) * (ends (p_drift_indices p) * eps))%R.
    Proof.
      intros Hn HN. assert (L : length indices = length (p_indices p)).
      { destruct (read_ids _ _ _ _ _ _ _ _ _ _ _ _ M) as [-> _]. unfold centre_ids. now rewrite map_length, seq_length. }
      rewrite L. apply (C93_mstd_proof X _ _ _ _ _ _ _ _ _ _ _ _ F Hk Hb _ _ _ _ _ F' H0 axes); [exact Hn|].
      exact (centres_near _ _ _ _ _ _ _ _ _ _ _ _ _ _ _ _ M H0 HN).
    Qed.
    Lemma C95_near_charge_proof q g g1 an h h1 an' : (forall l, q = QArray l -> length l = length indices) -> near all_axes n natoms k eps (fun f b => cart cell (x f b)) (fun f b => cart cell' (x' f b)) ->
      conductivity_analyzer X (of_parsed p) q u g = Ok (an, g1) -> conductivity_analyzer X (of_parsed p') q u h = Ok (an', h1) ->
      forall j t t', nth_error (b_dt (an_diff an)) j = Some t -> nth_error (b_dt (an_diff an')) j = Some t' -> t = t' /\ exists v v',
        nth_error (b_n (an_diff an)) j = Some v /\ nth_error (b_n (an_diff an')) j = Some v'
        /\ (Rabs (sqrt v - sqrt v') <= rsum (map Rabs (charges q (length indices))) * (ends (p_drift_indices p) * eps))%R.
    Proof.
      intros Hq HN. assert (L : length indices = length (p_indices p)).
      { destruct (read_ids _ _ _ _ _ _ _ _ _ _ _ _ M) as [-> _]. unfold centre_ids. now rewrite map_length, seq_length. }
      rewrite L in *. apply (C93_mscd_proof X _ _ _ _ _ _ _ _ _ _ _ _ F Hk Hb _ _ _ _ _ F' H0 q); [exact Hq|].
      exact (centres_near _ _ _ _ _ _ _ _ _ _ _ _ _ _ _ _ M H0 HN).
    Qed.
  End Near.
  Lemma C95_internal_proof axes g g1 an centre : names (pystr_text (u_dimension u)) axes ->
    (forall f b, (f * k < n)%nat -> (b < N)%nat -> centres natoms (a_masses a) indices fw x (f * k)%nat b = centre b) ->
    diffusion_analyzer X (of_parsed p) u g = Ok (an, g1) -> forall j t, nth_error (b_dt (an_diff an)) j = Some t -> nth_error (b_n (an_diff an)) j = Some 0%R.
  Proof.
    intros Hn HC H j t Ht.
    destruct (C93_caged_msd_proof X _ _ _ _ _ _ _ _ _ _ _ _ F Hk Hb (fun b => cart cell (centre b)) 0%R (Rle_refl _) axes g g1 an Hn) with (j := j) (t := t) as (v & V & B); try assumption.
    - intros f b Hf Hb0. rewrite HC by assumption. replace (minus3 _ _) with (zero3 : V3 R) by v3eq. rewrite len_zero. lra.
    - rewrite Rmult_0_r, Rmult_0_r in B. rewrite V. f_equal.
      destruct (C95_msd_proof axes g an g1 Hn H j t Ht) as (m & _ & _ & _ & E). cbv zeta in E. rewrite V in E. injection E as E.
      apply Rle_antisym; [exact B|]. rewrite E. apply Rmult_le_pos; [|apply Rlt_le, Rinv_0_lt_compat, lt_0_INR; lia].
      apply Rplus_le_le_0_compat; [apply Rmult_le_pos; [apply pos_INR|]|apply square_nonneg].
      unfold true_msd. unfold average. apply Rmult_le_pos; [unfold tab; apply rsum_map_nonneg; intros; apply square_nonneg|].
      destruct (length _); [cbn; rewrite Rinv_0; lra|]. apply Rlt_le, Rinv_0_lt_compat, lt_0_INR. lia.
  Qed.
End Reported.

(** ** Example: a pair of atoms of masses 1 and 3 that moves along x and changes its length *)
Definition rocking (s d : nat -> R) (f b : nat) : V3 R := match b with O => line3 (s f - 3 * d f) | S O => line3 (s f + d f) | _ => line3 0 end.
Definition rocking_params : Params R := mkParams None (PyFloat 1%R) 1 1 1 (upto 2 2) (SIMol [[1; 2]]) (Some [1; 3]%R) PyNone.
Definition short (d : nat -> R) : Prop := forall f, (Rabs (d f) < 1 / 8)%R.
Definition inside (s : nat -> R) : Prop := forall f, (0 <= s f < 1)%R.
Lemma rocking_narrow s d f : short d -> on_axes narrow [rocking s d f 0; rocking s d f 1].
Proof.
  intros H. specialize (H f). apply Rabs_def2 in H. repeat split; intros a b [<-|[<-|[]]] [<-|[<-|[]]]; cbn; apply Rabs_def1; lra.
Qed.
Lemma rocking_centre s d f : short d -> inside s -> molecule_centre circular_mean_R (Some [1; 3]%R) [rocking s d f 0; rocking s d f 1] = Ok (line3 (s f)).
Proof.
  intros HD HS. destruct (centre_com (Some [1; 3]%R) [rocking s d f 0; rocking s d f 1] [rocking s d f 0; rocking s d f 1]) as (c & C & W1 & W2 & W3).
  - discriminate.
  - reflexivity.
  - cbn; repeat constructor; lra.
  - now apply rocking_narrow.
  - repeat constructor; exists (mkV 0 0 0)%Z; v3eq.
  - rewrite C. f_equal. specialize (HS f).
    apply V3_eq; cbn; [eapply wraps_unique; [exact W1|]; split; [lra|]; exists 0%Z|eapply wraps_unique; [exact W2|]; split; [lra|]; exists 0%Z|eapply wraps_unique; [exact W3|]; split; [lra|]; exists 0%Z];
      unfold com3, centre_of_mass, weighted; cbn; field.
Qed.
Definition rocking_centres (s : nat -> R) (f b : nat) : V3 R := match b with O => line3 (s f) | _ => line3 0 end.
Lemma rocking_small s n : gentle s -> small_steps n 2 1 (rocking_centres s).
Proof. intros H f b _ Hb. rewrite !Nat.mul_1_r. unfold rocking_centres, within_half, line3. specialize (H f). destruct b; cbn [vx vy vz minus3 zero3]; lra. Qed.
Lemma rocking_at s d f b : centres 3 (Some [1; 3]%R) [[1; 2]] [2] (rocking s d) f b = rocking_centres s f b.
Proof.
  unfold centres. destruct b as [|[|b]]; cbn [nth_error Nat.sub length].
  - cbn [map weights_of length]. change (site 3 (1 - 1)) with 0%nat. change (site 3 (2 - 1)) with 1%nat. unfold com3, centre_of_mass, weighted, line3, rocking. apply V3_eq; cbn; field.
  - reflexivity.
  - destruct b; reflexivity.
Qed.
Lemma C95_example_proof : forall G Seed RS (X : Ext R G Seed RS) (g : G) s d, gentle s -> inside s -> short d -> exists p an,
  molecule_read Ase unit_cell pair_types 1%R 4 3 1 (rocking s d) rocking_params [[1; 2]] [2] p
  /\ well_sampled Ase 4 3 1 (rocking s d) rocking_params [[1; 2]] [2]
  /\ (forall f, centres 3 (a_masses rocking_params) [[1; 2]] [2] (rocking s d) f 0 = line3 (s f))
  /\ diffusion_analyzer X (of_parsed p) (demo_boot 1 "xyz") g = Ok (an, g) /\ b_dt (an_diff an) = [1; 2]%R.
Proof.
  intros G Seed RS X g s d HG HS HD.
  assert (K : exists p, ase_parser geomspace_R circular_mean_R (frames_of pair_types 1%R 4 3 (rocking s d) (fun _ => unit_cell)) rocking_params = Ok p
    /\ p_delta_t p = [1; 2]%R /\ length (p_disp_3d p) = 2%nat /\ length (p_n_o p) = 2%nat /\ Forall (fun d => 1 < length (entries d))%nat (p_disp_3d p)).
  { rewrite (ase_mol_run geomspace_R circular_mean_R unit_cell pair_types 1 4 3 (rocking s d) (rocking_centres s) rocking_params [[1; 2]]);
      try (first [exact unit_cell_volume | lia | reflexivity | discriminate | split; reflexivity]).
    - cbn [rocking_params a_time_step pynum_val a_step_skip a_opts a_framework]. change (length [[1; 2]%Z] + length (drift_of 3 [[1; 2]%Z] PyNone))%nat with 2%nat.
      change (centre_ids [[1; 2]%Z]) with [0%Z]. change (framework_ids [[1; 2]%Z] (drift_of 3 [[1; 2]%Z] PyNone)) with [1%Z].
      unfold upto. rewrite (parser_init_ints geomspace_R 2 4 _ [0] [1] 1 2 2 "multi-origin" 8 8) by (first [repeat constructor; cbn; lia | lia]).
      change (tab _ (lin _ 2 _)) with (map Z.of_nat [1;2]%nat).
      rewrite get_disps_multi' by (repeat constructor; cbn; lia).
      assert (E' : Rltb 8 (in_gigabytes (fold_right Z.add 0 (map (estimate (length [0]) 4 8) [1;2]%nat))) = false).
      { apply Rltb_false. unfold in_gigabytes. cbn. lra. }
      rewrite E'. cbn [bind]. eexists. split; [reflexivity|].
      split; [cbn; repeat f_equal; lra|]. split; [reflexivity|]. split; [reflexivity|]. repeat constructor.
    - intros f Hf. cbn [rocking_params a_masses a_framework]. rewrite (pair_frame _ (rocking s d f) (line3 (s f))) by now apply rocking_centre. reflexivity.
    - change (length [[1; 2]%Z] + length (drift_of 3 [[1; 2]%Z] (a_framework rocking_params)))%nat with 2%nat. now apply rocking_small. }
  destruct K as (p & H & E4 & E5 & E6 & E7).
  destruct (msd_total X (demo_boot 1 "xyz") (p_delta_t p) (p_disp_3d p) (p_n_o p) all_axes g eq_refl eq_refl names_xyz) as (b & B).
  { intros C. rewrite C in E5. discriminate. } { exact E7. } { rewrite E4, E5. cbn. lia. } { rewrite E5, E6. lia. }
  exists p, (mkAn (of_parsed p) b). split; [|split; [|split; [|split]]].
  - split; try (first [exact unit_cell_volume | reflexivity | lia]).
    + split; reflexivity.
    + change [2] with (drift_of 3 [[1; 2]] (a_framework rocking_params)). apply drift_spec.
    + intros mol [<-|[]]. discriminate.
    + cbn. repeat constructor; lra.
    + intros f mol _ [<-|[]]. cbn [map]. change (site 3 (1 - 1)) with 0%nat. change (site 3 (2 - 1)) with 1%nat. now apply rocking_narrow.
    + exists no_image. cbn [parser_by handed_over]. rewrite (frames_of_ext _ _ _ _ _ _ _ (no_image_id (rocking s d))). exact H.
  - split; [|reflexivity|].
    + intros f b0 Hf Hb0. cbn [rocking_params a_masses]. rewrite !rocking_at. now apply (rocking_small s 4 HG f b0).
    + rewrite kept_one. split; unfold min_time, max_time; cbn; try lra; try lia. now left.
  - intros f. cbn [rocking_params a_masses]. now rewrite rocking_at.
  - unfold diffusion_analyzer. cbn [of_parsed an_delta_t an_disp_3d an_n_o]. rewrite B. reflexivity.
  - cbn [an_diff]. rewrite (dt_shown X (demo_boot 1 "xyz") _ _ _ _ _ _ eq_refl B E7), E4, E5. reflexivity.
Qed.
