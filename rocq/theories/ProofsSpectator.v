(** * ProofsSpectator: atoms that are neither selected nor framework (C70) *)
From Verif Require Import Base Spec SpecParser SpecStats SpecFit SpecAnalyzer ModelParser ModelDiffusion ModelHdf ModelAnalyzer
  Lemmas ProofsDisp ProofsIntervals ProofsWindows ProofsParser ProofsTraj ProofsStats ProofsFit ProofsFit2 ProofsAnalyzer
  SpecRun SpecSym ProofsSym ProofsTime SpecOrder ProofsOrder SpecInterfaces ProofsInterfaces.
From Coq Require Import Reals Lra Lia Permutation.
Open Scope Z_scope.

(** Lists of the same length that agree at the positions [l]. *)
Definition alike_at {T} (l : list Z) (c c' : list T) : Prop :=
  length c' = length c /\ forall i, In i l -> py_index c' i = py_index c i.
Lemma alike_map {S T} (f : S -> T) l c c' : alike_at l c c' -> alike_at l (map f c) (map f c').
Proof.
  intros [L H]. split; [now rewrite !map_length|]. intros i Hi. rewrite !py_index_map. now rewrite (H i Hi).
Qed.
Lemma alike_gather {T} (l I : list Z) (c c' : list T) : alike_at l c c' -> incl I l -> gather c' I = gather c I.
Proof. intros [_ H] HI. unfold gather. apply mapM_ext. intros i Hi. apply H, HI, Hi. Qed.
Lemma alike_incl {T} (l m : list Z) (c c' : list T) : alike_at l c c' -> incl m l -> alike_at m c c'.
Proof. intros [L H] HI. split; [exact L|]. intros i Hi. apply H, HI, Hi. Qed.
Lemma F2_map {S T S' T'} (P : S' -> T' -> Prop) (f : S -> S') (g : T -> T') us vs :
  Forall2 (fun u v => P (f u) (g v)) us vs -> Forall2 P (map f us) (map g vs).
Proof. induction 1; cbn; constructor; auto. Qed.
Lemma F2_map_eq {S T U} (f : S -> U) (g : T -> U) us vs : Forall2 (fun u v => g v = f u) us vs -> map g vs = map f us.
Proof. induction 1; cbn; congruence. Qed.
Lemma duplicate_F2 {S T} (P : S -> T -> Prop) us vs r : Forall2 P us vs -> duplicate_first us = Ok r ->
  exists r', duplicate_first vs = Ok r' /\ Forall2 P r r'.
Proof.
  intros H E. unfold duplicate_first in *. destruct H as [|u v us vs Hp H].
  - discriminate E.
  - unfold py_index in *. cbn in E |- *. injection E as <-. eexists. split; [reflexivity|]. repeat constructor; auto.
Qed.

(** Displacements of all atoms. *)
Lemma disp_alike l (coords coords' : list (list (V3 R))) latt d : Forall2 (alike_at l) coords coords' -> get_disp coords latt = Ok d ->
  exists d', get_disp coords' latt = Ok d' /\ a_obs d' = a_obs d /\ alike_at l (a_rows d) (a_rows d').
Proof.
  intros F E. unfold get_disp in *. assert (HL : length coords = length coords') by (clear -F; induction F; cbn; congruence).
  assert (HF : forallb (fun f => Nat.eqb (length f) (length (hd [] coords'))) coords' = forallb (fun f => Nat.eqb (length f) (length (hd [] coords))) coords).
  { assert (L0 : length (hd [] coords') = length (hd [] coords)). { destruct F as [|? ? ? ? [K _] _]; [reflexivity|exact K]. }
    rewrite L0. generalize (length (hd [] coords)). intros n. clear - F. induction F as [|c c' cs cs' [K _] _ IH]; [reflexivity|]. cbn. now rewrite K, IH. }
  destruct F as [|c c' cs cs' Hc F]; [discriminate|]. cbn [hd] in HF. set (n := length c) in *. set (n' := length c') in *.
  assert (En : n' = n) by apply Hc. rewrite HF.
  destruct (forallb _ (c :: cs)) eqn:HA; [|discriminate]. cbn [guard bind] in E |- *.
  destruct (mapM minv latt) as [li|]; [|discriminate]. cbn [bind] in *. rewrite <- HL.
  destruct (Nat.eqb (length (c :: cs)) (length latt)); [|discriminate]. cbn [guard bind] in *. injection E as <-.
  eexists. split; [reflexivity|]. cbn [a_obs a_rows]. split; [reflexivity|]. rewrite En. split; [now rewrite !map_length|].
  intros i Hi. rewrite !py_index_map. destruct (py_index (seq 0 n) i) as [j|] eqn:Ej; [|reflexivity]. f_equal. f_equal.
  apply (F2_map_eq (fun f => nth j f v0) (fun f => nth j f v0) (c :: cs) (c' :: cs')). rewrite forallb_forall in HA.
  assert (F0 : Forall2 (alike_at l) (c :: cs) (c' :: cs')) by (constructor; assumption).
  assert (Hj : forall T (x : list T), length x = n -> py_index x i = opt_res IndexError (nth_error x j) /\ nth_error x j <> None).
  { intros T x Lx. unfold py_index in *. rewrite seq_length in Ej. rewrite Lx. destruct (_ && _) eqn:B; [|discriminate].
    apply andb_prop in B as [B1 B2]. apply Z.leb_le in B1. apply Z.ltb_lt in B2.
    set (k := if i <? 0 then i + Z.of_nat n else i) in *.
    rewrite (nth_error_nth' _ 0%nat) in Ej by (rewrite seq_length; lia). rewrite seq_nth in Ej by lia.
    cbn in Ej. injection Ej as <-. split; [reflexivity|]. apply nth_error_Some. rewrite Lx. lia. }
  clear HL HF Ej. set (all := c :: cs) in *. set (all' := c' :: cs') in *. clearbody all all'.
  induction F0 as [|x x' xs xs' [Lx Kx] F0 IH]; [constructor|]. constructor.
  - assert (Lx0 : length x = n) by (apply Nat.eqb_eq, HA; now left).
    destruct (Hj _ x Lx0) as [P1 P2]. destruct (Hj _ x') as [P1' P2']; [congruence|].
    specialize (Kx i Hi). rewrite P1, P1' in Kx. destruct (nth_error x j) eqn:G; [|congruence]. destruct (nth_error x' j) eqn:G'; [|congruence].
    cbn in Kx. injection Kx as ->. now rewrite (nth_error_nth _ _ _ G), (nth_error_nth _ _ _ G').
  - apply IH. intros y Hy. apply HA. now right.
Qed.

Lemma drift_alike l D (d d' dc : Arr R) : a_obs d' = a_obs d -> alike_at l (a_rows d) (a_rows d') -> incl D l -> correct_drift D d = Ok dc ->
  exists dc', correct_drift D d' = Ok dc' /\ a_obs dc' = a_obs dc /\ alike_at l (a_rows dc) (a_rows dc').
Proof.
  intros Ho HA HD E. unfold correct_drift in *. destruct D as [|z D].
  - injection E as <-. eauto.
  - rewrite (alike_gather _ _ _ _ HA HD). destruct (gather (a_rows d) (z :: D)) as [fw|]; [|discriminate]. cbn [bind] in *.
    injection E as <-. eexists. split; [reflexivity|]. cbn [a_obs a_rows]. rewrite Ho. split; [reflexivity|]. now apply alike_map.
Qed.
Lemma init_alike geo l I D (d d' : Arr R) (ts : R) ss o p : a_obs d' = a_obs d -> alike_at l (a_rows d) (a_rows d') -> incl I l -> incl D l ->
  parser_init geo d I D ts ss o = Ok p -> exists p', parser_init geo d' I D ts ss o = Ok p' /\ same_but_dc p p'.
Proof.
  intros Ho HA HI HD E. unfold parser_init in *. inv_bind E dc Ed.
  destruct (drift_alike _ _ _ _ _ Ho HA HD Ed) as (dc' & -> & Oc & Ac). cbn [bind]. rewrite Oc.
  inv_bind E q Eq. cbv zeta. rewrite ?Eq. cbn [bind]. inv_bind E z Ez. rewrite ?Ez. cbn [bind]. destruct (_ <=? _); [discriminate|].
  inv_bind E tis Et. rewrite ?Et. cbn [bind]. inv_bind E r Er.
  assert (Er' : get_disps ts ss I (o_sampling o) (o_memory_limit o) (o_itemsize o) tis dc' = Ok r).
  { unfold get_disps in *. now rewrite (alike_gather _ _ _ _ Ac HI), Oc. }
  rewrite Er'. cbn [bind]. injection E as <-. eexists. split; [reflexivity|]. repeat split.
Qed.
Lemma choose_other circ st (c c' : list (list (V3 R))) a sel : atomic_selection a -> choose_atoms circ st c a = Ok sel ->
  choose_atoms circ st c' a = Ok (c', snd sel).
Proof.
  intros Ha H. unfold choose_atoms in *. destruct (a_specie a) as [sp|] eqn:Esp.
  - inv_bind H ix E. rewrite ?E. cbn [bind]. now injection H as <-.
  - destruct Ha as [Ha|(l & Ha)]; [congruence|]. rewrite Ha in *. destruct l as [|z l]; [discriminate|].
    inv_bind H ix E. rewrite ?E. cbn [bind]. now injection H as <-.
Qed.
Lemma finish_alike geo circ st (c c' : list (list (V3 R))) latt a ss p l : atomic_selection a ->
  finish_parse geo circ st c latt a ss = Ok p -> Forall2 (alike_at l) c c' -> incl (p_indices p) l -> incl (p_drift_indices p) l ->
  exists p', finish_parse geo circ st c' latt a ss = Ok p' /\ same_but_dc p p'.
Proof.
  intros Ha H F HI HD. unfold finish_parse in *. inv_bind H sel Es. rewrite (choose_other _ _ _ c' _ _ Ha Es). cbn [bind fst snd].
  rewrite (choose_atomic _ _ _ _ _ Ha Es) in H. inv_bind H d Ed. destruct (disp_alike _ _ _ _ _ F Ed) as (d' & -> & Ho & HA). cbn [bind].
  inv_bind H q Eq.
  assert (PI : p_indices p = fst (snd sel) /\ p_drift_indices p = snd (snd sel)).
  { injection H as <-. cbn [set_volume p_indices p_drift_indices]. unfold parser_init in Eq. inv_bind Eq dc E1. inv_bind Eq w E2. inv_bind Eq z E3.
    destruct (_ <=? _); [discriminate|]. inv_bind Eq tis E4. inv_bind Eq r E5. injection Eq as <-. split; reflexivity. }
  destruct PI as [P1 P2]. rewrite P1 in HI. rewrite P2 in HD.
  destruct (init_alike _ _ _ _ _ _ _ _ _ _ Ho HA HI HD Eq) as (q' & -> & S). cbn [bind]. injection H as <-.
  eexists. split; [reflexivity|]. destruct S as (S1 & S2 & S3 & S4 & S5 & S6 & S7 & S8 & S9). unfold same_but_dc. cbn [set_volume p_intervals p_delta_t p_disp_3d p_n_o p_indices p_drift_indices p_min_dt p_max_dt p_volume]. auto 12.
Qed.

Lemma same_at_alike l f f' : same_at l f f' -> alike_at l (f_pos f) (f_pos f').
Proof. intros (_ & _ & _ & L & H). split; assumption. Qed.
Lemma read_alike l (t t' : list (Frame R)) k st c la : Forall2 (same_at l) t t' -> get_structure_coords_latt t k = Ok (st, c, la) ->
  exists c', get_structure_coords_latt t' k = Ok (st, c', la) /\ Forall2 (alike_at l) c c'.
Proof.
  intros F E. unfold get_structure_coords_latt in *. inv_bind E sub Es. destruct (stride_Forall2 _ _ _ _ _ F Es) as (sub' & -> & Fs). cbn [bind].
  inv_bind E cs Ec. inv_bind E ls El.
  assert (Fp : Forall2 (alike_at l) (map f_pos sub) (map f_pos sub')). { apply F2_map. revert Fs. apply F2_impl. intros u v; apply same_at_alike. }
  destruct (duplicate_F2 _ _ _ _ Fp Ec) as (cs' & -> & Fc). cbn [bind].
  assert (EL : map f_cell sub' = map f_cell sub). { apply F2_map_eq. revert Fs. apply F2_impl. intros u v (_ & K & _); exact K. }
  rewrite EL, El. cbn [bind]. destruct Fs as [|f f' sub sub' (K1 & _ & K2 & _) Fs]; [discriminate|]. rewrite K1, K2.
  injection E as <- <- <-. eexists. split; [reflexivity|exact Fc].
Qed.
Lemma read_alike_mda l (t t' : list (Frame R)) k st c la : Forall2 (same_at l) t t' -> get_structure_coords_latt_mda t 1 k = Ok (st, c, la) ->
  exists c', get_structure_coords_latt_mda t' 1 k = Ok (st, c', la) /\ Forall2 (alike_at l) c c'.
Proof.
  intros F E. unfold get_structure_coords_latt_mda in *. inv_bind E sub Es. destruct (stride_Forall2 _ _ _ _ _ F Es) as (sub' & -> & Fs). cbn [bind].
  inv_bind E sc Esc.
  assert (KS : exists sc', mapM (fun f => let! inv_matrix := minv (f_cell f) in let! atoms := py_stride 1 (f_pos f) in
                 Ok (map (fun p => vecmat p inv_matrix) atoms)) sub' = Ok sc' /\ Forall2 (alike_at l) sc sc').
  { clear E Es. revert sc Esc. induction Fs as [|f f' sub sub' Hf Fs IH]; intros sc Esc.
    - cbn in *. injection Esc as <-. eexists. split; [reflexivity|constructor].
    - cbn [mapM] in *. pose proof Hf as (_ & K & _). rewrite K. inv_bind Esc x Ex. inv_bind Ex i Ei. rewrite ?Ei. cbn [bind].
      rewrite py_stride_one in *. cbn [bind] in *. inv_bind Esc xs Exs. destruct (IH xs eq_refl) as (xs' & -> & F'). cbn [bind].
      injection Esc as <-. injection Ex as <-. eexists. split; [reflexivity|]. constructor; [|exact F']. now apply alike_map, same_at_alike. }
  destruct KS as (sc' & -> & Fp). cbn [bind]. inv_bind E cs Ec. inv_bind E ls El.
  destruct (duplicate_F2 _ _ _ _ Fp Ec) as (cs' & -> & Fc). cbn [bind].
  assert (EL : map f_cell sub' = map f_cell sub). { apply F2_map_eq. revert Fs. apply F2_impl. intros u v (_ & K & _); exact K. }
  rewrite EL, El. cbn [bind]. destruct Fs as [|f f' sub sub' (K1 & _ & K2 & _) Fs]; [discriminate|]. rewrite K1, K2. rewrite py_stride_one in *. cbn [bind] in *.
  injection E as <- <- <-. eexists. split; [reflexivity|exact Fc].
Qed.
Lemma C70_proof : forall (parse : parser_of) geo circ (a : ModelParser.Params R) t t' p, In parse parsers ->
  atomic_selection a -> a_sub_sample_atoms a = 1 -> parse geo circ t a = Ok p ->
  Forall2 (same_at (p_indices p ++ p_drift_indices p)%list) t t' ->
  exists p', parse geo circ t' a = Ok p' /\ same_but_dc p p'.
Proof.
  intros parse geo circ a t t' p HP Ha H1 H F.
  assert (I1 : incl (p_indices p) (p_indices p ++ p_drift_indices p)%list) by apply incl_appl, incl_refl.
  assert (I2 : incl (p_drift_indices p) (p_indices p ++ p_drift_indices p)%list) by apply incl_appr, incl_refl.
  destruct HP as [<-|[<-|[<-|[]]]].
  - unfold ase_parser in *. inv_bind H r E. destruct r as [[st c] la]. destruct (read_alike _ _ _ _ _ _ _ F E) as (c' & -> & Fc). cbn [bind].
    exact (finish_alike _ _ _ _ _ _ _ _ _ _ Ha H Fc I1 I2).
  - unfold pymatgen_parser in *. inv_bind H r E. destruct r as [[st c] la]. destruct (read_alike _ _ _ _ _ _ _ F E) as (c' & -> & Fc). cbn [bind].
    inv_bind H q Q. destruct (a_time_step a); [discriminate|].
    assert (PI : p_indices p = p_indices q /\ p_drift_indices p = p_drift_indices q) by (injection H as <-; split; reflexivity).
    destruct PI as [PI PD]. rewrite PI in I1 at 1. rewrite PD in I2 at 1.
    destruct (finish_alike _ _ _ _ _ _ _ _ _ _ Ha Q Fc I1 I2) as (q' & -> & S). cbn [bind]. injection H as <-.
    eexists. split; [reflexivity|]. destruct S as (S1 & S2 & S3 & S4 & S5 & S6 & S7 & S8 & S9). unfold same_but_dc.
    cbn [set_delta_t p_intervals p_delta_t p_disp_3d p_n_o p_indices p_drift_indices p_min_dt p_max_dt p_volume]. rewrite S2. auto 12.
  - unfold mda_parser in *. rewrite H1 in *. cbn [Z.eqb Pos.eqb orb guard bind] in *. inv_bind H r E. destruct r as [[st c] la].
    destruct (read_alike_mda _ _ _ _ _ _ _ F E) as (c' & -> & Fc). cbn [bind].
    exact (finish_alike _ _ _ _ _ _ _ _ _ _ Ha H Fc I1 I2).
Qed.

(** ** Molecules *)
Definition before (z : Z) : Z := z - 1.
Lemma mapM_alike {T U} (l : list Z) (g : list T -> Res U) (cs cs' : list (list T)) : Forall2 (alike_at l) cs cs' ->
  (forall c c', alike_at l c c' -> g c' = g c) -> mapM g cs' = mapM g cs.
Proof. intros F H. induction F as [|c c' cs cs' K _ IH]; [reflexivity|]. cbn. now rewrite (H _ _ K), IH. Qed.
Lemma same_length_alike {T} l (cs cs' : list (list T)) : Forall2 (alike_at l) cs cs' -> same_length cs' = same_length cs.
Proof.
  intros F. destruct F as [|c c' cs cs' K F]; [reflexivity|]. unfold same_length. destruct K as [K _]. rewrite K.
  assert (K' : forall n, forallb (fun y => Nat.eqb (length y) n) cs' = forallb (fun y => Nat.eqb (length y) n) cs).
  { intros n. induction F as [|x x' xs xs' [Kx _] _ IH]; [reflexivity|]. cbn. now rewrite Kx, IH. }
  cbn. now rewrite K, K'.
Qed.
Lemma incl_concat {T} (m : list T) ms : In m ms -> incl m (List.concat ms).
Proof. intros H x Hx. apply in_concat. eauto. Qed.
Lemma molecules_alike circ n (ms : list (list Z)) masses fw (cs cs' : list (list (V3 R))) :
  Forall2 (alike_at (map before (List.concat ms ++ fw)%list)) cs cs' ->
  get_molecules circ n cs' ms masses (PyList fw) = get_molecules circ n cs ms masses (PyList fw).
Proof.
  intros F. unfold get_molecules. rewrite (same_length_alike _ _ _ F).
  assert (HM : forall m, In m (map (map before) ms) -> incl m (map before (List.concat ms ++ fw)%list)).
  { intros m Hm. apply in_map_iff in Hm as (m0 & <- & Hm). apply incl_map. apply incl_appl. now apply incl_concat. }
  assert (HF : incl (map before fw) (map before (List.concat ms ++ fw)%list)) by (apply incl_map, incl_appr, incl_refl).
  change (map (map (fun z => z - 1)) ms) with (map (map before) ms). change (map (fun z => z - 1) fw) with (map before fw).
  rewrite (mapM_alike _ (fun frame => mapM (gather frame) (map (map before) ms)) _ _ F).
  2:{ intros c c' K. apply mapM_ext. intros m Hm. apply (alike_gather _ _ _ _ K). now apply HM. }
  rewrite (mapM_alike _ (molecule_frame circ masses (map (map before) ms) (map before fw)) _ _ F); [reflexivity|].
  intros c c' K. unfold molecule_frame. rewrite (alike_gather _ _ _ _ K HF). f_equal. apply mapM_ext. intros m Hm.
  now rewrite (alike_gather _ _ _ _ K (HM m Hm)).
Qed.
Lemma finish_molecules geo circ st (c c' : list (list (V3 R))) latt a ss ms fw : a_specie a = None -> a_specie_indices a = SIMol ms -> a_framework a = PyList fw ->
  Forall2 (alike_at (map before (List.concat ms ++ fw)%list)) c c' ->
  finish_parse geo circ st c' latt a ss = finish_parse geo circ st c latt a ss.
Proof.
  intros H1 H2 H3 F. unfold finish_parse, choose_atoms. rewrite H1, H2, H3. destruct ms as [|m ms]; [reflexivity|].
  now rewrite (molecules_alike _ _ _ _ _ _ _ F).
Qed.
Lemma C70_molecules_proof : forall (parse : parser_of) geo circ (a : ModelParser.Params R) t t' p ms fw, In parse parsers ->
  a_specie a = None -> a_specie_indices a = SIMol ms -> a_framework a = PyList fw -> a_sub_sample_atoms a = 1 ->
  Forall2 (same_at (map (fun z => z - 1) (List.concat ms ++ fw)%list)) t t' ->
  parse geo circ t a = Ok p -> parse geo circ t' a = Ok p.
Proof.
  intros parse geo circ a t t' p ms fw HP H1 H2 H3 H4 F H. change (fun z => z - 1) with before in F. destruct HP as [<-|[<-|[<-|[]]]].
  - unfold ase_parser in *. inv_bind H r E. destruct r as [[st c] la]. destruct (read_alike _ _ _ _ _ _ _ F E) as (c' & -> & Fc). cbn [bind].
    now rewrite (finish_molecules _ _ _ _ _ _ _ _ _ _ H1 H2 H3 Fc).
  - unfold pymatgen_parser in *. inv_bind H r E. destruct r as [[st c] la]. destruct (read_alike _ _ _ _ _ _ _ F E) as (c' & -> & Fc). cbn [bind].
    now rewrite (finish_molecules _ _ _ _ _ _ _ _ _ _ H1 H2 H3 Fc).
  - unfold mda_parser in *. rewrite H4 in *. cbn [Z.eqb Pos.eqb orb guard bind] in *. inv_bind H r E. destruct r as [[st c] la].
    destruct (read_alike_mda _ _ _ _ _ _ _ F E) as (c' & -> & Fc). cbn [bind].
    now rewrite (finish_molecules _ _ _ _ _ _ _ _ _ _ H1 H2 H3 Fc).
Qed.

(** Lithium hops, oxygen is the framework, silicon is looked at by nobody. *)
Definition onlookers (n : nat) (y : nat -> V3 R) : list (Frame R) :=
  frames_of ["Li"; "O"; "Si"]%string 1%R n 3 (fun f i => match i with 2%nat => y f | _ => hop f i end) (fun _ => unit_cell).
Definition onlooker_params : ModelParser.Params R := mkParams (Some ["Li"%string]) (PyFloat 1%R) 1 1 1 one_step SINone None (PyList [1]).
Lemma C70_example_proof : forall circ y, exists p, ase_parser geomspace_R circ (onlookers 3 (fun _ => zero3)) onlooker_params = Ok p
  /\ p_indices p = [0] /\ p_drift_indices p = [1] /\ (exists a1, p_disp_3d p = [a1] /\ length (entries a1) = 3%nat)
  /\ Forall2 (same_at (p_indices p ++ p_drift_indices p)%list) (onlookers 3 (fun _ => zero3)) (onlookers 3 y).
Proof.
  intros circ y.
  assert (E0 : onlookers 3 (fun _ => zero3) = frames_of ["Li"; "O"; "Si"]%string 1%R 3 3 hop (fun _ => unit_cell)).
  { unfold onlookers. apply frames_of_ext. intros f i. destruct i as [|[|[|i]]]; reflexivity. }
  assert (P : exists p a1 x y z, ase_parser geomspace_R circ (onlookers 3 (fun _ => zero3)) onlooker_params = Ok p
    /\ p_indices p = [0] /\ p_drift_indices p = [1] /\ p_disp_3d p = [a1] /\ a_rows a1 = [[x;y;z]]).
  { rewrite E0. unfold one_step.
    rewrite (ase_run geomspace_R circ unit_cell _ _ 3 3 1 hop _ ["Li"%string] [0] [1])
      by (first [exact unit_cell_volume | apply hop3_small; lia | lia | reflexivity]).
    cbn [onlooker_params a_time_step pynum_val a_step_skip a_opts]. rewrite kept_one.
    rewrite (parser_init_ints geomspace_R 3 3 _ [0] [1] 1 1 1 "multi-origin" 8 8)
      by (first [repeat constructor; cbn; lia | lia]).
    change (tab _ (lin _ 1 _)) with (map Z.of_nat [1]%nat).
    rewrite get_disps_multi' by (repeat constructor; cbn; lia).
    assert (E : Rltb 8 (in_gigabytes (fold_right Z.add 0 (map (estimate (length [0]) 3 8) [1]%nat))) = false).
    { apply Rltb_false. unfold in_gigabytes. cbn. lra. }
    rewrite E. cbn [bind]. do 5 eexists. split; [reflexivity|]. do 3 (split; [reflexivity|]). reflexivity. }
  destruct P as (p & a1 & u & v & w & P & I & D & A & Rw). exists p. split; [exact P|]. split; [exact I|]. split; [exact D|]. split.
  - exists a1. split; [exact A|]. unfold entries. rewrite Rw. reflexivity.
  - rewrite I, D. cbn [app]. unfold onlookers, frames_of.
    assert (K : forall l : list nat, Forall2 (same_at [0; 1])
      (map (fun f => mkFrame ["Li"; "O"; "Si"]%string (tab 3 (fun i => match i with 2%nat => zero3 | _ => hop f i end)) unit_cell 1%R) l)
      (map (fun f => mkFrame ["Li"; "O"; "Si"]%string (tab 3 (fun i => match i with 2%nat => y f | _ => hop f i end)) unit_cell 1%R) l)).
    { induction l as [|f l IH]; cbn [map]; constructor; [|exact IH]. do 4 (split; [reflexivity|]). intros i [<-|[<-|[]]]; reflexivity. }
    apply K.
Qed.
