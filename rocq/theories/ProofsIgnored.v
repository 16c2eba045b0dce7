(** * ProofsIgnored: atoms that are neither selected nor framework, whatever the arithmetic (C105) *)
From Verif Require Import Base Spec SpecParser SpecStats SpecRun SpecTrue SpecLost ModelParser ModelDiffusion ModelHdf ModelAnalyzer
  Lemmas ProofsTraj ProofsOrder ProofsInterfaces ProofsSpectator SpecDouble SpecRound SpecChain SpecUnwrap ProofsUnwrap ProofsUnwrap ProofsRound ProofsChain ProofsLost.
From Coq.Floats Require Import SpecFloat.
Open Scope Z_scope.

Section Gen.
Context {A} {NA : Num A}.
(** Displacements of all atoms. *)
Lemma gdisp_alike l (coords coords' : list (list (V3 A))) latt d : Forall2 (alike_at l) coords coords' -> get_disp coords latt = Ok d ->
  exists d', get_disp coords' latt = Ok d' /\ a_obs d' = a_obs d /\ alike_at l (a_rows d) (a_rows d').
Proof.
  intros F E. unfold get_disp in *. assert (HL : length coords = length coords') by (clear -F; induction F; cbn; congruence).
  assert (HF : forallb (fun f => Nat.eqb (length f) (length (hd [] coords'))) coords' = forallb (fun f => Nat.eqb (length f) (length (hd [] coords))) coords).
  { assert (L0 : length (hd [] coords') = length (hd [] coords)). { destruct F as [|? ? ? ? [K _] _]; [reflexivity|exact K]. }
    rewrite L0. generalize (length (hd [] coords)). intros n. clear - F. induction F as [|c c' cs cs' [K _] _ IH]; [reflexivity|]. cbn. now rewrite K, IH. }
  destruct F as [|c c' cs cs' Hc F]; [discriminate|]. cbn [hd] in HF. set (n := length c) in *. set (n' := length c') in *.
  assert (En : n' = n) by apply Hc. rewrite HF.
  destruct (forallb _ (c :: cs)) eqn:HA; [|discriminate]. cbn [guard bind] in E |- *.
  destruct (mapM minv latt) as [li|]; [|discriminate]. cbn [bind] in *. rewrite <- HL.
  destruct (Nat.eqb (length (c :: cs)) (length latt)); [|discriminate]. cbn [guard bind] in *. injection E as <-.
  eexists. split; [reflexivity|]. cbn [a_obs a_rows]. split; [reflexivity|]. rewrite En. split; [now rewrite !map_length|].
  intros i Hi. rewrite !py_index_map. destruct (py_index (seq 0 n) i) as [j|] eqn:Ej; [|reflexivity]. f_equal. f_equal.
  apply (F2_map_eq (fun f => nth j f v0) (fun f => nth j f v0) (c :: cs) (c' :: cs')). rewrite forallb_forall in HA.
  assert (F0 : Forall2 (alike_at l) (c :: cs) (c' :: cs')) by (constructor; assumption).
  assert (Hj : forall T (x : list T), length x = n -> py_index x i = opt_res IndexError (nth_error x j) /\ nth_error x j <> None).
  { intros T x Lx. unfold py_index in *. rewrite seq_length in Ej. rewrite Lx. destruct (_ && _) eqn:B; [|discriminate].
    apply andb_prop in B as [B1 B2]. apply Z.leb_le in B1. apply Z.ltb_lt in B2.
    set (k := if i <? 0 then i + Z.of_nat n else i) in *.
    rewrite (nth_error_nth' _ 0%nat) in Ej by (rewrite seq_length; lia). rewrite seq_nth in Ej by lia.
    cbn in Ej. injection Ej as <-. split; [reflexivity|]. apply nth_error_Some. rewrite Lx. lia. }
  clear HL HF Ej. set (all := c :: cs) in *. set (all' := c' :: cs') in *. clearbody all all'.
  induction F0 as [|x x' xs xs' [Lx Kx] F0 IH]; [constructor|]. constructor.
  - assert (Lx0 : length x = n) by (apply Nat.eqb_eq, HA; now left).
    destruct (Hj _ x Lx0) as [P1 P2]. destruct (Hj _ x') as [P1' P2']; [congruence|].
    specialize (Kx i Hi). rewrite P1, P1' in Kx. destruct (nth_error x j) eqn:G; [|congruence]. destruct (nth_error x' j) eqn:G'; [|congruence].
    cbn in Kx. injection Kx as ->. now rewrite (nth_error_nth _ _ _ G), (nth_error_nth _ _ _ G').
  - apply IH. intros y Hy. apply HA. now right.
Qed.

Lemma gdrift_alike l D (d d' dc : Arr A) : a_obs d' = a_obs d -> alike_at l (a_rows d) (a_rows d') -> incl D l -> correct_drift D d = Ok dc ->
  exists dc', correct_drift D d' = Ok dc' /\ a_obs dc' = a_obs dc /\ alike_at l (a_rows dc) (a_rows dc').
Proof.
  intros Ho HA HD E. unfold correct_drift in *. destruct D as [|z D].
  - injection E as <-. eauto.
  - rewrite (alike_gather _ _ _ _ HA HD). destruct (gather (a_rows d) (z :: D)) as [fw|]; [|discriminate]. cbn [bind] in *.
    injection E as <-. eexists. split; [reflexivity|]. cbn [a_obs a_rows]. rewrite Ho. split; [reflexivity|]. now apply alike_map.
Qed.
Lemma ginit_alike geo l I D (d d' : Arr A) (ts : A) ss o p : a_obs d' = a_obs d -> alike_at l (a_rows d) (a_rows d') -> incl I l -> incl D l ->
  parser_init geo d I D ts ss o = Ok p -> exists p', parser_init geo d' I D ts ss o = Ok p' /\ same_measured p p'.
Proof.
  intros Ho HA HI HD E. unfold parser_init in *. inv_bind E dc Ed.
  destruct (gdrift_alike _ _ _ _ _ Ho HA HD Ed) as (dc' & -> & Oc & Ac). cbn [bind]. rewrite Oc.
  inv_bind E q Eq. cbv zeta. rewrite ?Eq. cbn [bind]. inv_bind E z Ez. rewrite ?Ez. cbn [bind]. destruct (_ <=? _); [discriminate|].
  inv_bind E tis Et. rewrite ?Et. cbn [bind]. inv_bind E r Er.
  assert (Er' : get_disps ts ss I (o_sampling o) (o_memory_limit o) (o_itemsize o) tis dc' = Ok r).
  { unfold get_disps in *. now rewrite (alike_gather _ _ _ _ Ac HI), Oc. }
  rewrite Er'. cbn [bind]. injection E as <-. eexists. split; [reflexivity|]. repeat split.
Qed.
Lemma gchoose_other circ st (c c' : list (list (V3 A))) a sel : atomic_selection a -> choose_atoms circ st c a = Ok sel ->
  choose_atoms circ st c' a = Ok (c', snd sel).
Proof.
  intros Ha H. unfold choose_atoms in *. destruct (a_specie a) as [sp|] eqn:Esp.
  - inv_bind H ix E. rewrite ?E. cbn [bind]. now injection H as <-.
  - destruct Ha as [Ha|(l & Ha)]; [congruence|]. rewrite Ha in *. destruct l as [|z l]; [discriminate|].
    inv_bind H ix E. rewrite ?E. cbn [bind]. now injection H as <-.
Qed.
Lemma gfinish_alike geo circ st (c c' : list (list (V3 A))) latt a ss p l : atomic_selection a ->
  finish_parse geo circ st c latt a ss = Ok p -> Forall2 (alike_at l) c c' -> incl (p_indices p) l -> incl (p_drift_indices p) l ->
  exists p', finish_parse geo circ st c' latt a ss = Ok p' /\ same_measured p p'.
Proof.
  intros Ha H F HI HD. unfold finish_parse in *. inv_bind H sel Es. rewrite (gchoose_other _ _ _ c' _ _ Ha Es). cbn [bind fst snd].
  rewrite (choose_atomic _ _ _ _ _ Ha Es) in H. inv_bind H d Ed. destruct (gdisp_alike _ _ _ _ _ F Ed) as (d' & -> & Ho & HA). cbn [bind].
  inv_bind H q Eq.
  assert (PI : p_indices p = fst (snd sel) /\ p_drift_indices p = snd (snd sel)).
  { injection H as <-. cbn [set_volume p_indices p_drift_indices]. unfold parser_init in Eq. inv_bind Eq dc E1. inv_bind Eq w E2. inv_bind Eq z E3.
    destruct (_ <=? _); [discriminate|]. inv_bind Eq tis E4. inv_bind Eq r E5. injection Eq as <-. split; reflexivity. }
  destruct PI as [P1 P2]. rewrite P1 in HI. rewrite P2 in HD.
  destruct (ginit_alike _ _ _ _ _ _ _ _ _ _ Ho HA HI HD Eq) as (q' & -> & S). cbn [bind]. injection H as <-.
  eexists. split; [reflexivity|]. destruct S as (S1 & S2 & S3 & S4 & S5 & S6 & S7 & S8 & S9). unfold same_measured. cbn [set_volume p_intervals p_delta_t p_disp_3d p_n_o p_indices p_drift_indices p_min_dt p_max_dt p_volume]. auto 12.
Qed.

Lemma gsame_at_alike l (f f' : Frame A) : agree_at l f f' -> alike_at l (f_pos f) (f_pos f').
Proof. intros (_ & _ & _ & L & H). split; assumption. Qed.
Lemma gread_alike l (t t' : list (Frame A)) k st c la : Forall2 (agree_at l) t t' -> get_structure_coords_latt t k = Ok (st, c, la) ->
  exists c', get_structure_coords_latt t' k = Ok (st, c', la) /\ Forall2 (alike_at l) c c'.
Proof.
  intros F E. unfold get_structure_coords_latt in *. inv_bind E sub Es. destruct (stride_Forall2 _ _ _ _ _ F Es) as (sub' & -> & Fs). cbn [bind].
  inv_bind E cs Ec. inv_bind E ls El.
  assert (Fp : Forall2 (alike_at l) (map f_pos sub) (map f_pos sub')). { apply F2_map. revert Fs. apply F2_impl. intros u v; apply gsame_at_alike. }
  destruct (duplicate_F2 _ _ _ _ Fp Ec) as (cs' & -> & Fc). cbn [bind].
  assert (EL : map f_cell sub' = map f_cell sub). { apply F2_map_eq. revert Fs. apply F2_impl. intros u v (_ & K & _); exact K. }
  rewrite EL, El. cbn [bind]. destruct Fs as [|f f' sub sub' (K1 & _ & K2 & _) Fs]; [discriminate|]. rewrite K1, K2.
  injection E as <- <- <-. eexists. split; [reflexivity|exact Fc].
Qed.
Lemma gread_alike_mda l (t t' : list (Frame A)) k st c la : Forall2 (agree_at l) t t' -> get_structure_coords_latt_mda t 1 k = Ok (st, c, la) ->
  exists c', get_structure_coords_latt_mda t' 1 k = Ok (st, c', la) /\ Forall2 (alike_at l) c c'.
Proof.
  intros F E. unfold get_structure_coords_latt_mda in *. inv_bind E sub Es. destruct (stride_Forall2 _ _ _ _ _ F Es) as (sub' & -> & Fs). cbn [bind].
  inv_bind E sc Esc.
  assert (KS : exists sc', mapM (fun f => let! inv_matrix := minv (f_cell f) in let! atoms := py_stride 1 (f_pos f) in
                 Ok (map (fun p => vecmat p inv_matrix) atoms)) sub' = Ok sc' /\ Forall2 (alike_at l) sc sc').
  { clear E Es. revert sc Esc. induction Fs as [|f f' sub sub' Hf Fs IH]; intros sc Esc.
    - cbn in *. injection Esc as <-. eexists. split; [reflexivity|constructor].
    - cbn [mapM] in *. pose proof Hf as (_ & K & _). rewrite K. inv_bind Esc x Ex. inv_bind Ex i Ei. rewrite ?Ei. cbn [bind].
      rewrite py_stride_one in *. cbn [bind] in *. inv_bind Esc xs Exs. destruct (IH xs eq_refl) as (xs' & -> & F'). cbn [bind].
      injection Esc as <-. injection Ex as <-. eexists. split; [reflexivity|]. constructor; [|exact F']. now apply alike_map, gsame_at_alike. }
  destruct KS as (sc' & -> & Fp). cbn [bind]. inv_bind E cs Ec. inv_bind E ls El.
  destruct (duplicate_F2 _ _ _ _ Fp Ec) as (cs' & -> & Fc). cbn [bind].
  assert (EL : map f_cell sub' = map f_cell sub). { apply F2_map_eq. revert Fs. apply F2_impl. intros u v (_ & K & _); exact K. }
  rewrite EL, El. cbn [bind]. destruct Fs as [|f f' sub sub' (K1 & _ & K2 & _) Fs]; [discriminate|]. rewrite K1, K2. rewrite py_stride_one in *. cbn [bind] in *.
  injection E as <- <- <-. eexists. split; [reflexivity|exact Fc].
Qed.
Lemma ignored_proof : forall (parse : (Z -> Z -> Z -> Res (list Z)) -> (option (list A) -> list A -> Res A) -> list (Frame A) -> Params A -> Res (Parsed A)) geo circ (a : Params A) t t' (p : Parsed A), In parse [ase_parser; pymatgen_parser; mda_parser] ->
  atomic_selection a -> a_sub_sample_atoms a = 1 -> parse geo circ t a = Ok p ->
  Forall2 (agree_at (p_indices p ++ p_drift_indices p)%list) t t' ->
  exists p', parse geo circ t' a = Ok p' /\ same_measured p p'.
Proof.
  intros parse geo circ a t t' p HP Ha H1 H F.
  assert (I1 : incl (p_indices p) (p_indices p ++ p_drift_indices p)%list) by apply incl_appl, incl_refl.
  assert (I2 : incl (p_drift_indices p) (p_indices p ++ p_drift_indices p)%list) by apply incl_appr, incl_refl.
  destruct HP as [<-|[<-|[<-|[]]]].
  - unfold ase_parser in *. inv_bind H r E. destruct r as [[st c] la]. destruct (gread_alike _ _ _ _ _ _ _ F E) as (c' & -> & Fc). cbn [bind].
    exact (gfinish_alike _ _ _ _ _ _ _ _ _ _ Ha H Fc I1 I2).
  - unfold pymatgen_parser in *. inv_bind H r E. destruct r as [[st c] la]. destruct (gread_alike _ _ _ _ _ _ _ F E) as (c' & -> & Fc). cbn [bind].
    inv_bind H q Q. destruct (a_time_step a); [discriminate|].
    assert (PI : p_indices p = p_indices q /\ p_drift_indices p = p_drift_indices q) by (injection H as <-; split; reflexivity).
    destruct PI as [PI PD]. rewrite PI in I1 at 1. rewrite PD in I2 at 1.
    destruct (gfinish_alike _ _ _ _ _ _ _ _ _ _ Ha Q Fc I1 I2) as (q' & -> & S). cbn [bind]. injection H as <-.
    eexists. split; [reflexivity|]. destruct S as (S1 & S2 & S3 & S4 & S5 & S6 & S7 & S8 & S9). unfold same_measured.
    cbn [set_delta_t p_intervals p_delta_t p_disp_3d p_n_o p_indices p_drift_indices p_min_dt p_max_dt p_volume]. rewrite S2. auto 12.
  - unfold mda_parser in *. rewrite H1 in *. cbn [Z.eqb Pos.eqb orb guard bind] in *. inv_bind H r E. destruct r as [[st c] la].
    destruct (gread_alike_mda _ _ _ _ _ _ _ F E) as (c' & -> & Fc). cbn [bind].
    exact (gfinish_alike _ _ _ _ _ _ _ _ _ _ Ha H Fc I1 I2).
Qed.

End Gen.

Lemma C105_unused_proof {G Seed RS} (X : Ext spec_float G Seed RS) i gs circ frames frames' (a : Params spec_float) p :
  parser_in_doubles i gs circ frames a = Ok p -> a_sub_sample_atoms a = 1 -> atomic_selection a ->
  Forall2 (agree_at (p_indices p ++ p_drift_indices p)%list) frames frames' ->
  exists p', parser_in_doubles i gs circ frames' a = Ok p' /\ same_measured p p'
    /\ (forall u g, diffusion_analyzer X (of_parsed p') u g = diffusion_analyzer X (of_parsed p) u g)
    /\ (forall u g, jump_diffusion_analyzer X (of_parsed p') u g = jump_diffusion_analyzer X (of_parsed p) u g)
    /\ forall q u g, conductivity_analyzer X (of_parsed p') q u g = conductivity_analyzer X (of_parsed p) q u g.
Proof.
  intros H H1 HA F. destruct (ignored_proof (parser_in_doubles i) gs circ a frames frames' p) as (p' & E & S); try assumption.
  - destruct i; cbn; auto.
  - exists p'. split; [exact E|]. split; [exact S|]. destruct S as (S1 & S2 & S3 & S4 & S5 & S6 & S7 & S8 & S9).
    assert (O : of_parsed p' = of_parsed p) by (unfold of_parsed; now rewrite S2, S3, S4, S9). rewrite O. auto.
Qed.
(** Lithium hops by eighths, oxygen is the framework, silicon is looked at by nobody. *)
Definition stray (x : spec_float) (o : spec_float) (s : spec_float) : list (Frame spec_float) :=
  tab 3 (fun f => mkFrame ["Li"; "O"; "Si"]%string
    [mkV (match f with O => eighths 7 | S O => x | _ => eighths 3 end) (eighths 3) (S754_zero false);
     mkV (S754_zero false) (match f with O => o | _ => S754_zero false end) (S754_zero false);
     mkV (eighths 1) (eighths 1) s] (box ten3) (SFofZ 1000)).
Definition stray_params : Params spec_float := mkParams (Some ["Li"%string]) (PyFloat (SFofZ 1)) 1 1 1 chain_opts SINone None (PyList [1]).
Definition stray_boot : BootParams spec_float := mkBootParams 1 false false 0 0 (PyStr "xyz") (SFofZ 0).
Definition no_space (_ _ _ : Z) : Res (list Z) := Raise ValueError.
Lemma C105_example_proof {G Seed RS} (X : Ext spec_float G Seed RS) circ g :
  (** the lithium, or only the framework, lost: nothing but NaN is reported *)
  (exists p an, parser_in_doubles Ase no_space circ (stray S754_nan (S754_zero false) (S754_zero false)) stray_params = Ok p
     /\ p_indices p = [0] /\ p_drift_indices p = [1] /\ p_intervals p = [1; 2; 3]
     /\ diffusion_analyzer X (of_parsed p) stray_boot g = Ok (an, g) /\ b_n (an_diff an) = [S754_nan])
  /\ (exists p an, parser_in_doubles Ase no_space circ (stray (eighths 1) (S754_infinity false) (S754_zero false)) stray_params = Ok p
     /\ diffusion_analyzer X (of_parsed p) stray_boot g = Ok (an, g) /\ b_n (an_diff an) = [S754_nan])
  (** the silicon lost: 25/6, as if it were not *)
  /\ (exists p an, parser_in_doubles Ase no_space circ (stray (eighths 1) (S754_zero false) S754_nan) stray_params = Ok p
     /\ diffusion_analyzer X (of_parsed p) stray_boot g = Ok (an, g) /\ b_n (an_diff an) = [S754_finite false 4691249611844267 (-50)]).
Proof.
  split; [|split]; do 2 eexists; (split; [vm_compute; reflexivity|]); repeat (split; [reflexivity|]); vm_compute; reflexivity.
Qed.
Lemma C105_number_proof {G Seed RS} (X : Ext spec_float G Seed RS) i gs circ frames (a : Params spec_float) p q u g an g' :
  parser_in_doubles i gs circ frames a = Ok p -> 0 < a_sub_sample_traj a -> a_sub_sample_atoms a = 1 ->
  atomic_selection a -> o_sampling (a_opts a) = "multi-origin"%string -> Forall (fun m => 0 < m) (p_intervals p) ->
  0 < u_sub_sample_dt u -> u_block u = false -> (forall l, q = QArray l -> length l = length (p_indices p)) ->
  diffusion_analyzer X (of_parsed p) u g = Ok (an, g') \/ jump_diffusion_analyzer X (of_parsed p) u g = Ok (an, g') \/ conductivity_analyzer X (of_parsed p) q u g = Ok (an, g') ->
  Exists (fun x => ~ no_number x) (b_n (an_diff an)) ->
  forall j fr c v ax, nth_error frames (j * Z.to_nat (a_sub_sample_traj a)) = Some fr -> In c (p_indices p ++ p_drift_indices p)%list ->
    nth_error (f_pos fr) (site (length (f_pos fr)) c) = Some v -> ~ no_number (part v ax).
Proof.
  intros H H0 H1 H2 H3 H4 H5 H6 H7 H8 HE j fr c v ax Ef Ic Ev Hn.
  pose proof (C105_proof no_number no_number_absorbing X i gs circ frames a p j fr c v ax q u g an g' H H0 H1 H2 H3 H4 Ef Ev Ic Hn H5 H6 H7 H8) as F.
  rewrite Forall_forall in F. apply Exists_exists in HE as (x & Ix & Hx). exact (Hx (F x Ix)).
Qed.
