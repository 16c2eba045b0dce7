(** * ProofsUnion: several species at once (C71) *)
From Verif Require Import Base Spec SpecParser SpecStats SpecFit SpecAnalyzer ModelParser ModelDiffusion ModelHdf ModelAnalyzer
  Lemmas ProofsDisp ProofsIntervals ProofsWindows ProofsParser ProofsTraj ProofsBoot ProofsStats ProofsStats2 ProofsFit ProofsFit2 ProofsAnalyzer
  SpecRun SpecSym ProofsSym ProofsTime SpecOrder ProofsOrder SpecInterfaces ProofsInterfaces ProofsSpectator.
From Coq Require Import Reals Lra Lia Permutation.
Open Scope Z_scope.

Lemma existsb_names x s : existsb (String.eqb x) s = true <-> In x s.
Proof.
  rewrite existsb_exists. split.
  - intros (y & Hy & E). apply String.eqb_eq in E. now subst.
  - intros H. exists x. split; [exact H|]. apply String.eqb_refl.
Qed.
Lemma select_union s1 s2 : disjoint_names s1 s2 -> forall types i,
  Permutation (select_where true (s1 ++ s2)%list i types) (select_where true s1 i types ++ select_where true s2 i types)%list.
Proof.
  intros HD. induction types as [|x types IH]; intros i; [constructor|]. cbn [select_where]. rewrite existsb_app.
  destruct (existsb (String.eqb x) s1) eqn:E1, (existsb (String.eqb x) s2) eqn:E2; cbn [orb Bool.eqb app].
  - exfalso. apply existsb_names in E1, E2. exact (HD x E1 E2).
  - constructor. apply IH.
  - apply Permutation_cons_app, IH.
  - apply IH.
Qed.

(** Atoms [I1 ++ I2] at once. *)
Lemma mapM_app {T U} (f : T -> Res U) l1 l2 r : mapM f (l1 ++ l2)%list = Ok r ->
  exists r1 r2, mapM f l1 = Ok r1 /\ mapM f l2 = Ok r2 /\ r = (r1 ++ r2)%list.
Proof.
  revert r. induction l1 as [|x l1 IH]; intros r H; cbn [app mapM] in *.
  - exists [], r. auto.
  - inv_bind H y Ey. inv_bind H ys Eys. destruct (IH ys Eys) as (r1 & r2 & E1 & E2 & ->). injection H as <-.
    exists (y :: r1), r2. cbn. rewrite ?Ey. cbn. rewrite E1. auto.
Qed.
Lemma window_union samp i ti s1 s2 T (w : Arr R) : window samp i ti (s1 ++ s2)%list T = Ok w ->
  exists w1 w2, window samp i ti s1 T = Ok w1 /\ window samp i ti s2 T = Ok w2 /\ a_obs w1 = a_obs w /\ a_obs w2 = a_obs w
    /\ a_rows w = (a_rows w1 ++ a_rows w2)%list /\ length (a_rows w1) = length s1 /\ length (a_rows w2) = length s2.
Proof.
  unfold window. destruct (_ =? _)%string.
  - intros H. injection H as <-. do 2 eexists. do 4 (split; [reflexivity|]). cbn [single_origin a_rows]. rewrite map_app, !map_length. auto.
  - destruct (_ =? _)%string; [|discriminate]. unfold multi_origin. intros H. inv_bind H sh E1. inv_bind H u E2. inv_bind H rows E3. injection H as <-.
    destruct (mapM_app _ _ _ _ E3) as (r1 & r2 & F1 & F2 & ->). rewrite ?E1. cbn [bind]. rewrite ?E2. cbn [bind]. rewrite F1, F2. cbn [bind].
    do 2 eexists. do 5 (split; [reflexivity|]). cbn [a_rows]. apply mapM_length in F1, F2. auto.
Qed.
Definition joined_lists (ds1 ds2 ds : list (Arr R)) (c1 c2 c : list R) : Prop :=
  length ds1 = length ds /\ length ds2 = length ds /\ length c1 = length c /\ length c2 = length c
  /\ (forall i d1 d2 d, nth_error ds1 i = Some d1 -> nth_error ds2 i = Some d2 -> nth_error ds i = Some d ->
        a_obs d1 = a_obs d /\ a_obs d2 = a_obs d /\ a_rows d = (a_rows d1 ++ a_rows d2)%list)
  /\ (forall i x1 x2 x, nth_error c1 i = Some x1 -> nth_error c2 i = Some x2 -> nth_error c i = Some x -> x = (x1 + x2)%R).
Lemma joined_nil : joined_lists [] [] [] [] [] [].
Proof. unfold joined_lists. do 4 (split; [reflexivity|]). split; intros [|i]; discriminate. Qed.
Lemma loop_union samp s1 s2 T last : (1 < length s1)%nat -> (1 < length s2)%nat -> forall tis i r,
  disps_loop samp (s1 ++ s2)%list T last i tis = Ok r ->
  exists r1 r2, disps_loop samp s1 T last i tis = Ok r1 /\ disps_loop samp s2 T last i tis = Ok r2
    /\ joined_lists (fst r1) (fst r2) (fst r) (snd r1) (snd r2) (snd r).
Proof.
  intros L1 L2. induction tis as [|ti tis IH]; intros i r H; cbn [disps_loop] in *.
  - injection H as <-. do 2 eexists. split; [reflexivity|]. split; [reflexivity|].
    exact joined_nil.
  - inv_bind H w Ew. destruct (window_union _ _ _ _ _ _ _ Ew) as (w1 & w2 & -> & -> & O1 & O2 & Rw & N1 & N2). cbn [bind]. rewrite O1, O2.
    inv_bind H c Ec. rewrite ?Ec. cbn [bind]. inv_bind H tl Et. destruct (IH _ _ Et) as (r1 & r2 & -> & -> & J). cbn [bind].
    rewrite N1, N2. rewrite Rw, app_length, N1, N2 in H.
    assert (C : c <= 0 \/ 1 <= c) by lia. destruct C as [C|C].
    + assert (B1 : (Z.of_nat (length s1) * c <=? 1) = true) by (apply Z.leb_le; nia).
      assert (B2 : (Z.of_nat (length s2) * c <=? 1) = true) by (apply Z.leb_le; nia).
      assert (B3 : (Z.of_nat (length s1 + length s2) * c <=? 1) = true) by (apply Z.leb_le; nia).
      rewrite B3 in H. rewrite B1, B2. injection H as <-. do 2 eexists. split; [reflexivity|]. split; [reflexivity|]. exact J.
    + assert (B1 : (Z.of_nat (length s1) * c <=? 1) = false) by (apply Z.leb_gt; nia).
      assert (B2 : (Z.of_nat (length s2) * c <=? 1) = false) by (apply Z.leb_gt; nia).
      assert (B3 : (Z.of_nat (length s1 + length s2) * c <=? 1) = false) by (apply Z.leb_gt; nia).
      rewrite B3 in H. rewrite B1, B2. injection H as <-. do 2 eexists. split; [reflexivity|]. split; [reflexivity|].
      destruct J as (J1 & J2 & J3 & J4 & J5 & J6). unfold joined_lists. cbn [fst snd length]. repeat (split; [congruence|]). split.
      * intros [|k] d1 d2 d; cbn [nth_error].
        -- intros [= <-] [= <-] [= <-]. auto.
        -- apply J5.
      * intros [|k] x1 x2 x; cbn [nth_error].
        -- intros [= <-] [= <-] [= <-]. rewrite Nat2Z.inj_add, plus_IZR. unfold Rdiv. ring.
        -- apply J6.
Qed.
Lemma parser_init_union geo d I1 I2 D (ts : R) ss o p p1 p2 : (1 < length I1)%nat -> (1 < length I2)%nat ->
  parser_init geo d (I1 ++ I2)%list D ts ss o = Ok p -> parser_init geo d I1 D ts ss o = Ok p1 -> parser_init geo d I2 D ts ss o = Ok p2 ->
  joint_parse p1 p2 p.
Proof.
  intros L1 L2 H H1 H2. unfold parser_init in *. inv_bind H dc E1. try rewrite E1 in H1; try rewrite E1 in H2. cbn [bind] in H1, H2. inv_bind H q Eq. try rewrite Eq in H1; try rewrite Eq in H2. cbn [bind] in H1, H2.
  inv_bind H m Em. try rewrite Em in H1; try rewrite Em in H2. cbn [bind] in H1, H2. destruct (_ <=? m) eqn:Em'; [discriminate|]. inv_bind H tis Et. try rewrite Et in H1; try rewrite Et in H2. cbn [bind] in H1, H2.
  inv_bind H r Er. inv_bind H1 r1 Er1. inv_bind H2 r2 Er2. injection H as <-. injection H1 as <-. injection H2 as <-.
  cbn [p_intervals p_delta_t p_disp_3d p_n_o]. 
  assert (K : fst (fst r1) = fst (fst r) /\ fst (fst r2) = fst (fst r) /\ joined_lists (snd (fst r1)) (snd (fst r2)) (snd (fst r)) (snd r1) (snd r2) (snd r)).
  { unfold get_disps in *. destruct tis as [|t0 tis].
    - destruct (_ <? _)%num; [discriminate|]. injection Er as <-. injection Er1 as <-. injection Er2 as <-. split; [reflexivity|]. split; [reflexivity|].
      exact joined_nil.
    - inv_bind Er sel Es. inv_bind Er1 sel1 Es1. inv_bind Er2 sel2 Es2. unfold gather in Es. destruct (mapM_app _ _ _ _ Es) as (s1 & s2 & G1 & G2 & ->).
      unfold gather in Es1, Es2. rewrite G1 in Es1. rewrite G2 in Es2. injection Es1 as <-. injection Es2 as <-.
      apply mapM_length in G1, G2.
      destruct (_ <? _)%num in Er; [discriminate|]. destruct (_ <? _)%num in Er1; [discriminate|]. destruct (_ <? _)%num in Er2; [discriminate|].
      inv_bind Er x Ex. assert (Ls1 : (1 < length s1)%nat) by lia. assert (Ls2 : (1 < length s2)%nat) by lia.
      destruct (loop_union _ _ _ _ _ Ls1 Ls2 _ _ _ Ex) as (x1 & x2 & Ex1 & Ex2 & J).
      rewrite Ex1 in Er1. rewrite Ex2 in Er2. cbn [bind] in Er1, Er2. injection Er as <-. injection Er1 as <-. injection Er2 as <-.
      cbn [fst snd]. auto. }
  destruct K as (K1 & K2 & (J1 & J2 & J3 & J4 & J5 & J6)). unfold joint_parse. cbn [p_intervals p_delta_t p_disp_3d p_n_o].
  repeat (split; [auto; fail|]). split; [|exact J6].
  intros i d1 d2 d0 A B C. destruct (J5 _ _ _ _ A B C) as (U & V & W). split; [exact U|]. split; [exact V|]. rewrite W. apply Permutation_refl.
Qed.

Lemma same_parse_joint p1 p2 p p' : same_parse p p' -> joint_parse p1 p2 p' -> joint_parse p1 p2 p.
Proof.
  intros (S1 & S2 & S3 & S4 & _) (J1 & J2 & J3 & J4 & J5 & J6 & J7 & J8 & J9 & J10).
  assert (L : length (p_disp_3d p') = length (p_disp_3d p)) by (symmetry; clear - S1; induction S1; cbn; congruence).
  unfold joint_parse. rewrite <- S2, <- S3, <- S4, <- L. repeat (split; [assumption|]). split; [|exact J10].
  intros i d1 d2 d H1 H2 H. destruct (Forall2_nth_error _ _ _ _ _ S1 H) as (d' & H' & (O & P)).
  destruct (J9 _ _ _ _ H1 H2 H') as (A & B & C). split; [congruence|]. split; [congruence|]. now transitivity (a_rows d').
Qed.
Lemma finish_union geo circ st coords latt a s1 s2 ss fw p p1 p2 : disjoint_names s1 s2 -> a_framework a = PyList fw ->
  finish_parse geo circ st coords latt (with_specie (s1 ++ s2)%list a) ss = Ok p ->
  finish_parse geo circ st coords latt (with_specie s1 a) ss = Ok p1 ->
  finish_parse geo circ st coords latt (with_specie s2 a) ss = Ok p2 ->
  (1 < length (p_indices p1))%nat -> (1 < length (p_indices p2))%nat -> joint_parse p1 p2 p.
Proof.
  intros HD HF H H1 H2 L1 L2. unfold finish_parse, choose_atoms in *. cbn [with_specie a_specie a_framework a_time_step a_opts] in *.
  rewrite HF in *. unfold get_indices in *.
  pose proof (select_union s1 s2 HD (s_types st) 0) as P.
  set (I := select_where true (s1 ++ s2)%list 0 (s_types st)) in *. set (I1 := select_where true s1 0 (s_types st)) in *. set (I2 := select_where true s2 0 (s_types st)) in *.
  assert (EI : match I with [] => Raise ValueError | _ :: _ => Ok (I, fw) end = Ok (I, fw)) by (destruct I; [discriminate H|reflexivity]).
  assert (EI1 : match I1 with [] => Raise ValueError | _ :: _ => Ok (I1, fw) end = Ok (I1, fw)) by (destruct I1; [discriminate H1|reflexivity]).
  assert (EI2 : match I2 with [] => Raise ValueError | _ :: _ => Ok (I2, fw) end = Ok (I2, fw)) by (destruct I2; [discriminate H2|reflexivity]).
  rewrite EI in H. rewrite EI1 in H1. rewrite EI2 in H2. cbn [bind fst snd] in *.
  inv_bind H d Ed. try rewrite Ed in H1; try rewrite Ed in H2. cbn [bind] in H1, H2. inv_bind H q Eq. inv_bind H1 q1 Eq1. inv_bind H2 q2 Eq2.
  injection H as <-. injection H1 as <-. injection H2 as <-. cbn [set_volume p_indices] in L1, L2.
  assert (PI : forall J (x : Parsed R), parser_init geo d J fw (pynum_val (a_time_step a)) ss (a_opts a) = Ok x -> p_indices x = J).
  { intros J x E. unfold parser_init in E. inv_bind E dc E1. inv_bind E w E2. inv_bind E z E3.
    destruct (_ <=? _); [discriminate|]. inv_bind E tis E4. inv_bind E r E5. injection E as <-. reflexivity. }
  rewrite (PI _ _ Eq1) in L1. rewrite (PI _ _ Eq2) in L2.
  destruct (parser_init_order geo d d I (I1 ++ I2)%list fw fw _ _ _ _ eq_refl (selects_refl _ _) (selects_perm _ _ _ P) (Permutation_length (Permutation_sym P)) Eq) as (q' & Eq' & SP).
  exact (same_parse_joint _ _ _ _ SP (parser_init_union _ _ _ _ _ _ _ _ _ _ _ L1 L2 Eq' Eq1 Eq2)).
Qed.
Lemma C71_proof : forall (parse : parser_of) geo circ (a : ModelParser.Params R) t s1 s2 fw p p1 p2, In parse parsers ->
  disjoint_names s1 s2 -> a_framework a = PyList fw ->
  parse geo circ t (with_specie (s1 ++ s2)%list a) = Ok p -> parse geo circ t (with_specie s1 a) = Ok p1 -> parse geo circ t (with_specie s2 a) = Ok p2 ->
  (1 < length (p_indices p1))%nat -> (1 < length (p_indices p2))%nat -> joint_parse p1 p2 p.
Proof.
  intros parse geo circ a t s1 s2 fw p p1 p2 HP HD HF H H1 H2 L1 L2. destruct HP as [<-|[<-|[<-|[]]]].
  - unfold ase_parser in *. cbn [with_specie a_sub_sample_traj a_step_skip] in *. inv_bind H r E. try rewrite E in H1; try rewrite E in H2. cbn [bind] in H1, H2. destruct r as [[st c] la].
    exact (finish_union _ _ _ _ _ _ _ _ _ _ _ _ _ HD HF H H1 H2 L1 L2).
  - unfold pymatgen_parser in *. cbn [with_specie a_sub_sample_traj a_step_skip a_time_step] in *. inv_bind H r E. try rewrite E in H1; try rewrite E in H2. cbn [bind] in H1, H2. destruct r as [[st c] la].
    inv_bind H q Eq. inv_bind H1 q1 Eq1. inv_bind H2 q2 Eq2. destruct (a_time_step a); [discriminate|].
    injection H as <-. injection H1 as <-. injection H2 as <-. cbn [set_delta_t p_indices] in L1, L2.
    pose proof (finish_union _ _ _ _ _ _ _ _ _ _ _ _ _ HD HF Eq Eq1 Eq2 L1 L2) as (J1 & J2 & J3 & J4 & J).
    unfold joint_parse. cbn [set_delta_t p_intervals p_delta_t p_disp_3d p_n_o]. rewrite J3, J4. repeat (split; [assumption||reflexivity|]). exact J.
  - unfold mda_parser in *. cbn [with_specie a_sub_sample_traj a_sub_sample_atoms a_specie_indices a_step_skip] in *. inv_bind H u U. try rewrite U in H1; try rewrite U in H2. cbn [bind] in H1, H2.
    inv_bind H r E. try rewrite E in H1; try rewrite E in H2. cbn [bind] in H1, H2. destruct r as [[st c] la].
    exact (finish_union _ _ _ _ _ _ _ _ _ _ _ _ _ HD HF H H1 H2 L1 L2).
Qed.

(** The mean squared displacement of the two together. *)
Lemma entries_joins d1 d2 d : joins d1 d2 d -> Permutation (entries d) (entries d1 ++ entries d2)%list.
Proof. intros (_ & _ & P). unfold entries. rewrite <- concat_app. now apply concat_perm. Qed.
Lemma msd_joins axes d1 d2 d : joins d1 d2 d -> entries d1 <> [] -> entries d2 <> [] ->
  (INR (length (entries d)) * msd_of axes d = INR (length (entries d1)) * msd_of axes d1 + INR (length (entries d2)) * msd_of axes d2)%R
  /\ length (entries d) = (length (entries d1) + length (entries d2))%nat.
Proof.
  intros J H1 H2. apply entries_joins in J.
  assert (L : length (entries d) = (length (entries d1) + length (entries d2))%nat) by (rewrite (Permutation_length J); apply app_length).
  split; [|exact L].
  assert (K : forall l : list (V3 R), l <> [] -> (INR (length l) * average (map (sqlen axes) l) = rsum (map (sqlen axes) l))%R).
  { intros l Hl. unfold average. rewrite map_length. field. apply not_0_INR. destruct l; [congruence|discriminate]. }
  unfold msd_of. rewrite !K; [|assumption|assumption|].
  - rewrite (rsum_perm _ _ (Permutation_map (sqlen axes) J)), map_app. apply rsum_app.
  - intros E. rewrite E in L. destruct (entries d1); [congruence|discriminate].
Qed.

Section MSD.
  Context {G Seed RS : Type} (X : Ext R G Seed RS).
  Lemma C71_msd_proof (parse : parser_of) circ (a : ModelParser.Params R) t s1 s2 fw p p1 p2 u g g1 g2 an an1 an2 h h1 h2 : In parse parsers ->
    disjoint_names s1 s2 -> a_framework a = PyList fw ->
    parse geomspace_R circ t (with_specie (s1 ++ s2)%list a) = Ok p -> parse geomspace_R circ t (with_specie s1 a) = Ok p1 -> parse geomspace_R circ t (with_specie s2 a) = Ok p2 ->
    (1 < length (p_indices p1))%nat -> (1 < length (p_indices p2))%nat -> 0 < u_sub_sample_dt u -> u_block u = false ->
    diffusion_analyzer X (of_parsed p) u g = Ok (an, h) -> diffusion_analyzer X (of_parsed p1) u g1 = Ok (an1, h1) ->
    diffusion_analyzer X (of_parsed p2) u g2 = Ok (an2, h2) ->
    forall i m m1 m2, nth_error (b_n (an_diff an)) i = Some m -> nth_error (b_n (an_diff an1)) i = Some m1 -> nth_error (b_n (an_diff an2)) i = Some m2 ->
    (m = (INR (length (p_indices p1)) * m1 + INR (length (p_indices p2)) * m2) / (INR (length (p_indices p1)) + INR (length (p_indices p2))))%R.
  Proof.
    intros HP HD HF H H1 H2 L1 L2 Hk Hb A A1 A2 i m m1 m2 M M1 M2.
    pose proof (C71_proof _ _ _ _ _ _ _ _ _ _ _ HP HD HF H H1 H2 L1 L2) as (_ & _ & _ & _ & _ & _ & _ & _ & J & _).
    pose proof (parsers_rows _ _ _ _ _ HP H1) as R1. pose proof (parsers_rows _ _ _ _ _ HP H2) as R2.
    pose proof (parsers_shapes _ _ _ _ _ _ HP H1) as W1. pose proof (parsers_shapes _ _ _ _ _ _ HP H2) as W2.
    assert (K : forall p u g an h i m, 0 < u_sub_sample_dt u -> u_block u = false -> diffusion_analyzer X (of_parsed p) u g = Ok (an, h) -> nth_error (b_n (an_diff an)) i = Some m ->
      exists axes d, names (pystr_text (u_dimension u)) axes /\ nth_error (p_disp_3d p) (i * Z.to_nat (u_sub_sample_dt u)) = Some d /\ m = msd_of axes d /\ (1 < length (entries d))%nat).
    { clear. intros p u g an h i m Hk Hb A M. unfold diffusion_analyzer in A. inv_bind A r E. destruct r as [b g']. injection A as <- <-. cbn [an_diff of_parsed an_delta_t an_disp_3d an_n_o] in *.
      destruct (msd_run_means X u _ _ _ _ _ _ Hk Hb E) as (axes & used & shown & N1 & N2 & N3 & N4). rewrite N4, nth_error_map in M.
      destruct (nth_error shown i) as [d|] eqn:Ed; [|discriminate]. injection M as <-. exists axes, d. split; [exact N1|].
      pose proof (nth_error_In _ _ Ed) as Hin. apply (leading_In _ _ _ _ N3) in Hin as [_ Hin].
      apply (leading_nth _ _ _ _ _ N3) in Ed. rewrite N2 in Ed. auto. }
    destruct (K _ _ _ _ _ _ _ Hk Hb A M) as (ax & d & N & D & -> & _). destruct (K _ _ _ _ _ _ _ Hk Hb A1 M1) as (ax1 & d1 & N1 & D1 & -> & B1).
    destruct (K _ _ _ _ _ _ _ Hk Hb A2 M2) as (ax2 & d2 & N2 & D2 & -> & B2).
    assert (ax1 = ax) by (eapply names_unique; eauto). assert (ax2 = ax) by (eapply names_unique; eauto). subst ax1 ax2.
    pose proof (J _ _ _ _ D1 D2 D) as Jd. destruct (msd_joins ax _ _ _ Jd) as [Q QL]; [destruct (entries d1); cbn in B1; [lia|congruence]|destruct (entries d2); cbn in B2; [lia|congruence]|].
    assert (S : forall (p : Parsed R) (d : Arr R), Forall (fun d : Arr R => length (a_rows d) = length (p_indices p)) (p_disp_3d p) -> Forall arr_wf (p_disp_3d p) -> In d (p_disp_3d p) ->
      length (entries d) = (length (p_indices p) * a_obs d)%nat).
    { clear. intros p d F W Hd. rewrite Forall_forall in F, W. rewrite <- (F _ Hd). apply arr_shape_entries. split; [|reflexivity]. split; [reflexivity|]. exact (W _ Hd). }
    assert (E1 := S _ _ R1 W1 (nth_error_In _ _ D1)). assert (E2 := S _ _ R2 W2 (nth_error_In _ _ D2)).
    destruct Jd as (O1 & O2 & _). rewrite O1 in E1. rewrite O2 in E2. rewrite QL, E1, E2, plus_INR, !mult_INR in Q.
    assert (O : (0 < INR (a_obs d))%R) by (apply lt_0_INR; destruct (a_obs d); [rewrite Nat.mul_0_r in E1; lia|lia]).
    assert (P1 : (0 < INR (length (p_indices p1)))%R) by (apply lt_0_INR; lia). assert (P2 : (0 < INR (length (p_indices p2)))%R) by (apply lt_0_INR; lia).
    revert Q O P1 P2. generalize (INR (a_obs d)) (INR (length (p_indices p1))) (INR (length (p_indices p2))) (msd_of ax d) (msd_of ax d1) (msd_of ax d2).
    clear. intros o n1 n2 x x1 x2 Q O P1 P2. apply Rmult_eq_reg_l with (o * (n1 + n2))%R; [|nra].
    replace (o * (n1 + n2) * ((n1 * x1 + n2 * x2) / (n1 + n2)))%R with (n1 * o * x1 + n2 * o * x2)%R by (field; lra). rewrite <- Q. ring.
  Qed.
End MSD.

(** Two lithium and two sodium atoms over one oxygen atom; one of the lithium atoms hops. *)
Definition two_kinds : list (Frame R) := frames_of ["Li"; "Li"; "Na"; "Na"; "O"]%string 1%R 3 5 hop (fun _ => unit_cell).
Definition kinds_params : ModelParser.Params R := mkParams None (PyFloat 1%R) 1 1 1 one_step SINone None (PyList [4]).
Lemma hop5_small n k : (k <= 4)%nat -> small_steps n 5 k hop.
Proof.
  intros Hk f a _ Ha. unfold hop, within_half. destruct a; cbn [vx vy vz minus3 zero3]; [|lra].
  rewrite !mult_INR, S_INR. pose proof (pos_INR k). assert (INR k <= 4)%R by (apply (le_INR k 4) in Hk; cbn in Hk; lra).
  lra.
Qed.
Lemma C71_example_proof : forall circ, disjoint_names ["Li"%string] ["Na"%string]
  /\ (exists p, ase_parser geomspace_R circ two_kinds (with_specie ["Li"; "Na"]%string kinds_params) = Ok p /\ length (p_disp_3d p) = 1%nat)
  /\ (exists p, ase_parser geomspace_R circ two_kinds (with_specie ["Li"]%string kinds_params) = Ok p /\ length (p_indices p) = 2%nat)
  /\ (exists p, ase_parser geomspace_R circ two_kinds (with_specie ["Na"]%string kinds_params) = Ok p /\ length (p_indices p) = 2%nat).
Proof.
  intros circ. split; [intros x [<-|[]] [E|[]]; discriminate|].
  assert (K : forall sp I, get_indices ["Li"; "Li"; "Na"; "Na"; "O"]%string sp (PyList [4]) = Ok (I, [4]) ->
    Forall (valid_site 5) I -> (2 <= length I <= 4)%nat -> exists p, ase_parser geomspace_R circ two_kinds (with_specie sp kinds_params) = Ok p
    /\ length (p_indices p) = length I /\ length (p_disp_3d p) = 1%nat).
  { intros sp I HI HV HL. unfold two_kinds.
    rewrite (ase_run geomspace_R circ unit_cell _ _ 3 5 1 hop _ sp I [4])
      by (first [exact unit_cell_volume | apply hop5_small; lia | lia | reflexivity | exact HI]).
    cbn [with_specie kinds_params a_time_step pynum_val a_step_skip a_opts]. rewrite kept_one. unfold one_step.
    rewrite (parser_init_ints geomspace_R 5 3 _ I [4] 1 1 1 "multi-origin" 8 8)
      by (first [repeat constructor; cbn; lia | lia]).
    change (tab _ (lin _ 1 _)) with (map Z.of_nat [1]%nat).
    rewrite get_disps_multi' by (first [exact HV | repeat constructor; cbn; lia]).
    assert (E : Rltb 8 (in_gigabytes (fold_right Z.add 0 (map (estimate (length I) 3 8) [1]%nat))) = false).
    { apply Rltb_false. unfold in_gigabytes. destruct (length I) as [|[|[|[|[|k]]]]]; try lia; cbn; lra. }
    rewrite E. cbn [bind]. eexists. split; [reflexivity|]. split; [reflexivity|]. cbn [p_disp_3d set_volume fst snd]. rewrite map_length.
    destruct (length I) as [|[|[|[|[|k]]]]]; try lia; reflexivity. }
  split; [|split].
  - destruct (K ["Li"; "Na"]%string [0; 1; 2; 3]) as (p & E & A & B); [reflexivity|repeat constructor; cbn; lia|cbn; lia|]. now exists p.
  - destruct (K ["Li"]%string [0; 1]) as (p & E & A & B); [reflexivity|repeat constructor; cbn; lia|cbn; lia|]. now exists p.
  - destruct (K ["Na"]%string [2; 3]) as (p & E & A & B); [reflexivity|repeat constructor; cbn; lia|cbn; lia|]. now exists p.
Qed.
