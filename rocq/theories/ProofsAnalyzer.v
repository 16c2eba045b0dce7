(** * ProofsAnalyzer: several trajectories, dictionaries, immobile systems (C16, C23, C24, C41, C53) *)
From Verif Require Import Base Spec ModelParser ModelDiffusion ModelHdf ModelAnalyzer SpecParser SpecStats SpecFit SpecAnalyzer Lemmas
  ProofsDisp ProofsIntervals ProofsWindows ProofsParser ProofsTraj ProofsBoot ProofsStats ProofsStats2 ProofsFit ProofsFit2 ProofsShape SpecRun.
From Coq Require Import Reals Lra Lia Arith.
Open Scope Z_scope.

(** ** Stacking *)
Lemma fit_axis_id {T} n (l : list T) : length l = n -> fit_axis n l = Ok l.
Proof. intros H. unfold fit_axis. now rewrite (proj2 (Nat.eqb_eq _ _) H). Qed.
Lemma assign_block_id m n (d : Arr R) : arr_shape d m n -> assign_block m n d = Ok (a_rows d).
Proof.
  intros ((H1 & H2) & _). unfold assign_block. rewrite fit_axis_id by exact H1. cbn [bind].
  rewrite <- (map_id (a_rows d)) at 2. apply mapM_total. intros r Hr. apply fit_axis_id.
  rewrite Forall_forall in H2. now apply H2.
Qed.
Lemma stack_one_ok u i (d0 : Arr R) rs m n : arr_shape d0 m n ->
  Forall2 (fun p r => nth_error (p_disp_3d p) i = Some r /\ arr_shape r m n) u rs ->
  stack_one u i d0 = Ok (mkArr n (List.concat (map a_rows rs))).
Proof.
  intros ((H0 & _) & Hn) H. unfold stack_one. rewrite H0, Hn.
  assert (E : mapM (fun p => let! d := py_index (p_disp_3d p) (Z.of_nat i) in assign_block m n d) u
              = Ok (map a_rows rs)).
  { apply mapM_ok. clear H0 Hn. induction H as [|p r u rs (E & Hs) _ IH]; cbn; constructor; [|exact IH].
    rewrite py_index_nat, E. cbn. now apply assign_block_id. }
  rewrite E. reflexivity.
Qed.

Lemma sum_n_o_ok u : forall acc, Forall (fun p : Parsed R => length (p_n_o p) = length acc) u ->
  exists r, sum_n_o acc u = Ok r /\ length r = length acc
    /\ forall i a cs, nth_error acc i = Some a -> column p_n_o i u cs -> nth_error r i = Some (a + rsum cs)%R.
Proof.
  induction u as [|p u IH]; intros acc H.
  - exists acc. cbn. split; [reflexivity|]. split; [reflexivity|]. intros i a cs Ha Hc.
    inversion Hc; subst. cbn. rewrite Ha. f_equal. lra.
  - inversion H as [|? ? Hp Hu]; subst. cbn [sum_n_o]. unfold add_inplace. rewrite fit_axis_id by exact Hp. cbn [bind].
    set (acc' := zip_with nadd acc (p_n_o p)).
    assert (L : length acc' = length acc) by (unfold acc'; rewrite zip_with_length; lia).
    destruct (IH acc') as (r & E & Er & Hr).
    { rewrite L. exact Hu. }
    exists r. split; [exact E|]. split; [congruence|]. intros i a cs Ha Hc.
    inversion Hc as [|? c ? cs' Hc1 Hc2]; subst. cbn [rsum].
    rewrite (Hr i (a + c)%R cs').
    + f_equal. lra.
    + unfold acc'. change (a + c)%R with (nadd a c). now apply (nth_error_zip_with nadd acc (p_n_o p)).
    + exact Hc2.
Qed.

Lemma combine_seq_In {T} (l : list T) i x : In (i, x) (combine (seq 0 (length l)) l) -> nth_error l i = Some x.
Proof.
  intros H. apply In_nth_error in H as (j & Hj).
  assert (G : forall (a : list nat) (b : list T) j p, nth_error (combine a b) j = Some p ->
              nth_error a j = Some (fst p) /\ nth_error b j = Some (snd p)).
  { clear. induction a as [|u a IH]; intros [|v b] [|j] p; cbn; try discriminate.
    - now intros [= <-]. - apply IH. }
  apply G in Hj as [H1 H2]. cbn in H1, H2.
  assert (Hl : (j < length l)%nat) by (apply nth_error_Some; congruence).
  assert (E : nth_error (seq 0 (length l)) j = Some j).
  { rewrite seq_tab. now apply tab_nth_error. }
  congruence.
Qed.
Lemma nth_combine_seq {T} (l : list T) i x : nth_error l i = Some x ->
  nth_error (combine (seq 0 (length l)) l) i = Some (i, x).
Proof.
  intros H. assert (Hl : (i < length l)%nat) by (apply nth_error_Some; congruence).
  assert (G : forall (a : list nat) (b : list T) j u v, nth_error a j = Some u -> nth_error b j = Some v ->
              nth_error (combine a b) j = Some (u, v)).
  { clear. induction a as [|p a IH]; intros [|q b] [|j] u v; cbn; try discriminate.
    - now intros [= <-] [= <-]. - apply IH. }
  apply G; [|exact H]. rewrite seq_tab. now apply tab_nth_error.
Qed.

Lemma same_shape_columns ps shapes k i s : Forall (fun p : Parsed R =>
    Forall2 (fun d s => arr_shape d (fst s) (snd s)) (p_disp_3d p) shapes /\ length (p_n_o p) = k) ps ->
  nth_error shapes i = Some s -> exists rs,
  Forall2 (fun p r => nth_error (p_disp_3d p) i = Some r /\ arr_shape r (fst s) (snd s)) ps rs.
Proof.
  intros H Hs. induction H as [|p ps (H1 & _) _ (rs & IH)]; [now exists []|].
  destruct (Forall2_nth_error_r _ _ _ _ _ H1 Hs) as (d & Hd & Hsh). exists (d :: rs). now constructor.
Qed.

Lemma identical_ok {T} (parse : T -> Res (Parsed R)) ts ps : Forall2 (fun t p => parse t = Ok p) ts ps ->
  ts <> [] -> same_shape ps ->
  exists d, identical parse ts = Ok d
    /\ (forall p0, hd_error ps = Some p0 -> an_delta_t d = p_delta_t p0 /\ an_volume d = p_volume p0)
    /\ Forall (fun p => length (an_disp_3d d) = length (p_disp_3d p) /\ length (an_n_o d) = length (p_n_o p)) ps
    /\ (forall i rs, column p_disp_3d i ps rs -> exists a, nth_error (an_disp_3d d) i = Some a /\ stacked rs a)
    /\ (forall i cs, column p_n_o i ps cs -> nth_error (an_n_o d) i = Some (rsum cs)).
Proof.
  intros Hp Hne (shapes & k & HS). unfold identical.
  rewrite (proj2 (mapM_ok _ _ _) Hp). cbn [bind].
  destruct ps as [|p0 ps']; [inversion Hp; subst; congruence|]. set (ps := p0 :: ps') in *.
  assert (H0 := Forall_inv HS). destruct H0 as [Hs0 Hk0].
  destruct (sum_n_o_ok ps (repeat 0%R (length (p_n_o p0)))) as (no & En & Ln & Hno).
  { rewrite repeat_length. eapply Forall_impl; [|exact HS]. intros p (_ & Hpk). cbn beta. congruence. }
  change (repeat n0 (length (p_n_o p0))) with (repeat 0%R (length (p_n_o p0))). rewrite En. cbn [bind].
  set (f := fun id : nat * Arr R => stack_one ps (fst id) (snd id)).
  set (l0 := combine (seq 0 (length (p_disp_3d p0))) (p_disp_3d p0)).
  assert (Est : stack_trajectories ps = mapM f l0) by reflexivity.
  rewrite Est. clear Est.
  assert (EX : exists disp, mapM f l0 = Ok disp).
  { assert (G : forall id, In id l0 -> exists a, f id = Ok a).
    { intros [i d] Hin. apply combine_seq_In in Hin.
      destruct (Forall2_nth_error _ _ _ _ _ Hs0 Hin) as (s & Hs & Hsh).
      destruct (same_shape_columns _ shapes _ i s HS Hs) as (rs & Hrs).
      unfold f. cbn [fst snd]. rewrite (stack_one_ok ps i d rs _ _ Hsh Hrs). eauto. }
    clear -G. induction l0 as [|x l IH]; [now exists []|]. cbn.
    destruct (G x (or_introl eq_refl)) as (a & ->). cbn.
    destruct IH as (disp & ->); [intros; apply G; now right|]. cbn. eauto. }
  destruct EX as (disp & Ed). rewrite Ed. cbn [bind]. eexists. split; [reflexivity|]. cbn.
  apply mapM_ok in Ed. assert (Ll := Forall2_length _ _ _ Ed).
  assert (Ld : length disp = length shapes).
  { rewrite <- Ll. unfold l0. rewrite combine_length, seq_length. rewrite (Forall2_length _ _ _ Hs0). lia. }
  split; [now intros ? [= <-]|]. split; [|split].
  - eapply Forall_impl; [|exact HS]. intros p (Hps & Hpk). rewrite Ld, (Forall2_length _ _ _ Hps).
    split; [reflexivity|]. rewrite Ln, repeat_length. congruence.
  - intros i rs Hc. inversion Hc as [|? r0 ? rs' Hr0 Hrs']; subst.
    pose proof (nth_combine_seq _ _ _ Hr0) as Hl0. fold l0 in Hl0.
    destruct (Forall2_nth_error _ _ _ _ _ Ed Hl0) as (a & Ha & Hf).
    exists a. split; [exact Ha|].
    destruct (Forall2_nth_error _ _ _ _ _ Hs0 Hr0) as (s & Hs & Hsh).
    destruct (same_shape_columns _ shapes _ i s HS Hs) as (rs2 & Hrs2).
    assert (Ers : rs2 = r0 :: rs').
    { clear -Hrs2 Hc. revert rs2 Hrs2. induction Hc as [|p r ps rs H _ IH]; intros rs2 H2; inversion H2; subst; [reflexivity|].
      destruct H3 as [H3 _]. f_equal; [congruence|]. now apply IH. }
    subst rs2. unfold f in Hf. cbn [fst snd] in Hf. rewrite (stack_one_ok ps i r0 _ _ _ Hsh Hrs2) in Hf.
    injection Hf as <-. split; [reflexivity|]. cbn [a_obs].
    clear -Hrs2. induction Hrs2 as [|p r ps rs (_ & _ & H) _ IH]; constructor; assumption.
  - intros i cs Hc. rewrite (Hno i 0%R cs); [f_equal; lra| |exact Hc].
    inversion Hc as [|? c0 ? cs' Hc0 _]; subst.
    assert (Hi : (i < length (p_n_o p0))%nat) by (apply nth_error_Some; congruence).
    clear -Hi. revert i Hi. induction (length (p_n_o p0)); intros [|i] Hi; cbn; try lia; [reflexivity|]. apply IHn. lia.
Qed.

(** *** The MSD of stacked replicas *)
Lemma leading_keeps {T} (P : T -> Prop) l a i x : leading P l a -> nth_error l i = Some x -> P x -> nth_error a i = Some x.
Proof.
  intros (rest & -> & _ & Hr) H Hx. destruct (Nat.lt_ge_cases i (length a)) as [L|L].
  - now rewrite nth_error_app1 in H.
  - rewrite nth_error_app2 in H by exact L. apply nth_error_In in H. rewrite Forall_forall in Hr. now apply Hr in H.
Qed.
Lemma rsum_concat_map {T} (f : T -> R) (l : list (list T)) :
  rsum (map f (List.concat l)) = rsum (map (fun x => rsum (map f x)) l).
Proof. induction l as [|x l IH]; cbn; [reflexivity|]. now rewrite map_app, rsum_app, IH. Qed.
Lemma msd_stacked axes rs d m : stacked rs d -> rs <> [] -> (0 < m)%nat ->
  Forall (fun r => length (entries r) = m) rs ->
  msd_of axes d = average (map (msd_of axes) rs) /\ length (entries d) = (length rs * m)%nat.
Proof.
  intros (Hd & _) Hne Hm Hl. unfold msd_of, average. rewrite !map_length. unfold entries at 1 2 5. rewrite Hd.
  assert (L : length (List.concat (List.concat (map a_rows rs))) = (length rs * m)%nat).
  { clear -Hl. induction Hl as [|r rs Hr _ IH]; cbn; [reflexivity|]. rewrite concat_app, app_length, IH.
    unfold entries in Hr. lia. }
  split; [|exact L]. rewrite L, mult_INR.
  assert (S : rsum (map (sqlen axes) (List.concat (List.concat (map a_rows rs))))
              = rsum (map (fun r => rsum (map (sqlen axes) (entries r))) rs)).
  { clear. induction rs as [|r rs IH]; cbn; [reflexivity|]. now rewrite concat_app, map_app, rsum_app, IH. }
  rewrite S.
  assert (S2 : rsum (map (fun d0 => rsum (map (sqlen axes) (entries d0)) / INR (length (map (sqlen axes) (entries d0)))) rs)%R
               = (rsum (map (fun r => rsum (map (sqlen axes) (entries r))) rs) / INR m)%R).
  { clear -Hl. induction Hl as [|r rs Hr _ IH]; cbn [map rsum]; [lra|]. rewrite IH, map_length, Hr. lra. }
  rewrite S2. assert (INR m <> 0)%R by (apply not_0_INR; lia).
  assert (INR (length rs) <> 0)%R by (apply not_0_INR; destruct rs; [congruence|cbn; lia]). now field.
Qed.
Lemma arr_shape_entries d m n : arr_shape d m n -> length (entries d) = (m * n)%nat.
Proof.
  intros ((H1 & H2) & _). unfold entries. subst m. induction H2 as [|r l Hr _ IH]; cbn; [reflexivity|].
  rewrite app_length, IH. lia.
Qed.

Section C23.
  Context {G Seed RS : Type} (X : Ext R G Seed RS).
  Lemma C23_msd_proof {T} (parse : T -> Res (Parsed R)) ts ps d u g a g' i ms :
    Forall2 (fun t p => parse t = Ok p) ts ps -> ts <> [] -> same_shape ps ->
    0 < u_sub_sample_dt u -> u_block u = false ->
    identical parse ts = Ok d -> diffusion_analyzer X d u g = Ok (a, g') ->
    Forall2 (fun p m => exists ar gr gr', diffusion_analyzer X (of_parsed p) u gr = Ok (ar, gr')
                        /\ nth_error (b_n (an_diff ar)) i = Some m) ps ms ->
    nth_error (b_n (an_diff a)) i = Some (average ms).
  Proof.
    intros Hp Hne HS Hk Hb Ed Ea Hm.
    destruct (identical_ok parse ts ps Hp Hne HS) as (d' & Ed' & _ & _ & Hst & _).
    assert (d' = d) by congruence. subst d'. clear Ed'.
    unfold diffusion_analyzer in Ea. inv_bind Ea r Er. destruct r as [b g1]. injection Ea as <- <-. cbn [an_diff].
    destruct (msd_run_means X u _ _ _ _ _ _ Hk Hb Er) as (axes & used & shown & N1 & N2 & N3 & N4).
    set (k := Z.to_nat (u_sub_sample_dt u)) in *.
    destruct HS as (shapes & kk & HS).
    assert (EX : exists rs m, column p_disp_3d (i * k) ps rs /\ ms = map (msd_of axes) rs /\ (1 < m)%nat
              /\ Forall (fun r => length (entries r) = m) rs).
    { assert (Hps : ps <> []) by (destruct ps; [inversion Hp; subst; congruence|congruence]).
      destruct (nth_error shapes (i * k)) as [s|] eqn:Es.
      2:{ exfalso. destruct ps as [|p ps]; [congruence|]. inversion Hm as [|? m ? ms' Hm1 _]; subst.
          destruct Hm1 as (ar & gr & gr' & E & En). unfold diffusion_analyzer in E. inv_bind E r Er'. destruct r as [br g2].
          injection E as <- <-. cbn [an_diff of_parsed an_delta_t an_disp_3d an_n_o] in *.
          destruct (msd_run_means X u _ _ _ _ _ _ Hk Hb Er') as (ax' & us' & sh' & _ & M2 & M3 & M4). rewrite M4 in En.
          rewrite nth_error_map in En. destruct (nth_error sh' i) as [dr|] eqn:Edr; [|discriminate].
          apply (leading_nth _ _ _ _ _ M3) in Edr. rewrite M2 in Edr.
          destruct (Forall_inv HS) as [Hs0 _]. fold k in Edr. apply (Forall2_nth_error _ _ _ _ _ Hs0) in Edr as (s & Hs & _). congruence. }
      exists (map (fun p => nth (i * k) (p_disp_3d p) (mkArr 0 [])) ps), (fst s * snd s)%nat.
      assert (A : column p_disp_3d (i * k) ps (map (fun p => nth (i * k) (p_disp_3d p) (mkArr 0 [])) ps)
                  /\ Forall (fun r => length (entries r) = (fst s * snd s)%nat) (map (fun p => nth (i * k) (p_disp_3d p) (mkArr 0 [])) ps)
                  /\ ms = map (msd_of axes) (map (fun p => nth (i * k) (p_disp_3d p) (mkArr 0 [])) ps)
                  /\ (ps <> [] -> (1 < fst s * snd s)%nat)).
      { clear Hp Hst Hps. induction Hm as [|p m ps ms Hm1 _ IH].
        - cbn. repeat split; try constructor. congruence.
        - inversion HS as [|? ? (Hs0 & _) HS']; subst. destruct (IH HS') as (I1 & I2 & I3 & I4).
          destruct (Forall2_nth_error_r _ _ _ _ _ Hs0 Es) as (dr & Hdr & Hsh).
          rewrite <- (nth_error_nth _ _ (mkArr 0 []) Hdr) in Hsh.
          destruct Hm1 as (ar & gr & gr' & E & En). unfold diffusion_analyzer in E. inv_bind E r Er'. destruct r as [br g2].
          injection E as <- <-. cbn [an_diff of_parsed an_delta_t an_disp_3d an_n_o] in *.
          destruct (msd_run_means X u _ _ _ _ _ _ Hk Hb Er') as (ax' & us' & sh' & M1 & M2 & M3 & M4). rewrite M4 in En.
          assert (ax' = axes) by (eapply names_unique; eauto). subst ax'.
          rewrite nth_error_map in En. destruct (nth_error sh' i) as [dr'|] eqn:Edr; [|discriminate]. injection En as <-.
          assert (Hbig : (1 < length (entries dr'))%nat).
          { apply nth_error_In in Edr. now apply (leading_In _ _ _ _ M3) in Edr. }
          apply (leading_nth _ _ _ _ _ M3) in Edr. rewrite M2 in Edr. fold k in Edr.
          assert (dr' = dr) by congruence. subst dr'.
          cbn [map]. rewrite (nth_error_nth _ _ (mkArr 0 []) Hdr) in Hsh |- *.
          split; [now constructor|]. split; [constructor; [now apply arr_shape_entries|exact I2]|].
          split; [now rewrite I3|]. intros _. now rewrite <- (arr_shape_entries _ _ _ Hsh). }
      destruct A as (A1 & A2 & A3 & A4). split; [exact A1|]. split; [exact A3|]. split; [now apply A4|exact A2]. }
    destruct EX as (rs & m & H1 & -> & H3 & H4).
    destruct (Hst _ _ H1) as (arr & Harr & Hstk).
    assert (Hrs : rs <> []).
    { intros ->. inversion H1; subst. inversion Hp; subst. congruence. }
    destruct (msd_stacked axes rs arr m Hstk Hrs ltac:(lia) H4) as [Hmsd Hlen].
    rewrite N4, nth_error_map.
    assert (Hu : nth_error used i = Some arr) by now rewrite N2.
    rewrite (leading_keeps _ _ _ _ _ N3 Hu).
    - cbn [option_map]. now rewrite Hmsd.
    - rewrite Hlen. destruct rs; [congruence|]. cbn [length]. nia.
  Qed.
End C23.

Lemma identical_stacks {T} (parse : T -> Res (Parsed R)) ts ps : Forall2 (fun t p => parse t = Ok p) ts ps ->
  ts <> [] -> same_shape ps -> exists d, identical parse ts = Ok d /\ stacks ps d.
Proof.
  intros H1 H2 H3. destruct (identical_ok parse ts ps H1 H2 H3) as (d & E & A & B & C & D).
  exists d. split; [exact E|]. destruct ps as [|p0 ps]; [inversion H1; subst; congruence|].
  destruct (A p0 eq_refl) as [A1 A2].
  constructor; [now rewrite A2|now rewrite A1|assumption|assumption|assumption].
Qed.

(** ** Replicas of the same system have arrays of the same shape *)
Lemma pairs_same_shape p0 ps :
  Forall (fun p => Forall2 same_shape2 (p_disp_3d p0) (p_disp_3d p) /\ p_n_o p = p_n_o p0) ps -> same_shape ps.
Proof.
  intros H. exists (map (fun d => (length (a_rows d), a_obs d)) (p_disp_3d p0)), (length (p_n_o p0)).
  eapply Forall_impl; [|exact H]. cbv beta. intros p (H1 & ->). split; [|reflexivity].
  clear H. induction H1 as [|d d' l l' (A & B & C & D) _ IH]; cbn [map]; constructor; [|exact IH].
  cbn [fst snd]. unfold arr_shape, shape. rewrite A, B. repeat split. exact D.
Qed.

Lemma molecules_sel circ natoms (coords : list (list (V3 R))) l m fw c I D :
  get_molecules circ natoms coords l m fw = Ok (c, (I, D)) ->
  length c = length coords /\ I = map Z.of_nat (seq 0 (length l)).
Proof.
  unfold get_molecules. intros H. inv_bind H u1 E1. inv_bind H u2 E2. inv_bind H u3 E3. inv_bind H u4 E4.
  inv_bind H u5 E5. inv_bind H c' E6. injection H as <- <- <-. apply mapM_length in E6. auto.
Qed.
Lemma choose_same circ st st' (coords coords' : list (list (V3 R))) a c c' I I' D D' :
  s_types st = s_types st' -> length coords = length coords' ->
  choose_atoms circ st coords a = Ok (c, (I, D)) -> choose_atoms circ st' coords' a = Ok (c', (I', D')) ->
  length c = length c' /\ I = I'.
Proof.
  unfold choose_atoms. intros Et El H H'. destruct (a_specie a) as [sp|].
  - inv_bind H ix E. inv_bind H' ix' E'. injection H as <- ->. injection H' as <- ->. rewrite Et in E. split; congruence.
  - destruct (a_specie_indices a) as [|[|z l]|[|z l]|]; try discriminate.
    + inv_bind H ix E. inv_bind H' ix' E'. injection H as <- ->. injection H' as <- ->. rewrite Et in E. split; congruence.
    + apply molecules_sel in H as [L ->]. apply molecules_sel in H' as [L' ->]. split; congruence.
Qed.
Lemma finish_same geo circ st st' coords coords' latt latt' (a : Params R) ss p p' :
  s_types st = s_types st' -> length coords = length coords' ->
  finish_parse geo circ st coords latt a ss = Ok p -> finish_parse geo circ st' coords' latt' a ss = Ok p' ->
  p_intervals p = p_intervals p' /\ p_delta_t p = p_delta_t p' /\ p_n_o p = p_n_o p'
  /\ Forall2 same_shape2 (p_disp_3d p) (p_disp_3d p').
Proof.
  unfold finish_parse. intros Et El H H'. inv_bind H sel E1. inv_bind H disp E2. inv_bind H q E3. injection H as <-.
  inv_bind H' sel' E1'. inv_bind H' disp' E2'. inv_bind H' q' E3'. injection H' as <-.
  destruct sel as [c [I D]], sel' as [c' [I' D']]. cbn [fst snd] in *.
  destruct (choose_same _ _ _ _ _ _ _ _ _ _ _ _ Et El E1 E1') as [Lc <-].
  destruct (get_disp_wf _ _ _ E2) as (W & O & _). destruct (get_disp_wf _ _ _ E2') as (W' & O' & _).
  exact (parser_init_shapes geo disp disp' I I D D' _ _ _ q q' W W' ltac:(congruence) eq_refl E3 E3').
Qed.
Lemma stride_types k (t t' sub sub' : list (Frame R)) : alike t t' -> py_stride k t = Ok sub -> py_stride k t' = Ok sub' ->
  map f_types sub' = map f_types sub.
Proof.
  unfold alike. intros H E E'. assert (M := py_stride_map (@f_types R) k t). assert (M' := py_stride_map (@f_types R) k t').
  rewrite H in M'. rewrite E in M. rewrite E' in M'. cbn in M, M'. congruence.
Qed.
Lemma duplicate_length {T} (l r : list T) : duplicate_first l = Ok r -> length r = S (length l).
Proof. destruct l; [discriminate|]. now intros [= <-]. Qed.
Lemma read_alike k (t t' : list (Frame R)) st st' c c' l l' : alike t t' ->
  get_structure_coords_latt t k = Ok (st, c, l) -> get_structure_coords_latt t' k = Ok (st', c', l') ->
  s_types st = s_types st' /\ length c = length c'.
Proof.
  intros HA H H'. unfold get_structure_coords_latt in *.
  inv_bind H sub E1. inv_bind H cs E2. inv_bind H la E3. inv_bind H' sub' E1'. inv_bind H' cs' E2'. inv_bind H' la' E3'.
  assert (ET := stride_types _ _ _ _ _ HA E1 E1').
  destruct sub as [|f sub]; [discriminate|]. destruct sub' as [|f' sub']; [discriminate|].
  injection H as <- <- <-. injection H' as <- <- <-. cbn [s_types].
  apply duplicate_length in E2, E2'. assert (EL := f_equal (@length _) ET). rewrite !map_length in *. injection ET as ET _.
  split; [auto|]. lia.
Qed.
Lemma read_alike_mda ka k (t t' : list (Frame R)) st st' c c' l l' : alike t t' ->
  get_structure_coords_latt_mda t ka k = Ok (st, c, l) -> get_structure_coords_latt_mda t' ka k = Ok (st', c', l') ->
  s_types st = s_types st' /\ length c = length c'.
Proof.
  intros HA H H'. unfold get_structure_coords_latt_mda in *.
  inv_bind H sub E1. inv_bind H sc E0. inv_bind H cs E2. inv_bind H la E3.
  inv_bind H' sub' E1'. inv_bind H' sc' E0'. inv_bind H' cs' E2'. inv_bind H' la' E3'.
  assert (ET := stride_types _ _ _ _ _ HA E1 E1').
  destruct sub as [|f sub]; [discriminate|]. destruct sub' as [|f' sub']; [discriminate|].
  inv_bind H ty E4. inv_bind H' ty' E4'.
  injection H as <- <- <-. injection H' as <- <- <-. cbn [s_types].
  apply duplicate_length in E2, E2'. apply mapM_length in E0, E0'.
  assert (EL := f_equal (@length _) ET). rewrite !map_length in *. injection ET as ET _. rewrite ET in E4'.
  split; [congruence|]. lia.
Qed.




Lemma parsers_alike (parse : parser_of) geo circ (a : Params R) t t' p p' : In parse parsers -> alike t t' ->
  parse geo circ t a = Ok p -> parse geo circ t' a = Ok p' ->
  p_delta_t p = p_delta_t p' /\ p_n_o p = p_n_o p' /\ Forall2 same_shape2 (p_disp_3d p) (p_disp_3d p').
Proof.
  intros HP HA H H'. destruct HP as [<-|[<-|[<-|[]]]].
  - unfold ase_parser in *. inv_bind H r E. destruct r as [[st c] l]. inv_bind H' r' E'. destruct r' as [[st' c'] l'].
    destruct (read_alike _ _ _ _ _ _ _ _ _ HA E E') as [A B]. apply (finish_same _ _ _ _ _ _ _ _ _ _ _ _ A B H H').
  - unfold pymatgen_parser in *. inv_bind H r E. destruct r as [[st c] l]. inv_bind H' r' E'. destruct r' as [[st' c'] l'].
    inv_bind H q Q. inv_bind H' q' Q'.
    destruct (read_alike _ _ _ _ _ _ _ _ _ HA E E') as [A B].
    destruct (finish_same _ _ _ _ _ _ _ _ _ _ _ _ A B Q Q') as (_ & F1 & F2 & F3).
    destruct (a_time_step a); [discriminate|]. injection H as <-. injection H' as <-.
    cbn [set_delta_t p_delta_t p_n_o p_disp_3d]. rewrite F1. auto.
  - unfold mda_parser in *. inv_bind H u U. inv_bind H r E. destruct r as [[st c] l].
    inv_bind H' u' U'. inv_bind H' r' E'. destruct r' as [[st' c'] l'].
    destruct (read_alike_mda _ _ _ _ _ _ _ _ _ _ HA E E') as [A B]. apply (finish_same _ _ _ _ _ _ _ _ _ _ _ _ A B H H').
Qed.
Lemma replicas_shape (parse : parser_of) geo circ (a : Params R) t0 ts ps : In parse parsers ->
  Forall (alike t0) ts -> Forall2 (fun t p => parse geo circ t a = Ok p) ts ps ->
  same_shape ps /\ forall p p', In p ps -> In p' ps -> p_delta_t p = p_delta_t p'.
Proof.
  intros HP HA H. destruct H as [|t1 p1 ts ps H1 H].
  - split; [exists [], 0%nat; constructor|]. intros ? ? [].
  - assert (K : Forall (fun p => Forall2 same_shape2 (p_disp_3d p1) (p_disp_3d p) /\ p_n_o p = p_n_o p1 /\ p_delta_t p = p_delta_t p1) (p1 :: ps)).
    { inversion HA as [|? ? A1 HA']; subst.
      assert (G : forall t p, alike t0 t -> parse geo circ t a = Ok p ->
        Forall2 same_shape2 (p_disp_3d p1) (p_disp_3d p) /\ p_n_o p = p_n_o p1 /\ p_delta_t p = p_delta_t p1).
      { intros t p At Et. assert (A : alike t1 t) by (unfold alike in *; congruence).
        destruct (parsers_alike parse geo circ a t1 t p1 p HP A H1 Et) as (F1 & F2 & F3). auto. }
      constructor; [now apply (G t1)|]. clear HA H1. induction H as [|t p ts ps Ht _ IH]; [constructor|].
      inversion HA' as [|? ? At HA'']; subst. constructor; [now apply (G t)|auto]. }
    split.
    + apply (pairs_same_shape p1). eapply Forall_impl; [|exact K]. cbv beta. tauto.
    + rewrite Forall_forall in K. intros p p' Hp Hp'. destruct (K p Hp) as (_ & _ & ->). destruct (K p' Hp') as (_ & _ & ->). reflexivity.
Qed.

(** *** C23 *)
Lemma C23_proof : forall (parse : parser_of) geo circ (a : Params R) t0 ts ps, In parse parsers ->
  ts <> [] -> Forall (alike t0) ts -> Forall2 (fun t p => parse geo circ t a = Ok p) ts ps ->
  exists d, from_frames (fun t => parse geo circ t a) (TMulti ts) (Some "identical"%string) = Ok d
    /\ from_universe (fun t => parse geo circ t a) (TMulti ts) (Some "identical"%string) = Ok d
    /\ stacks ps d /\ Forall (fun p => p_delta_t p = an_delta_t d) ps.
Proof.
  intros parse geo circ a t0 ts ps HP Hne HA H.
  destruct (replicas_shape parse geo circ a t0 ts ps HP HA H) as [HS HD].
  destruct (identical_stacks (fun t => parse geo circ t a) ts ps H Hne HS) as (d & E & S).
  exists d. split; [exact E|]. split; [exact E|]. split; [exact S|].
  destruct S as [_ S _ _ _]. destruct ps as [|p0 ps]; [discriminate|]. cbn in S. injection S as S.
  apply Forall_forall. intros p Hp. rewrite (HD p p0 Hp (or_introl eq_refl)). exact S.
Qed.
Section C23traj.
  Context {G Seed RS : Type} (X : Ext R G Seed RS).
  Lemma C23_average_proof (parse : parser_of) geo circ (a : Params R) t0 ts ps d u g an g' i ms : In parse parsers ->
    ts <> [] -> Forall (alike t0) ts -> Forall2 (fun t p => parse geo circ t a = Ok p) ts ps ->
    0 < u_sub_sample_dt u -> u_block u = false ->
    from_frames (fun t => parse geo circ t a) (TMulti ts) (Some "identical"%string) = Ok d ->
    diffusion_analyzer X d u g = Ok (an, g') ->
    Forall2 (fun t m => exists dr ar gr gr', from_frames (fun t => parse geo circ t a) (TSingle t) None = Ok dr
                        /\ diffusion_analyzer X dr u gr = Ok (ar, gr') /\ nth_error (b_n (an_diff ar)) i = Some m) ts ms ->
    nth_error (b_n (an_diff an)) i = Some (average ms).
  Proof.
    intros HP Hne HA H Hk Hb Ed Ea Hm.
    destruct (replicas_shape parse geo circ a t0 ts ps HP HA H) as [HS _].
    eapply (C23_msd_proof X (fun t => parse geo circ t a) ts ps d); try eassumption.
    clear -H Hm. revert ms Hm. induction H as [|t p ts ps Ht _ IH]; intros ms Hm; inversion Hm as [|? m ? ms' Hm1 Hm2]; subst; constructor.
    - destruct Hm1 as (dr & ar & gr & gr' & E & E2 & E3). cbn in E. rewrite Ht in E. injection E as <-. exists ar, gr, gr'. auto.
    - now apply IH.
  Qed.
End C23traj.

(** *** C24 *)
Lemma C24_proof : forall (A : Type) (NA : Num A) (Fr : Type) (parse : list Fr -> Res (Parsed A)) pieces,
  from_frames parse (TMulti pieces) (Some "consecutive"%string) = from_frames parse (TSingle (List.concat pieces)) None.
Proof. reflexivity. Qed.
Lemma C24_universe_proof : forall (A : Type) (NA : Num A) (U : Type) (parse : U -> Res (Parsed A)) t,
  from_universe parse t (Some "consecutive"%string) = Raise ValueError.
Proof. reflexivity. Qed.

(** *** C16 *)
Lemma C16_dtype_proof : forall (A : Type) (NA : Num A) (Fr U : Type) (parse : list Fr -> Res (Parsed A)) (parse' : U -> Res (Parsed A)) t t' s,
  (s <> "identical" -> s <> "consecutive" -> from_frames parse t (Some s) = Raise ValueError)%string
  /\ (s <> "identical" -> from_universe parse' t' (Some s) = Raise ValueError)%string.
Proof.
  intros A NA Fr U parse parse' t t' s. split.
  - intros H1 H2. cbn. rewrite (proj2 (String.eqb_neq _ _) H1), (proj2 (String.eqb_neq _ _) H2). reflexivity.
  - intros H1. cbn. now rewrite (proj2 (String.eqb_neq _ _) H1).
Qed.
Lemma C16_dtype_accepted_proof : forall (A : Type) (NA : Num A) (Fr : Type) (parse : list Fr -> Res (Parsed A)) t p,
  parse t = Ok p -> (exists d, from_frames parse (TSingle t) None = Ok d)
  /\ (exists d, from_frames parse (TMulti [t]) (Some "consecutive"%string) = Ok d).
Proof.
  intros A NA Fr parse t p H. cbn. unfold flatten_list. cbn [List.concat]. rewrite app_nil_r, H. cbn. eauto.
Qed.

(** *** C53 *)
Lemma tor_step_common l li w w' v : tor_step l li (plus3 v w) (plus3 v w') = tor_step l li w w'.
Proof. unfold tor_step. replace (minus3 (plus3 v w') (plus3 v w)) with (minus3 w' w) by v3eq. reflexivity. Qed.
Lemma common_motion cell types vol n natoms k (x0 : nat -> V3 R) (u : nat -> V3 R) (img : nat -> nat -> V3 Z) d :
  cell_volume cell <> 0%R -> (0 < k)%nat ->
  displacements (Z.of_nat k) (frames_of types vol n natoms (fun f a => plus3 (plus3 (x0 a) (u f)) (ivec (img f a))) (fun _ => cell)) = Ok d ->
  exists x, d = table natoms (kept n k) (fun _ => x).
Proof.
  intros Hc Hk H. rewrite (C02_proof cell types vol n natoms k (fun f a => plus3 (x0 a) (u f))) in H by exact Hk.
  rewrite displacements_stride in H by exact Hk. destruct (kept n k) as [|m] eqn:Em.
  - rewrite displacements_zero in H. discriminate.
  - destruct (const_inv cell (S m) Hc) as (li & _ & E). rewrite (read_disp_fun _ _ _ _ _ _ _ E) in H. injection H as <-.
    exists (fun t => vsum (fun f => tor_step cell li (cart cell (u (f * k)%nat)) (cart cell (u (S f * k)%nat))) t).
    unfold table. f_equal. apply tab_ext. intros a _. apply tab_ext. intros t _. apply vsum_ext. intros f _.
    rewrite !cart_plus. apply tor_step_common.
Qed.
Lemma finish_still_gen circ st coords latt (a : Params R) ss N T x p : 
  (forall c' ix, choose_atoms circ st coords a = Ok (c', ix) -> get_disp c' latt = Ok (table N T (fun _ => x))) ->
  finish_parse geomspace_R circ st coords latt a ss = Ok p -> p_drift_indices p <> [] -> motionless p.
Proof.
  intros Hd Hp Hne. destruct (finish_inv _ _ _ _ _ _ _ Hp) as (c' & I & D & disp & q & E1 & E2 & E3 & ->).
  rewrite (Hd _ _ E1) in E2. injection E2 as <-.
  destruct (parser_init_sel _ _ _ _ _ _ _ _ E3) as [_ ED]. cbn in Hne. rewrite ED in Hne.
  exact (parser_init_still _ _ _ _ _ _ _ _ _ _ Hne E3).
Qed.
Lemma finish_still circ st coords latt (a : Params R) ss N T x p : atomic_selection a ->
  get_disp coords latt = Ok (table N T (fun _ => x)) ->
  finish_parse geomspace_R circ st coords latt a ss = Ok p -> p_drift_indices p <> [] -> motionless p.
Proof.
  intros Ha Hd. apply (finish_still_gen circ st coords latt a ss N T x p). intros c' ix E1.
  pose proof (choose_atomic circ st coords a _ Ha E1) as Ec. cbn in Ec. now subst c'.
Qed.
Lemma C53_ase_proof : forall circ cell types vol n natoms k (x0 u : nat -> V3 R) (img : nat -> nat -> V3 Z) (a : Params R) p,
  cell_volume cell <> 0%R -> (0 < k)%nat -> a_sub_sample_traj a = Z.of_nat k -> atomic_selection a ->
  let frames := frames_of types vol n natoms (fun f i => plus3 (plus3 (x0 i) (u f)) (ivec (img f i))) (fun _ => cell) in
  ase_parser geomspace_R circ frames a = Ok p \/ pymatgen_parser geomspace_R circ frames a = Ok p ->
  p_drift_indices p <> [] -> motionless p.
Proof.
  intros circ cell types vol n natoms k x0 u img a p Hc Hk Ek Ha frames [H|H] Hd.
  - unfold ase_parser in H. inv_bind H r E. destruct r as [[st coords] latt].
    destruct (get_disp coords latt) as [d|] eqn:Ed.
    + rewrite Ek in E. rewrite <- (displacements_read _ _ _ _ _ E) in Ed.
      destruct (common_motion _ _ _ _ _ _ _ _ _ _ Hc Hk Ed) as (x & ->). rewrite (displacements_read _ _ _ _ _ E) in Ed.
      eapply finish_still; eassumption.
    + exfalso. destruct (finish_inv _ _ _ _ _ _ _ H) as (c' & I & D & disp & q & E1 & E2 & _).
      pose proof (choose_atomic circ st coords a _ Ha E1) as Ec. cbn in Ec. subst c'. congruence.
  - unfold pymatgen_parser in H. inv_bind H r E. destruct r as [[st coords] latt]. inv_bind H q Eq.
    destruct (a_time_step a); [discriminate|]. injection H as <-.
    assert (M : motionless q); [|exact M].
    destruct (get_disp coords latt) as [d|] eqn:Ed.
    + rewrite Ek in E. rewrite <- (displacements_read _ _ _ _ _ E) in Ed.
      destruct (common_motion _ _ _ _ _ _ _ _ _ _ Hc Hk Ed) as (x & ->). rewrite (displacements_read _ _ _ _ _ E) in Ed.
      eapply finish_still; eassumption.
    + exfalso. destruct (finish_inv _ _ _ _ _ _ _ Eq) as (c' & I & D & disp & q' & E1 & E2 & _).
      pose proof (choose_atomic circ st coords a _ Ha E1) as Ec. cbn in Ec. subst c'. congruence.
Qed.
Lemma C53_mda_proof : forall circ cell types vol n natoms ka k (x0 u : nat -> V3 R) (img : nat -> nat -> V3 Z) (a : Params R) p,
  cell_volume cell <> 0%R -> (0 < ka)%nat -> (0 < k)%nat -> length types = natoms ->
  a_sub_sample_traj a = Z.of_nat k -> a_sub_sample_atoms a = Z.of_nat ka -> atomic_selection a ->
  mda_parser geomspace_R circ (frames_of types vol n natoms
    (fun f i => cart cell (plus3 (plus3 (x0 i) (u f)) (ivec (img f i)))) (fun _ => cell)) a = Ok p ->
  p_drift_indices p <> [] -> motionless p.
Proof.
  intros circ cell types vol n natoms ka k x0 u img a p Hc Hka Hk Hl Ek Eka Ha H Hd.
  unfold mda_parser in H. rewrite Ek, Eka in H. inv_bind H u1 E0. inv_bind H r E. destruct r as [[st coords] latt].
  apply (read_mda_fun types vol n natoms (fun f i => plus3 (plus3 (x0 i) (u f)) (ivec (img f i))) (fun _ => cell)) in E; try assumption.
  destruct E as (types' & _ & _ & E).
  destruct (get_disp coords latt) as [d|] eqn:Ed.
  - rewrite <- (displacements_read _ _ _ _ _ E) in Ed.
    destruct (common_motion cell types' vol n (kept natoms ka) k (fun i => x0 (i * ka)%nat) u (fun f i => img f (i * ka)%nat) d Hc Hk Ed) as (x & ->).
    rewrite (displacements_read _ _ _ _ _ E) in Ed. eapply finish_still; eassumption.
  - exfalso. destruct (finish_inv _ _ _ _ _ _ _ H) as (c' & I & D & disp & q & E1 & E2 & _).
    pose proof (choose_atomic circ st coords a _ Ha E1) as Ec. cbn in Ec. subst c'. congruence.
Qed.

(** Zero displacements give zero statistics. *)
Lemma sum3_zero l : Forall (fun v => v = zero3) l -> sum3 l = zero3.
Proof.
  intros H. unfold sum3. induction H as [|v l -> _ IH]; cbn; [reflexivity|]. injection IH as I1 I2 I3. cbn in *. rewrite I1, I2, I3.
  unfold zero3. f_equal; lra.
Qed.
Lemma sqlen_zero3 axes : sqlen axes zero3 = 0%R.
Proof. unfold sqlen. induction axes as [|a l IH]; cbn; [reflexivity|]. rewrite IH. destruct a; cbn; lra. Qed.
Lemma average_all_zero l : Forall (fun x => x = 0%R) l -> average l = 0%R.
Proof.
  intros H. unfold average. assert (rsum l = 0%R) as ->; [|unfold Rdiv; lra].
  induction H as [|x l -> _ IH]; cbn; [reflexivity|]. rewrite IH. lra.
Qed.
Definition still_arr (d : Arr R) : Prop := forall row v, In row (a_rows d) -> In v row -> v = zero3.
Lemma msd_still axes d : still_arr d -> msd_of axes d = 0%R.
Proof.
  intros H. apply average_all_zero, Forall_forall. intros x Hx. apply in_map_iff in Hx as (v & <- & Hv).
  unfold entries in Hv. apply in_concat in Hv as (row & Hr & Hv). rewrite (H row v Hr Hv). apply sqlen_zero3.
Qed.
Lemma at_time_still d t : still_arr d -> Forall (fun v => v = zero3) (at_time d t).
Proof.
  intros H. apply Forall_forall. intros v Hv. unfold at_time in Hv. apply in_flat_map in Hv as (row & Hr & Hv).
  destruct (nth_error row t) as [w|] eqn:E; [|destruct Hv]. destruct Hv as [<-|[]]. apply nth_error_In in E. eauto.
Qed.
Lemma mstd_still axes d : still_arr d -> mstd_of axes d = 0%R.
Proof.
  intros H. apply average_all_zero, Forall_forall. intros x Hx. unfold tab in Hx. apply in_map_iff in Hx as (t & <- & _).
  rewrite sum3_zero by now apply at_time_still. apply sqlen_zero3.
Qed.
Lemma mscd_still axes q d : still_arr d -> mscd_of axes q d = 0%R.
Proof.
  intros H. apply average_all_zero, Forall_forall. intros x Hx. unfold tab in Hx. apply in_map_iff in Hx as (t & <- & _).
  rewrite sum3_zero; [apply sqlen_zero3|]. apply Forall_forall. intros v Hv. apply in_map_iff in Hv as ((c & w) & <- & Hv).
  apply in_combine_r in Hv. pose proof (at_time_still d t H) as F. rewrite Forall_forall in F. rewrite (F w Hv).
  unfold scale3, zero3. cbn. f_equal; lra.
Qed.

(** What the parsers guarantee about shapes, whatever the selection. *)
Lemma parsers_shapes (parse : parser_of) geo circ (a : Params R) t p : In parse parsers ->
  parse geo circ t a = Ok p -> Forall arr_wf (p_disp_3d p).
Proof.
  intros HP H. destruct (parsers_alike parse geo circ a t t p p HP eq_refl H H) as (_ & _ & F).
  clear -F. remember (p_disp_3d p) as l eqn:E. clear E. remember l as l' eqn:E in F at 2. clear E.
  induction F as [|d d' l l' (_ & _ & W & _) _ IH]; constructor; assumption.
Qed.

Section C53.
  Context {G Seed RS : Type} (X : Ext R G Seed RS).
  Lemma shown_In k (disps used shown : list (Arr R)) P h d : sub_sample k disps used -> leading P (firstn h used) shown -> In d shown -> In d disps.
  Proof.
    intros A B Hd. destruct (leading_In _ _ _ _ B Hd) as [Hd' _]. eapply sub_sample_In; [exact A|].
    rewrite <- (firstn_skipn h used). apply in_or_app. now left.
  Qed.
  Lemma C53_statistics_proof p u q g an g' : motionless p -> Forall arr_wf (p_disp_3d p) ->
    Forall (fun d => length (a_rows d) = length (p_indices p)) (p_disp_3d p) ->
    (forall l, q = QArray l -> length l = length (p_indices p)) ->
    0 < u_sub_sample_dt u -> u_block u = false ->
    diffusion_analyzer X (of_parsed p) u g = Ok (an, g')
    \/ jump_diffusion_analyzer X (of_parsed p) u g = Ok (an, g')
    \/ conductivity_analyzer X (of_parsed p) q u g = Ok (an, g') ->
    Forall (fun m => m = 0%R) (b_n (an_diff an)).
  Proof.
    intros HM Hwf Hn Hq Hk Hb H.
    assert (HS : forall d, In d (p_disp_3d p) -> still_arr d) by (intros d Hd row v; now apply HM).
    destruct H as [H|[H|H]].
    - unfold diffusion_analyzer in H. inv_bind H r E. destruct r as [b g1]. injection H as <- <-. cbn [an_diff of_parsed an_delta_t an_disp_3d an_n_o] in *.
      destruct (msd_run_means X u _ _ _ _ _ _ Hk Hb E) as (axes & used & shown & _ & N2 & N3 & ->).
      apply Forall_forall. intros m Hm. apply in_map_iff in Hm as (d & <- & Hd). apply msd_still, HS.
      destruct (leading_In _ _ _ _ N3 Hd) as [Hd' _]. eapply sub_sample_In; eauto.
    - unfold jump_diffusion_analyzer in H. inv_bind H r E. destruct r as [b g1]. injection H as <- <-. cbn [an_diff of_parsed an_delta_t an_disp_3d an_n_o] in *.
      destruct (C29_proof X u _ _ _ _ _ _ Hk Hb Hwf E) as (axes & used & shown & _ & N2 & N3 & ->).
      apply Forall_forall. intros m Hm. apply in_map_iff in Hm as (d & <- & Hd). apply mstd_still, HS. eapply shown_In; eauto.
    - unfold conductivity_analyzer in H. inv_bind H r E. destruct r as [b g1]. injection H as <- <-. cbn [an_diff of_parsed an_delta_t an_disp_3d an_n_o] in *.
      destruct (C30_proof X u _ _ _ _ _ _ _ _ Hk Hb Hwf Hn Hq E) as (used & shown & N2 & N3 & ->).
      apply Forall_forall. intros m Hm. apply in_map_iff in Hm as (d & <- & Hd). apply mscd_still, HS. eapply shown_In; eauto.
  Qed.
End C53.

(** The rows of every reported array are the selected atoms. *)
Lemma disps_loop_rows samp T lst tis : forall i (sel : list (list (V3 R))) r,
  Forall (fun r => length r = T) sel -> disps_loop samp sel T lst i tis = Ok r ->
  Forall (fun d => length (a_rows d) = length sel) (fst r).
Proof.
  induction tis as [|ti tis IH]; intros i sel r HT H; cbn [disps_loop] in *.
  - injection H as <-. constructor.
  - inv_bind H d E1. inv_bind H c E2. inv_bind H t E3.
    destruct (window_wf _ _ _ _ _ _ HT E1) as [L W]. pose proof (IH _ _ _ HT E3) as K.
    destruct (_ <=? 1); injection H as <-; cbn [fst]; [exact K|]. now constructor.
Qed.
Lemma parser_init_rows geo (disp : Arr R) I D (ts : R) ss o p : arr_wf disp ->
  parser_init geo disp I D ts ss o = Ok p -> Forall (fun d => length (a_rows d) = length (p_indices p)) (p_disp_3d p).
Proof.
  intros W H. destruct (parser_init_sel _ _ _ _ _ _ _ _ H) as [EI _]. rewrite EI.
  unfold parser_init in H. inv_bind H dc E1. destruct (correct_drift_wf _ _ _ W E1) as [V Vo].
  inv_bind H q E2. inv_bind H z E3. destruct (_ <=? z); [discriminate|]. inv_bind H tis E4. inv_bind H r E5.
  injection H as <-. cbn [p_disp_3d]. unfold get_disps in E5. destruct tis as [|t0 tis].
  - destruct (_ <? _)%num; [discriminate|]. injection E5 as <-. constructor.
  - inv_bind E5 sel S1. destruct (_ <? _)%num; [discriminate|]. inv_bind E5 l L1. injection E5 as <-. cbn [fst].
    destruct (gather_rows _ _ _ _ V S1) as [R1 R2]. rewrite <- R2. eapply disps_loop_rows; eassumption.
Qed.
Lemma finish_rows circ st coords latt (a : Params R) ss p : finish_parse geomspace_R circ st coords latt a ss = Ok p ->
  Forall (fun d => length (a_rows d) = length (p_indices p)) (p_disp_3d p).
Proof.
  intros H. destruct (finish_inv _ _ _ _ _ _ _ H) as (c' & I & D & disp & q & E1 & E2 & E3 & ->).
  destruct (get_disp_wf _ _ _ E2) as (W & _). exact (parser_init_rows _ _ _ _ _ _ _ _ W E3).
Qed.
Lemma parsers_rows (parse : parser_of) circ (a : Params R) t p : In parse parsers ->
  parse geomspace_R circ t a = Ok p -> Forall (fun d => length (a_rows d) = length (p_indices p)) (p_disp_3d p).
Proof.
  intros HP H. destruct HP as [<-|[<-|[<-|[]]]].
  - unfold ase_parser in H. inv_bind H r E. destruct r as [[st c] l]. eapply finish_rows; eassumption.
  - unfold pymatgen_parser in H. inv_bind H r E. destruct r as [[st c] l]. inv_bind H q Q. apply finish_rows in Q.
    destruct (a_time_step a); [discriminate|]. injection H as <-. exact Q.
  - unfold mda_parser in H. inv_bind H u U. inv_bind H r E. destruct r as [[st c] l]. eapply finish_rows; eassumption.
Qed.

Section C53end.
  Context {G Seed RS : Type} (X : Ext R G Seed RS).
  Notation analysed_by := (SpecRun.analysed_by X).
  Lemma C53_end_proof (parse : parser_of) circ (a : Params R) t p u q g an g' : In parse parsers ->
    parse geomspace_R circ t a = Ok p -> motionless p ->
    (forall l, q = QArray l -> length l = length (p_indices p)) -> 0 < u_sub_sample_dt u -> u_block u = false ->
    analysed_by (of_parsed p) q u g an g' -> Forall (fun m => m = 0%R) (b_n (an_diff an)).
  Proof.
    intros HP H HM Hq Hk Hb HA. eapply (C53_statistics_proof X p u q); try eassumption.
    - eapply parsers_shapes; eassumption.
    - eapply parsers_rows; eassumption.
  Qed.
End C53end.

(** *** C41 *)
Section C41.
  Notation val := (pyval (nd R) R).
  Context (to_d : list R -> list (string * val)) (of_d : list (string * val) -> Res (list R)).
  Context (Hrt : forall l, of_d (to_d l) = Ok l).

  (** What construction leaves behind and nothing changes later. *)
  Definition constructed (b : Boot R) : Prop := exists dts disps n_o b0,
    bootstrap_init dts disps n_o (b_sub_sample_dt b) (b_dimension b) = Ok b0
    /\ b_displacements b = b_displacements b0 /\ b_delta_t b = b_delta_t b0 /\ b_slice b = b_slice b0 /\ b_dims b = b_dims b0.

  Lemma mapM_v_dist (l : list (list R)) : mapM (as_dist of_d) (map (v_dist to_d) l) = Ok l.
  Proof. induction l as [|x l IH]; cbn; [reflexivity|]. rewrite Hrt. cbn. now rewrite IH. Qed.
  Lemma mapM_as3 (l : list (Arr R)) : mapM (@as3 R) (map (fun a => VArr (N3 a)) l) = Ok l.
  Proof. induction l as [|x l IH]; cbn; [reflexivity|]. now rewrite IH. Qed.
  Lemma as_opt_dist (o : option (list R)) : as_opt (as_dist of_d) (v_opt (v_dist to_d) o) = Ok o.
  Proof. destruct o as [l|]; cbn; [|reflexivity]. now rewrite Hrt. Qed.
  Lemma as_opt_2 (o : option (Mat R)) : as_opt (@as2 R) (v_opt (fun m => VArr (N2 m)) o) = Ok o.
  Proof. destruct o; reflexivity. Qed.
  Lemma as_opt_float (o : option R) : as_opt (@as_float R) (v_opt (fun x => VFloat x) o) = Ok o.
  Proof. destruct o; reflexivity. Qed.
  Lemma as_opt_bool (o : option bool) : as_opt (@as_bool R) (v_opt (fun x => VBool x) o) = Ok o.
  Proof. destruct o; reflexivity. Qed.
  Lemma as_dim_v (d : pystr) : @as_dim R (v_dim d) = Ok d.
  Proof. destruct d; reflexivity. Qed.
  Lemma as_distributions (ds : list (list R)) : exists o,
    as_opt (fun v => let! l := as_list v in mapM (as_dist of_d) l)
      (match ds with [] => VNone | _ => VList (map (v_dist to_d) ds) end) = Ok o
    /\ match o with Some l => l | None => [] end = ds.
  Proof.
    destruct ds as [|x ds]; [now exists None|]. exists (Some (x :: ds)). split; [|reflexivity].
    cbn [as_opt as_list bind]. now rewrite mapM_v_dist.
  Qed.

  Lemma from_to b b1 : bootstrap_init (b_delta_t b) (b_displacements b) (b_n_o b) (b_sub_sample_dt b) (b_dimension b) = Ok b1 ->
    b_slice b1 = b_slice b -> b_dims b1 = b_dims b ->
    boot_from_dict of_d (boot_to_dict to_d b) = Ok (with_data b (b_displacements b1) (b_delta_t b1)).
  Proof.
    intros E Es Ed. destruct (as_distributions (b_distributions b)) as (od & D1 & D2).
    unfold boot_from_dict, field.
    repeat match goal with |- context [dget ?k (boot_to_dict to_d b)] =>
      let r := eval cbn [dget boot_to_dict String.eqb Ascii.eqb Bool.eqb] in (dget k (boot_to_dict to_d b)) in
      change (dget k (boot_to_dict to_d b)) with r end.
    cbn [bind as1 as_list as_int v1]. rewrite mapM_as3, as_dim_v. cbn [bind]. rewrite E. cbn [bind].
    rewrite mapM_v_dist. cbn [bind].
    assert (D1' : as_opt (fun v => let! l := as_list v in mapM (as_dist of_d) l)
      (match b_distributions b with [] => VNone | l :: l0 => VList (map (v_dist to_d) (l :: l0)) end) = Ok od)
      by (rewrite <- D1; destruct (b_distributions b); reflexivity).
    rewrite D1'. cbn [bind]. rewrite !as_opt_dist, !as_opt_2, !as_opt_float, as_opt_bool. cbn [bind].
    rewrite Nat2Z.id. destruct (bootstrap_init_ok _ _ _ _ _ _ E) as (axes & _ & _ & _ & _ & _ & K & _).
    assert (K1 : b_distributions b1 = []) by (rewrite K; reflexivity).
    assert (K2 : b_sub_sample_dt b1 = b_sub_sample_dt b) by (rewrite K; reflexivity).
    assert (K3 : b_dimension b1 = b_dimension b) by (rewrite K; reflexivity).
    rewrite K1, K2, K3, Es, Ed, D2. reflexivity.
  Qed.
  Lemma constructed_again b : 0 < b_sub_sample_dt b -> constructed b ->
    exists b1, bootstrap_init (b_delta_t b) (b_displacements b) (b_n_o b) (b_sub_sample_dt b) (b_dimension b) = Ok b1
      /\ b_slice b1 = b_slice b /\ b_dims b1 = b_dims b
      /\ py_stride (b_sub_sample_dt b) (b_displacements b) = Ok (b_displacements b1)
      /\ py_stride (b_sub_sample_dt b) (b_delta_t b) = Ok (b_delta_t b1).
  Proof.
    intros Hk (dts & disps & n_o & b0 & E & E1 & E2 & E3 & E4). rewrite E3, E4.
    unfold bootstrap_init in *. inv_bind E ds S1. inv_bind E ts S2. inv_bind E d0 S3. inv_bind E sl S4.
    injection E as <-. cbn in E1, E2. rewrite E1, E2.
    assert (ST : forall T (l : list T), exists l', py_stride (b_sub_sample_dt b) l = Ok l').
    { intros T l. unfold py_stride. destruct (_ =? 0) eqn:Z0; [apply Z.eqb_eq in Z0; lia|]. destruct (0 <? _); eauto. }
    destruct (ST _ ds) as (ds' & F1), (ST _ ts) as (ts' & F2). rewrite F1, F2. cbn [bind].
    assert (F3 : exists d, py_index ds' 0 = Ok d).
    { destruct ds as [|x ds]; [discriminate|]. unfold py_stride in F1.
      destruct (_ =? 0) eqn:Z0; [discriminate|]. destruct (0 <? _) eqn:Z1; [|apply Z.ltb_ge in Z1; lia].
      destruct ds' as [|y ds'].
      - exfalso. assert (F4 : forall k (l : list (Arr R)) x, every k 0 (x :: l) <> []) by (intros [|?] ? ?; discriminate). injection F1 as F1. now apply F4 in F1.
      - exists y. reflexivity. }
    destruct F3 as (d & F3). rewrite F3. cbn [bind]. rewrite S4. cbn [bind]. eexists. split; [reflexivity|].
    cbn. repeat split; assumption.
  Qed.
  Lemma C41_general_proof b : 0 < b_sub_sample_dt b -> constructed b -> exists ds ts,
    boot_from_dict of_d (boot_to_dict to_d b) = Ok (with_data b ds ts)
    /\ py_stride (b_sub_sample_dt b) (b_displacements b) = Ok ds /\ py_stride (b_sub_sample_dt b) (b_delta_t b) = Ok ts.
  Proof.
    intros Hk Hc. destruct (constructed_again b Hk Hc) as (b1 & E & A & B & C & D).
    exists (b_displacements b1), (b_delta_t b1). split; [now apply from_to|]. auto.
  Qed.
  Lemma C41_one_proof b : b_sub_sample_dt b = 1 -> constructed b -> boot_from_dict of_d (boot_to_dict to_d b) = Ok b.
  Proof.
    intros Hk Hc. destruct (C41_general_proof b ltac:(lia) Hc) as (ds & ts & E & A & B). rewrite Hk in A, B.
    rewrite py_stride_one in A. rewrite py_stride_one in B. injection A as <-. injection B as <-. rewrite E. destruct b; reflexivity.
  Qed.
  Lemma C41_analyzer_proof a : b_sub_sample_dt (an_diff a) = 1 -> constructed (an_diff a) ->
    analyzer_from_dict of_d (analyzer_to_dict to_d a) = Ok a.
  Proof.
    intros Hk Hc. unfold analyzer_from_dict, field. cbn [analyzer_to_dict dget String.eqb Ascii.eqb Bool.eqb bind as1 as_list].
    rewrite mapM_as3. cbn [bind]. rewrite as_opt_float. cbn [bind]. rewrite C41_one_proof by assumption.
    destruct a as [[? ? ? ?] ?]. reflexivity.
  Qed.
End C41.

Section Reachable.
  Context {G Seed RS : Type} (X : Ext R G Seed RS).
  Notation made := (SpecRun.made X).
  Lemma made_constructed u b : made u b -> constructed b /\ b_sub_sample_dt b = u_sub_sample_dt u.
  Proof.
    assert (K : forall dts disps n_o b0 quantity ns rest g b1 g1,
      bootstrap_init dts disps n_o (u_sub_sample_dt u) (u_dimension u) = Ok b0 ->
      boot_loop X u quantity ns n_o 0 rest b0 g = Ok (b1, g1) ->
      constructed (trim_n_o b1) /\ b_sub_sample_dt (trim_n_o b1) = u_sub_sample_dt u).
    { intros dts disps n_o b0 quantity ns rest g b1 g1 E1 E2.
      destruct (boot_loop_inv X u _ _ n_o (b_delta_t b0) (b_slice b0) _ [] 0%nat b0 g b1 g1 eq_refl eq_refl
                (analysed_start X u _ _ n_o _ _ _ _ _ _ E1) E2) as (F & _).
      destruct (bootstrap_init_ok _ _ _ _ _ _ E1) as (axes & _ & _ & _ & _ & _ & K & _).
      assert (K2 : b_sub_sample_dt b0 = u_sub_sample_dt u) by (rewrite K; reflexivity).
      assert (K3 : b_dimension b0 = u_dimension u) by (rewrite K; reflexivity). clear K.
      unfold frame_of in F.
      assert (F1 : b_displacements b1 = b_displacements b0) by congruence.
      assert (F2 : b_delta_t b1 = b_delta_t b0) by congruence.
      assert (F4 : b_dims b1 = b_dims b0) by congruence.
      assert (F5 : b_slice b1 = b_slice b0) by congruence.
      assert (F6 : b_sub_sample_dt b1 = b_sub_sample_dt b0) by congruence.
      assert (F7 : b_dimension b1 = b_dimension b0) by congruence.
      cbn [trim_n_o b_sub_sample_dt]. split; [|congruence].
      exists dts, disps, n_o, b0. cbn [trim_n_o b_sub_sample_dt b_dimension b_displacements b_delta_t b_slice b_dims].
      rewrite F6, F7, K2, K3. auto. }
    intros (dts & disps & n_o & g & g' & [H|[H|(q & H)]]).
    - unfold msd_bootstrap in H. inv_bind H b0 E1. inv_bind H bg E2. destruct bg. injection H as <- <-. eapply K; eassumption.
    - unfold mstd_bootstrap in H. inv_bind H b0 E1. inv_bind H bg E2. destruct bg. injection H as <- <-. eapply K; eassumption.
    - unfold mscd_bootstrap in H. inv_bind H b0 E1. inv_bind H d0 E0. inv_bind H bg E2. destruct bg. injection H as <- <-. eapply K; eassumption.
  Qed.
  Notation reachable := (SpecRun.reachable X).
  Lemma reachable_constructed u b : reachable u b -> constructed b /\ b_sub_sample_dt b = u_sub_sample_dt u.
  Proof.
    intros (b0 & h & M & H). destruct (made_constructed _ _ M) as [(dts & disps & n_o & b1 & E & A1 & A2 & A3 & A4) K].
    pose proof (C47_history_statistics_proof X _ _ _ H) as S. unfold same_statistics in S.
    split; [|intuition congruence]. exists dts, disps, n_o, b1.
    assert (b_sub_sample_dt b = b_sub_sample_dt b0 /\ b_dimension b = b_dimension b0) as [-> ->] by tauto.
    split; [exact E|]. intuition congruence.
  Qed.

  (** Later calls on an object whose later displacements are missing. *)
  Lemma gls_with_data b ds ts p g b' g' o : bootstrap_GLS X b p g = (b', g', o) ->
    bootstrap_GLS X (with_data b ds ts) p g = (with_data b' ds ts, g', o).
  Proof.
    unfold bootstrap_GLS. change (set_settings (with_data b ds ts) p) with (with_data (set_settings b p) ds ts).
    set (b1 := set_settings b p). set (g1 := match l_random_state p with Some rs => _ | None => g end).
    change (b_dt (with_data b1 ds ts)) with (b_dt b1).
    change (generate_covariance_matrix X (with_data b1 ds ts)) with (generate_covariance_matrix X b1).
    destruct (find_regime _ _ _) as [r|e]; [|intros H; injection H as <- <- <-; reflexivity].
    destruct (generate_covariance_matrix X b1 p r) as [[raw|] [cov|e]];
      try (intros H; injection H as <- <- <-; reflexivity).
    change (set_covariance (with_data b1 ds ts) cov) with (with_data (set_covariance b1 cov) ds ts).
    change (sample_gls X (with_data (set_covariance b1 cov) ds ts)) with (sample_gls X (set_covariance b1 cov)).
    destruct (sample_gls X _ p r cov g1) as [g2 [chain|e]]; [|intros H; injection H as <- <- <-; reflexivity].
    destruct (ModelDiffusion.column 0 chain) as [gr|e]; destruct (l_fit_intercept p); try destruct (ModelDiffusion.column 1 chain) as [c|e']; cbn [bind];
      intros H; injection H as <- <- <-; reflexivity.
  Qed.
  Lemma run_call_with_data b ds ts c g b' g' o : py_index ds 0 = py_index (b_displacements b) 0 ->
    run_call X b g c = (b', g', o) -> run_call X (with_data b ds ts) g c = (with_data b' ds ts, g', o).
  Proof.
    intros Hd. destruct c as [p|p|k p t vol]; cbn [run_call]; unfold diffusion, jump_diffusion, conductivity;
      destruct (bootstrap_GLS X b p g) as [[b1 g1] r] eqn:E; rewrite (gls_with_data _ ds ts _ _ _ _ _ E);
      (destruct r as [u|e]; [|intros H; injection H as <- <- <-; reflexivity]);
      change (b_gradient (with_data b1 ds ts)) with (b_gradient b1);
      (destruct (samples_of (b_gradient b1)) as [gr|e]; [|intros H; injection H as <- <- <-; reflexivity]);
      try (intros H; injection H as <- <- <-; reflexivity).
    change (b_displacements (with_data b1 ds ts)) with ds.
    destruct (gls_statistics X _ _ _ _ _ _ E) as [S _]. rewrite Hd, S.
    destruct (py_index (b_displacements b) 0) as [d0|e]; intros H; injection H as <- <- <-; reflexivity.
  Qed.
  Context (to_d : list R -> list (string * pyval (nd R) R)) (of_d : list (string * pyval (nd R) R) -> Res (list R)).
  Context (Hrt : forall l, of_d (to_d l) = Ok l).
  Lemma C41_bootstrap_proof u b : u_sub_sample_dt u = 1 -> reachable u b -> boot_from_dict of_d (boot_to_dict to_d b) = Ok b.
  Proof. intros H1 H2. destruct (reachable_constructed _ _ H2) as [C K]. apply C41_one_proof; [assumption|congruence|assumption]. Qed.
  Lemma C41_analyser_proof u a : u_sub_sample_dt u = 1 -> reachable u (an_diff a) ->
    analyzer_from_dict of_d (analyzer_to_dict to_d a) = Ok a.
  Proof. intros H1 H2. destruct (reachable_constructed _ _ H2) as [C K]. apply C41_analyzer_proof; [assumption|congruence|assumption]. Qed.
  Lemma C41_any_stride_proof u b : 0 < u_sub_sample_dt u -> reachable u b -> exists ds ts,
    boot_from_dict of_d (boot_to_dict to_d b) = Ok (with_data b ds ts)
    /\ sub_sample (Z.to_nat (u_sub_sample_dt u)) (b_displacements b) ds /\ sub_sample (Z.to_nat (u_sub_sample_dt u)) (b_delta_t b) ts
    /\ forall c g b' g' o, run_call X b g c = (b', g', o) -> run_call X (with_data b ds ts) g c = (with_data b' ds ts, g', o).
  Proof.
    intros H1 H2. destruct (reachable_constructed _ _ H2) as [C K]. rewrite <- K in *.
    destruct (C41_general_proof to_d of_d Hrt b H1 C) as (ds & ts & E & A & B).
    exists ds, ts. split; [exact E|]. assert (A' := stride_sub _ _ _ H1 A). split; [exact A'|]. split; [now apply stride_sub|].
    intros c g b' g' o. apply run_call_with_data.
    change 0 with (Z.of_nat 0). rewrite !py_index_nat. specialize (A' 0%nat). change (0 * Z.to_nat (b_sub_sample_dt b))%nat with 0%nat in A'. now rewrite A'.
  Qed.
End Reachable.

Lemma C41_refuted_proof : forall (G Seed RS : Type) (X : Ext R G Seed RS) (g : G) to_d of_d, (forall l, of_d (to_d l) = Ok l) ->
  exists b, reachable X (demo_boot 2 "xyz") b
    /\ exists b', boot_from_dict of_d (boot_to_dict to_d b) = Ok b' /\ boot_to_dict to_d b' <> boot_to_dict to_d b
         /\ b_delta_t b = [1;3]%R /\ b_delta_t b' = [1]%R.
Proof.
  intros G Seed RS X g to_d of_d Hrt. destruct (hop_run X g) as (b & E & _). exists b.
  assert (HR : reachable X (demo_boot 2 "xyz") b).
  { exists b, []. split; [|constructor]. exists [1;2;3]%R, hop_disps, [4;2;1]%R, g, g. now left. }
  split; [exact HR|].
  destruct (C41_any_stride_proof X to_d of_d Hrt (demo_boot 2 "xyz") b eq_refl HR) as (ds & ts & E1 & A & B & _).
  assert (ET : b_delta_t b = [1;3]%R).
  { destruct (msd_run X (demo_boot 2 "xyz") _ _ _ _ _ _ eq_refl E) as (axes & shown & _ & _ & _ & H4 & _).
    eapply sub_sample_unique; [exact H4|]. intros [|[|i]]; try reflexivity.
    cbn [Nat.mul nth_error]. rewrite !(proj2 (nth_error_None _ _)); cbn; try lia; reflexivity. }
  rewrite ET in B. assert (ts = [1]%R) as ->.
  { eapply sub_sample_unique; [exact B|]. intros [|i]; try reflexivity.
    cbn [Nat.mul nth_error]. rewrite !(proj2 (nth_error_None _ _)); cbn; try lia; reflexivity. }
  eexists. split; [exact E1|]. split; [|split; [exact ET|reflexivity]].
  intros H. unfold boot_to_dict in H. injection H. intros. cbn [with_data b_delta_t] in *. congruence.
Qed.

(** *** C23 for replicas of different sizes *)
Definition hop3_frames (n : nat) := frames_of ["Li"; "Li"; "O"]%string 1%R n 3 hop (fun _ => unit_cell).
Definition one_step : Options R := (mkOptions (Some 1) (Some 1) 1 "linear" "multi-origin" 8 8)%R.
Lemma hop3_small n k : (k <= 4)%nat -> small_steps n 3 k hop.
Proof.
  intros Hk f a _ Ha. unfold hop, within_half. destruct a; cbn [vx vy vz minus3 zero3]; [|lra].
  rewrite !mult_INR, S_INR. pose proof (pos_INR k). assert (INR k <= 4)%R by (apply (le_INR k 4) in Hk; cbn in Hk; lra).
  lra.
Qed.
Lemma hop_one circ : exists p1 a1 x y z, ase_parser geomspace_R circ (hop_frames 3) (hop_params 1 (PyFloat 1%R) one_step) = Ok p1
  /\ p_disp_3d p1 = [a1] /\ a_rows a1 = [[x;y;z]] /\ length (p_n_o p1) = 1%nat.
Proof.
  unfold hop_frames, one_step.
    rewrite (ase_run geomspace_R circ unit_cell _ _ 3 2 1 hop _ ["Li"%string] [0] [1])
      by (first [exact unit_cell_volume | apply hop_small; lia | lia | reflexivity]).
    cbn [hop_params a_time_step pynum_val a_step_skip a_opts]. rewrite kept_one.
    rewrite (parser_init_ints geomspace_R 2 3 _ [0] [1] 1 1 1 "multi-origin" 8 8)
      by (first [repeat constructor; cbn; lia | lia]).
    change (tab _ (lin _ 1 _)) with (map Z.of_nat [1]%nat).
    rewrite get_disps_multi' by (repeat constructor; cbn; lia).
    assert (E : Rltb 8 (in_gigabytes (fold_right Z.add 0 (map (estimate (length [0]) 3 8) [1]%nat))) = false).
    { apply Rltb_false. unfold in_gigabytes. cbn. lra. }
    rewrite E. cbn [bind]. do 5 eexists. split; [reflexivity|]. do 2 (split; [reflexivity|]). reflexivity.
Qed.
Lemma C23_refuted_proof : forall circ, let parse := fun t => ase_parser geomspace_R circ t (hop_params 1 (PyFloat 1%R) one_step) in
  exists p1 p2 d a1 a2 a,
  parse (hop3_frames 3) = Ok p1 /\ parse (hop_frames 3) = Ok p2
  /\ from_frames parse (TMulti [hop3_frames 3; hop_frames 3]) (Some "identical"%string) = Ok d
  /\ p_disp_3d p1 = [a1] /\ p_disp_3d p2 = [a2] /\ an_disp_3d d = [a]
  /\ length (a_rows a1) = 2%nat /\ length (a_rows a2) = 1%nat /\ length (a_rows a) = 4%nat.
Proof.
  intros circ parse.
  assert (E1 : exists p1 a1, parse (hop3_frames 3) = Ok p1 /\ p_disp_3d p1 = [a1] /\ length (a_rows a1) = 2%nat
    /\ length (p_n_o p1) = 1%nat /\ a_obs a1 = 3%nat).
  { unfold parse, hop3_frames, one_step.
    rewrite (ase_run geomspace_R circ unit_cell _ _ 3 3 1 hop _ ["Li"%string] [0;1] [2])
      by (first [exact unit_cell_volume | apply hop3_small; lia | lia | reflexivity]).
    cbn [hop_params a_time_step pynum_val a_step_skip a_opts]. rewrite kept_one.
    rewrite (parser_init_ints geomspace_R 3 3 _ [0;1] [2] 1 1 1 "multi-origin" 8 8)
      by (first [repeat constructor; cbn; lia | lia]).
    change (tab _ (lin _ 1 _)) with (map Z.of_nat [1]%nat).
    rewrite get_disps_multi' by (repeat constructor; cbn; lia).
    assert (E : Rltb 8 (in_gigabytes (fold_right Z.add 0 (map (estimate (length [0;1]) 3 8) [1]%nat))) = false).
    { apply Rltb_false. unfold in_gigabytes. cbn. lra. }
    rewrite E. cbn [bind]. do 2 eexists. split; [reflexivity|]. do 3 (split; [reflexivity|]). reflexivity. }
  assert (E2 := hop_one circ). change (ase_parser geomspace_R circ (hop_frames 3) _) with (parse (hop_frames 3)) in E2.
  destruct E1 as (p1 & a1 & P1 & A1 & R1 & N1 & O1). destruct E2 as (p2 & a2 & x & y & z & P2 & A2 & R2 & N2).
  assert (W1 : Forall arr_wf (p_disp_3d p1)).
  { eapply (parsers_shapes ase_parser geomspace_R circ); [now left|exact P1]. }
  rewrite A1 in W1. inversion W1 as [|? ? W _]; subst. unfold arr_wf in W. rewrite O1 in W.
  destruct a1 as [o1 [|r1 [|r2 [|? ?]]]]; try discriminate R1. cbn [a_rows a_obs] in *. subst o1.
  inversion W as [|? ? W2 W']; subst. inversion W' as [|? ? W3 _]; subst.
  destruct r1 as [|v1 [|v2 [|v3 [|? ?]]]]; try discriminate W2. destruct r2 as [|w1 [|w2 [|w3 [|? ?]]]]; try discriminate W3.
  destruct (p_n_o p1) as [|n1 [|? ?]] eqn:En1; try discriminate N1. destruct (p_n_o p2) as [|n2 [|? ?]] eqn:En2; try discriminate N2.
  exists p1, p2. unfold from_frames. cbn [String.eqb Ascii.eqb Bool.eqb]. unfold identical. cbn [mapM]. rewrite P1, P2.
  cbn [bind]. cbn [sum_n_o]. rewrite En1, En2. cbn [length repeat]. unfold add_inplace, fit_axis. cbn [length Nat.eqb bind].
  unfold stack_trajectories, stack_one. rewrite A1, A2. cbn [length seq combine mapM fst snd a_rows a_obs].
  change (Z.of_nat 0) with 0. rewrite A1, A2.
  change (py_index [?x] 0) with (@Ok _ x). cbn [bind].
  unfold assign_block, fit_axis. rewrite R2. cbn [a_rows length Nat.eqb bind mapM repeat].
  do 4 eexists. repeat (split; [reflexivity|]). split; [now rewrite R2|reflexivity].
Qed.
(** Replicas with several but different numbers of atoms are rejected. *)
Lemma C23_rejected_proof : forall {T} (parse : T -> Res (Parsed R)) t1 t2 ts p1 p2 d1 d2,
  parse t1 = Ok p1 -> parse t2 = Ok p2 -> nth_error (p_disp_3d p1) 0 = Some d1 -> nth_error (p_disp_3d p2) 0 = Some d2 ->
  length (a_rows d2) <> length (a_rows d1) -> length (a_rows d2) <> 1%nat ->
  forall d, identical parse (t1 :: t2 :: ts) <> Ok d.
Proof.
  intros T parse t1 t2 ts p1 p2 d1 d2 P1 P2 D1 D2 H1 H2 d H. unfold identical in H.
  inv_bind H u U. cbn [mapM] in U. rewrite P1, P2 in U. cbn [bind] in U. inv_bind U us US. inv_bind US u3 U3.
  injection US as <-. injection U as <-. inv_bind H no N. inv_bind H st S1. clear H.
  unfold stack_trajectories in S1. destruct (p_disp_3d p1) as [|d1' l1] eqn:L1; [discriminate|]. injection D1 as ->.
  cbn [length seq combine mapM fst snd] in S1. inv_bind S1 s0 S0. clear S1. unfold stack_one in S0. cbn [mapM] in S0.
  inv_bind S0 bl B. inv_bind B b1 B1. inv_bind B b2 B2. inv_bind B2 b3 B3. change (Z.of_nat 0) with (Z.of_nat 0) in B3.
  rewrite py_index_nat, D2 in B3. cbn [bind] in B3. unfold assign_block in B3. cbn [opt_res bind] in B3. inv_bind B3 rows F.
  unfold fit_axis in F. destruct (Nat.eqb _ _) eqn:Q; [apply Nat.eqb_eq in Q; congruence|].
  destruct (a_rows d2) as [|? [|? ?]]; try discriminate. now apply H2.
Qed.

(** ** Examples *)
Lemma C23_example_proof circ : let parse := fun t => ase_parser geomspace_R circ t (hop_params 1 (PyFloat 1%R) one_step) in
  exists d a, from_frames parse (TMulti [hop_frames 3; hop_frames 3]) (Some "identical"%string) = Ok d
    /\ nth_error (an_disp_3d d) 0 = Some a /\ length (a_rows a) = 2%nat.
Proof.
  intros parse. destruct (hop_one circ) as (p & a1 & x & y & z & P & A & R1 & _).
  destruct (C23_proof ase_parser geomspace_R circ (hop_params 1 (PyFloat 1%R) one_step) (hop_frames 3) [hop_frames 3; hop_frames 3] [p;p])
    as (d & E & _ & S & _).
  - now left.
  - discriminate.
  - repeat constructor.
  - repeat constructor; exact P.
  - exists d. destruct (st_arrays _ _ S 0%nat [a1;a1]) as (a & Ea & (St & _)).
    { constructor; [now rewrite A|]. constructor; [now rewrite A|constructor]. }
    exists a. split; [exact E|]. split; [exact Ea|]. rewrite St. cbn. now rewrite R1.
Qed.

(** Both atoms move by 1/10 of the cell per frame. *)
Definition site0 (i : nat) : V3 R := match i with O => zero3 | _ => mkV (1/2)%R 0%R 0%R end.
Definition drifting (f : nat) : V3 R := mkV (INR f / 10)%R 0%R 0%R.
Definition drift_frames (n : nat) : list (Frame R) :=
  frames_of ["Li"; "O"]%string 1%R n 2 (fun f i => plus3 (plus3 (site0 i) (drifting f)) (ivec (no_image f i))) (fun _ => unit_cell).
Lemma drift_small n k : (k <= 4)%nat -> small_steps n 2 k (fun f i => plus3 (plus3 (site0 i) (drifting f)) (ivec (no_image f i))).
Proof.
  intros Hk f a _ Ha. unfold drifting, within_half. cbn [vx vy vz minus3 plus3 ivec no_image].
  rewrite !mult_INR, S_INR. pose proof (pos_INR k). assert (INR k <= 4)%R by (apply (le_INR k 4) in Hk; cbn in Hk; lra).
  lra.
Qed.
Lemma drift_one circ : exists p, ase_parser geomspace_R circ (drift_frames 3) (hop_params 1 (PyFloat 1%R) one_step) = Ok p
  /\ p_drift_indices p = [1] /\ length (p_disp_3d p) = 1%nat /\ length (p_delta_t p) = 1%nat /\ length (p_n_o p) = 1%nat
  /\ Forall (fun d => 1 < length (entries d))%nat (p_disp_3d p).
Proof.
  unfold drift_frames, one_step.
  rewrite (ase_run geomspace_R circ unit_cell _ _ 3 2 1 _ _ ["Li"%string] [0] [1])
    by (first [exact unit_cell_volume | apply drift_small; lia | lia | reflexivity]).
  cbn [hop_params a_time_step pynum_val a_step_skip a_opts]. rewrite kept_one.
  rewrite (parser_init_ints geomspace_R 2 3 _ [0] [1] 1 1 1 "multi-origin" 8 8)
    by (first [repeat constructor; cbn; lia | lia]).
  change (tab _ (lin _ 1 _)) with (map Z.of_nat [1]%nat).
  rewrite get_disps_multi' by (repeat constructor; cbn; lia).
  assert (E : Rltb 8 (in_gigabytes (fold_right Z.add 0 (map (estimate (length [0]) 3 8) [1]%nat))) = false).
  { apply Rltb_false. unfold in_gigabytes. cbn. lra. }
  rewrite E. cbn [bind]. eexists. split; [reflexivity|]. do 4 (split; [reflexivity|]).
  cbn. constructor; [|constructor]. cbn. lia.
Qed.
Lemma C53_example_proof {G Seed RS} (X : Ext R G Seed RS) circ g : exists p an,
  ase_parser geomspace_R circ (drift_frames 3) (hop_params 1 (PyFloat 1%R) one_step) = Ok p /\ p_drift_indices p <> []
  /\ analysed_by X (of_parsed p) (QScalar 1%R) (demo_boot 1 "xyz") g an g /\ b_n (an_diff an) = [0%R].
Proof.
  destruct (drift_one circ) as (p & P & D & L1 & L2 & L3 & HF).
  destruct (msd_total X (demo_boot 1 "xyz") (p_delta_t p) (p_disp_3d p) (p_n_o p) all_axes g) as (b & E).
  1:{ reflexivity. } 1:{ reflexivity. } 1:{ exact names_xyz. } 1:{ now destruct (p_disp_3d p). } 1:{ exact HF. } 1:{ lia. } 1:{ lia. }
  exists p, (mkAn (of_parsed p) b). split; [exact P|]. split; [now rewrite D|].
  assert (HA : analysed_by X (of_parsed p) (QScalar 1%R) (demo_boot 1 "xyz") g (mkAn (of_parsed p) b) g).
  { left. unfold diffusion_analyzer. cbn [of_parsed an_delta_t an_disp_3d an_n_o]. rewrite E. reflexivity. }
  split; [exact HA|]. cbn [an_diff].
  assert (HM : motionless p).
  { eapply (C53_ase_proof circ unit_cell _ _ 3 2 1 site0 drifting no_image (hop_params 1 (PyFloat 1%R) one_step)).
    - exact unit_cell_volume.
    - lia.
    - reflexivity.
    - left. discriminate.
    - left. exact P.
    - now rewrite D. }
  assert (Z := C53_end_proof X ase_parser circ _ _ _ (demo_boot 1 "xyz") (QScalar 1%R) g _ g (or_introl eq_refl) P HM
            ltac:(discriminate) eq_refl eq_refl HA). cbn [an_diff] in Z.
  destruct (msd_run X (demo_boot 1 "xyz") _ _ _ _ _ _ eq_refl E) as (axes & shown & N1 & N2 & H3 & H4 & _ & HR).
  cbn [demo_boot u_sub_sample_dt] in H3. change (Z.to_nat 1) with 1%nat in H3. apply sub_sample_one in H3.
  assert (axes = all_axes) by (eapply names_unique; [exact N1|exact names_xyz]). subst axes.
  assert (ES : shown = p_disp_3d p).
  { rewrite <- H3. eapply leading_all; [|exact (br_shown _ _ _ _ _ _ _ _ _ _ HR)]. rewrite H3.
    eapply Forall_impl; [|exact HF]. cbv beta. intros d Hd. unfold msd_values. now rewrite map_length. }
  assert (L := br_n_len _ _ _ _ _ _ _ _ _ _ HR). rewrite ES, L1 in L.
  destruct (b_n b) as [|x [|? ?]]; try discriminate L. inversion Z; subst. reflexivity.
Qed.
Lemma C41_example_proof {G Seed RS} (X : Ext R G Seed RS) (g : G) :
  exists (to_d : list R -> list (string * pyval (nd R) R)) of_d b, (forall l, of_d (to_d l) = Ok l) /\ reachable X (demo_boot 1 "xyz") b /\ b_n b <> [].
Proof.
  exists (fun l => [("samples"%string, VArr (N1 l))]), (fun d => match d with [(_, VArr (N1 l))] => Ok l | _ => Raise KeyError end).
  destruct (demo_msd X g) as (b & E & Eb & _). exists b. split; [reflexivity|]. split.
  - exists b, []. split; [|constructor]. do 5 eexists. left. exact E.
  - intros H. rewrite H in *. discriminate.
Qed.
Lemma C24_example_proof circ : let parse := fun t => ase_parser geomspace_R circ t (hop_params 1 (PyFloat 1%R) one_step) in
  exists d, from_frames parse (TMulti [firstn 1 (hop_frames 3); skipn 1 (hop_frames 3)]) (Some "consecutive"%string) = Ok d
    /\ length (an_disp_3d d) = 1%nat.
Proof.
  intros parse. destruct (hop_one circ) as (p & a1 & x & y & z & P & A & _).
  rewrite C24_proof. cbn [List.concat]. rewrite app_nil_r, firstn_skipn. cbn [from_frames]. unfold parse. rewrite P. cbn [bind].
  eexists. split; [reflexivity|]. cbn. now rewrite A.
Qed.
