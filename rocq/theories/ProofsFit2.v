(** * ProofsFit2: a concrete fit, for the examples and refutations of C36-C48 *)
From Verif Require Import Base Spec SpecParser SpecStats SpecFit ModelParser ModelDiffusion ModelHdf ModelAnalyzer
  Lemmas ProofsWindows ProofsParser ProofsBoot ProofsStats ProofsCov ProofsFit SpecRun.
From Coq Require Import Reals Lra Lia ZArith Sorted.
Open Scope Z_scope.

(** Libraries that do the simplest possible thing; the generator is a counter, the p-value is [pv],
    the optimiser finds gradient [m0] and intercept 0. *)
Definition demo_ext (pv m0 : R) : Ext R nat nat nat :=
  mkExt sqrt (fun g _ size => (repeat 0%nat size, S g)) (fun _ => pv) (fun _ => (0%R, 0%R)) (fun rs => rs) (fun s => s)
    (fun _ _ _ => Ok 1%R)
    (fun m => Ok (repeat 1%R (length m), repeat (repeat 1%R (length m)) (length m)))
    (fun m => Ok m) (fun _ => Ok 0%R) (ln (2 * PI)) (fun m => Ok m) (fun _ _ => Ok 1%R)
    (fun _ x0 => Ok (match x0 with [_] => [m0] | _ => [m0; 0%R] end))
    (fun g rows cols => (repeat (repeat 0%R cols) rows, S g)) (fun _ => true) (fun g _ => ([], S g))
    (fun g mu _ n => (repeat mu n, S g)).
Definition demo_data : Boot R :=
  mkBoot demo_disps [1;2]%R 2 [] [1;2]%R [2;4]%R [1;1]%R [1;1]%R [] [] [] [4;2]%R [] 1 (PyStr "xyz") []
         None None None None None None None SAll None 3 None None.
Definition demo_fit (start : R) (intercept : bool) : GLSParams R nat :=
  mkGLSParams start 10%R false intercept 1 4 0 1 (Some 7%nat).
Definition demo_chain (m0 : R) (f : bool) : list (list R) := repeat (if f then [m0; 0]%R else [m0]) 4.

Lemma demo_positions m0 (f : bool) :
  initial_positions (if f then [m0; 0]%R else [m0]) (repeat (repeat 0%R (if f then 2 else 1)) 4) = demo_chain m0 f.
Proof.
  unfold initial_positions, demo_chain, zip_with. rewrite milli_R.
  destruct f; cbn; numR; repeat f_equal; ring.
Qed.
Lemma demo_eig n (c : R) : (0 < n)%nat -> (1 <= c)%R -> recondition_eigenvalues (repeat 1%R n) c = Ok (repeat 1%R n).
Proof.
  intros Hn Hc. unfold recondition_eigenvalues. destruct n; [lia|]. cbn [repeat].
  change (py_index (1%R :: repeat 1%R n) 0) with (py_index (1%R :: repeat 1%R n) (Z.of_nat 0)). rewrite py_index_nat.
  cbn [nth_error opt_res bind]. f_equal. numR.
  assert (E : Rltb 1 (1 / c) = false).
  { apply Rltb_false. apply (Rmult_le_reg_r c); [lra|]. unfold Rdiv. rewrite Rmult_assoc, Rinv_l by lra. lra. }
  cbn [map]. rewrite E. f_equal. clear Hn. induction n; [reflexivity|]. cbn. rewrite E. f_equal. exact IHn.
Qed.
Lemma demo_cov pv m0 (f : bool) start r : (r <= 1)%nat ->
  exists raw cov, generate_covariance_matrix (demo_ext pv m0) (set_settings demo_data (demo_fit start f)) (demo_fit start f) r
    = (Some raw, Ok cov) /\ length cov = (2 - r)%nat.
Proof.
  intros Hr. unfold generate_covariance_matrix. cbn [demo_fit l_model bind].
  change (b_v (set_settings demo_data _)) with [1;1]%R. change (b_n_o (set_settings demo_data _)) with [4;2]%R.
  assert (Ep : exists m, populate_covariance_matrix (skipn r [1;1]%R) (skipn r [4;2]%R) = Ok m /\ length m = (2 - r)%nat).
  { unfold populate_covariance_matrix. destruct r as [|[|]]; [| |lia]; eexists; split; reflexivity. }
  destruct Ep as (m & -> & Lm). unfold minimum_eigenvalue_method. cbn [demo_ext x_eig bind].
  rewrite demo_eig by (try lia; cbn; lra). cbn [bind demo_ext x_cov_nearest].
  exists m, (vdiagvt (repeat (repeat 1%R (length m)) (length m)) (repeat 1%R (length m))). split; [reflexivity|].
  unfold vdiagvt. now rewrite map_length, repeat_length.
Qed.
Lemma demo_ll (dts ns : list R) (ld : R) inv m0 (f : bool) :
  exists lps, mapM (log_likelihood dts ns ld inv) (demo_chain m0 f) = Ok lps /\ length lps = 4%nat.
Proof.
  assert (E : exists l, log_likelihood dts ns ld inv (if f then [m0;0]%R else [m0]) = Ok l).
  { unfold log_likelihood. destruct f.
    - change (py_index [m0;0]%R 0) with (py_index [m0;0]%R (Z.of_nat 0)). rewrite py_index_nat. cbn [nth_error opt_res bind straight_line].
      destruct (m0 <? n0)%num; cbn [bind]; eauto.
    - change (py_index [m0] 0) with (py_index [m0] (Z.of_nat 0)). rewrite py_index_nat. cbn [nth_error opt_res bind straight_line].
      destruct (m0 <? n0)%num; cbn [bind]; eauto. }
  destruct E as (l & E). unfold demo_chain. cbn [repeat mapM]. rewrite E. cbn [bind]. eauto.
Qed.
Lemma demo_gls pv m0 (f : bool) start r g : first_at_least start [1;2]%R r ->
  exists cov, bootstrap_GLS (demo_ext pv m0) demo_data (demo_fit start f) g
    = (set_fit (set_covariance (set_settings demo_data (demo_fit start f)) cov) (demo_chain m0 f) (repeat m0 4)
               (if f then Some (repeat 0%R 4) else None), 8%nat, Ok tt) /\ length cov = (2 - r)%nat.
Proof.
  intros Hr. assert (Hr1 : (r <= 1)%nat).
  { destruct Hr as (x & Hx & _). assert (r < 2)%nat by (apply (proj1 (nth_error_Some [1;2]%R r)); congruence). lia. }
  destruct (demo_cov pv m0 f start r Hr1) as (raw & cov & EG & Lc). exists cov. split; [|exact Lc].
  unfold bootstrap_GLS. change (b_dt (set_settings demo_data (demo_fit start f))) with [1;2]%R.
  change (l_start_dt (demo_fit start f)) with start.
  rewrite (find_regime_of_first _ _ _ Hr). rewrite EG.
  unfold sample_gls. cbn [demo_ext x_logdet x_pinvh x_linregress x_minimize bind demo_fit l_random_state x_seed x_seed_of l_fit_intercept
    l_n_walkers l_n_samples l_n_burn l_thin x_randn].
  set (dts := skipn r _). set (ns := skipn r _). set (ld := nadd _ _).
  match goal with |- context[match ?l with [] => [m0; 0%R] | _ => _ end] => assert (E1 : match l with [_] => [m0] | _ => [m0; 0%R] end = (if f then [m0; 0%R] else [m0])) by (now destruct f) end.
  rewrite E1. change (Z.to_nat 4) with 4%nat.
  assert (E2 : length (if f then [m0; 0%R] else [m0]) = if f then 2%nat else 1%nat) by (now destruct f).
  rewrite E2, demo_positions. 
  destruct (demo_ll dts ns ld cov m0 f) as (lps & E3 & L3).
  unfold run_mcmc. cbn [demo_ext x_independent guard bind]. rewrite E3. cbn [bind].
  change (0 <=? 1 + 0) with true. change (0 <? 1 + 0) with true. cbn [guard bind].
  assert (E4 : (2 * (if f then 2 else 1) <=? length (demo_chain m0 f))%nat = true) by (now destruct f).
  rewrite E4. cbn [guard bind]. change (Z.to_nat (1 + 0)) with 1%nat. cbn [run_chain].
  unfold half_step. cbn [demo_ext x_propose].
  assert (E5 : forall ws, move_walkers (log_likelihood dts ns ld cov) ws [] = Ok ws) by (now intros [|]).
  rewrite !E5. cbn [bind]. rewrite E5. cbn [bind].
  assert (E6 : map fst (combine (demo_chain m0 f) lps) = demo_chain m0 f).
  { destruct lps as [|l1 [|l2 [|l3 [|l4 [|]]]]]; try discriminate L3. now destruct f. }
  rewrite E6. unfold get_chain. change (0 + 1 - 1) with 0. unfold py_from. cbn [length].
  assert (E7 : py_bound 1 0 = 0%nat) by reflexivity. rewrite E7. cbn [skipn]. rewrite py_stride_one. cbn [bind List.concat]. rewrite app_nil_r.
  destruct f; reflexivity.
Qed.

(** ** C47 over histories of calls *)
Section History.
  Context {G Seed RS : Type} (X : Ext R G Seed RS).

  Notation run_call := (SpecRun.run_call X).
  Notation history := (SpecRun.history X).

  Lemma same_statistics_refl b : same_statistics b b.
  Proof. repeat split; reflexivity. Qed.
  Lemma same_statistics_trans a b c : same_statistics a b -> same_statistics b c -> same_statistics a c.
  Proof. unfold same_statistics. intuition congruence. Qed.
  Lemma run_call_statistics b g c b' g' o : run_call b g c = (b', g', o) -> same_statistics b b'.
  Proof.
    destruct c as [p|p|k p t vol]; cbn [run_call]; intros H.
    - destruct (C47_statistics_proof X (mkConsts 0 0 0)%R b p 0%R 0%R g) as (K & _ & _). eapply K; eauto.
    - destruct (C47_statistics_proof X (mkConsts 0 0 0)%R b p 0%R 0%R g) as (_ & K & _). eapply K; eauto.
    - destruct (C47_statistics_proof X k b p t vol g) as (_ & _ & K). eapply K; eauto.
  Qed.


  Lemma run_call_keeps b g c b' g' o d : b_displacements b <> [] -> run_call b g c = (b', g', o) ->
    o <> Ok tt \/ ~ same_kind c d -> coefficient d b' = coefficient d b.
  Proof.
    intros Hne H Ho. destruct o as [[]|e].
    - destruct Ho as [Ho|Ho]; [congruence|]. destruct c as [p|p|k p t vol]; cbn [run_call] in H.
      + destruct (C47_others_proof X (mkConsts 0 0 0)%R b p 0%R 0%R g) as (K & _ & _). destruct (K _ _ H) as (_ & K2 & K3).
        destruct d; cbn in *; [tauto| |]; assumption.
      + destruct (C47_others_proof X (mkConsts 0 0 0)%R b p 0%R 0%R g) as (_ & K & _). destruct (K _ _ H) as (_ & K2 & K3).
        destruct d; cbn in *; [|tauto|]; assumption.
      + destruct (C47_others_proof X k b p t vol g) as (_ & _ & K). destruct (K _ _ H) as (_ & K2 & K3).
        destruct d; cbn in *; [| |tauto]; assumption.
    - assert (S : same_coefficients b b').
      { destruct c as [p|p|k p t vol]; cbn [run_call] in H.
        - destruct (C47_failed_proof X (mkConsts 0 0 0)%R b p 0%R 0%R g e Hne) as (K & _ & _). now apply (K _ _ H).
        - destruct (C47_failed_proof X (mkConsts 0 0 0)%R b p 0%R 0%R g e Hne) as (_ & K & _). now apply (K _ _ H).
        - destruct (C47_failed_proof X k b p t vol g e Hne) as (_ & _ & K). now apply (K _ _ H). }
      destruct S as (S1 & S2 & S3). destruct d; assumption.
  Qed.
  (** After any history the statistics are the original ones. *)
  Lemma C47_history_statistics_proof b h b' : history b h b' -> same_statistics b b'.
  Proof.
    induction 1 as [|h c g b1 g2 b2 o H IH Hc]; [apply same_statistics_refl|].
    eapply same_statistics_trans; [exact IH|]. eapply run_call_statistics; eauto.
  Qed.
  Lemma history_split b h1 h2 b' : history b (h1 ++ h2) b' -> exists b1, history b h1 b1 /\ history b1 h2 b'.
  Proof.
    revert b'. induction h2 as [|x h2 IH] using rev_ind; intros b' H.
    - rewrite app_nil_r in H. exists b'. split; [exact H|constructor].
    - rewrite app_assoc in H. inversion H as [E E0|h c g b1 g2 b2 o H1 Hc E E2].
      + destruct (h1 ++ h2)%list; discriminate.
      + apply app_inj_tail in E as [-> <-]. subst b2. destruct (IH _ H1) as (b3 & Ha & Hb). exists b3. split; [exact Ha|].
        econstructor; eauto.
  Qed.
  Lemma history_keeps b h b' d : b_displacements b <> [] -> history b h b' ->
    Forall (fun co => snd co <> Ok tt \/ ~ same_kind (fst co) d) h -> coefficient d b' = coefficient d b.
  Proof.
    intros Hne H. induction H as [|h c g b1 g2 b2 o H IH Hc]; intros F; [reflexivity|].
    apply Forall_app in F as [F1 F2]. inversion F2 as [|? ? F3 _]; subst. rewrite <- (IH F1).
    eapply run_call_keeps; [|exact Hc|exact F3].
    destruct (C47_history_statistics_proof _ _ _ H) as [-> _]. exact Hne.
  Qed.
  (** A coefficient is that of the last successful call of its method: the object is fitted by [c]
      (giving [b2]), and whatever happens afterwards short of another success of the same method,
      the coefficient stays. *)
  Lemma C47_history_proof b h1 c h2 b' : b_displacements b <> [] ->
    history b (h1 ++ (c, Ok tt) :: h2) b' -> Forall (fun co => snd co <> Ok tt \/ ~ same_kind (fst co) c) h2 ->
    exists b1 g b2 g2, history b h1 b1 /\ run_call b1 g c = (b2, g2, Ok tt)
      /\ coefficient c b2 <> None /\ coefficient c b' = coefficient c b2.
  Proof.
    intros Hne H F. destruct (history_split _ _ _ _ H) as (b1 & H1 & H2).
    change ((c, Ok tt) :: h2) with ([(c, Ok tt)] ++ h2)%list in H2. destruct (history_split _ _ _ _ H2) as (b2 & H3 & H4).
    inversion H3 as [E|h c' g b1' g2 b2' o H5 Hc E E2]; subst.
    destruct h as [|? h]; [|destruct h; discriminate]. cbn in E. injection E as -> ->.
    inversion H5 as [E E'|? ? ? ? ? ? ? ? ? E]; [subst|destruct h; discriminate].
    exists b1', g, b2, g2. split; [exact H1|]. split; [exact Hc|]. split.
    - destruct c as [p|p|k p t vol]; cbn [run_call coefficient] in *.
      + destruct (C47_others_proof X (mkConsts 0 0 0)%R b1' p 0%R 0%R g) as (K & _ & _). now apply (K _ _ Hc).
      + destruct (C47_others_proof X (mkConsts 0 0 0)%R b1' p 0%R 0%R g) as (_ & K & _). now apply (K _ _ Hc).
      + destruct (C47_others_proof X k b1' p t vol g) as (_ & _ & K). now apply (K _ _ Hc).
    - eapply history_keeps; [|exact H4|exact F].
      destruct (C47_history_statistics_proof _ _ _ H1) as [S1 _]. destruct (run_call_statistics _ _ _ _ _ _ Hc) as [S2 _]. congruence.
  Qed.
  (** No successful call of a method: still None. *)
  Lemma C47_history_none_proof b h b' d : b_displacements b <> [] -> not_fitted b -> history b h b' ->
    Forall (fun co => snd co <> Ok tt \/ ~ same_kind (fst co) d) h -> coefficient d b' = None.
  Proof.
    intros Hne (N1 & N2 & N3 & _) H F. rewrite (history_keeps _ _ _ _ Hne H F). destruct d; assumption.
  Qed.

  (** flatchain and distribution after the other two methods. *)
  Lemma C47_after_jump_proof a p g a' g' : l_fit_intercept p = true -> an_jump_diffusion X a p g = (a', g', Ok tt) ->
    exists d gr ic, b_DJ (an_diff a') = Some d /\ b_gradient (an_diff a') = Some gr /\ b_intercept (an_diff a') = Some ic
      /\ length d = length ic /\ length gr = length ic
      /\ an_flatchain (@b_DJ R) a' = Ok (combine d ic)
      /\ distribution a' = Ok (map (fun t => map (fun gc => fst gc * t + snd gc)%R (combine gr ic)) (b_dt (an_diff a))).
  Proof.
    intros Hf H. unfold an_jump_diffusion in H. destruct (jump_diffusion X (an_diff a) p g) as [[b' g1] r] eqn:E. injection H as <- <- ->.
    destruct (jump_ok X _ _ _ _ _ E) as (b1 & gr & d0 & EG & Eg & Ed & ->).
    destruct (gls_ok_gradient X _ _ _ _ _ EG) as (ch & gr' & _ & Eg' & C0 & CI & _). rewrite Eg in Eg'. injection Eg' as <-.
    destruct (CI Hf) as (ic & Ei & C1). assert (HL := columns_length _ _ _ C0 C1).
    assert (St := gls_statistics X _ _ _ _ _ _ EG). unfold same_statistics in St. assert (Edt : b_dt b1 = b_dt (an_diff a)) by tauto. clear St.
    eexists _, gr, ic. cbn [an_diff set_DJ b_DJ b_gradient b_intercept].
    split; [reflexivity|]. split; [exact Eg|]. split; [exact Ei|].
    split; [unfold jump_samples; now rewrite map_length|]. split; [exact HL|]. split.
    - unfold an_flatchain. cbn [an_diff set_DJ b_DJ b_intercept samples_of opt_res bind]. rewrite Ei. cbn [samples_of opt_res bind].
      unfold jump_samples at 1. now rewrite map_length, HL, Nat.eqb_refl.
    - rewrite <- Edt. apply distribution_ok; assumption.
  Qed.
  Lemma C47_after_sigma_proof k a p t g a' g' : l_fit_intercept p = true -> an_conductivity X k a p t g = (a', g', Ok tt) ->
    exists d gr ic, b_sigma (an_diff a') = Some d /\ b_gradient (an_diff a') = Some gr /\ b_intercept (an_diff a') = Some ic
      /\ length d = length ic /\ length gr = length ic
      /\ an_flatchain (@b_sigma R) a' = Ok (combine d ic)
      /\ distribution a' = Ok (map (fun t => map (fun gc => fst gc * t + snd gc)%R (combine gr ic)) (b_dt (an_diff a))).
  Proof.
    intros Hf H. unfold an_conductivity in H. destruct (an_volume (an_data a)) as [vol|].
    2:{ destruct (bootstrap_GLS X (an_diff a) p g) as [[b' g1] [[]|]]; discriminate. }
    destruct (conductivity X k (an_diff a) p t vol g) as [[b' g1] r] eqn:E. injection H as <- <- ->.
    destruct (conductivity_ok X _ _ _ _ _ _ _ _ E) as (b1 & gr & EG & Eg & ->).
    destruct (gls_ok_gradient X _ _ _ _ _ EG) as (ch & gr' & _ & Eg' & C0 & CI & _). rewrite Eg in Eg'. injection Eg' as <-.
    destruct (CI Hf) as (ic & Ei & C1). assert (HL := columns_length _ _ _ C0 C1).
    assert (St := gls_statistics X _ _ _ _ _ _ EG). unfold same_statistics in St. assert (Edt : b_dt b1 = b_dt (an_diff a)) by tauto. clear St.
    eexists _, gr, ic. cbn [an_diff set_sigma b_sigma b_gradient b_intercept].
    split; [reflexivity|]. split; [exact Eg|]. split; [exact Ei|].
    split; [unfold diffusion_samples; now rewrite !map_length|]. split; [exact HL|]. split.
    - unfold an_flatchain. cbn [an_diff set_sigma b_sigma b_intercept samples_of opt_res bind]. rewrite Ei. cbn [samples_of opt_res bind].
      unfold diffusion_samples at 1. now rewrite !map_length, HL, Nat.eqb_refl.
    - rewrite <- Edt. apply distribution_ok; assumption.
  Qed.
End History.

(** ** Concrete fits *)
Lemma demo_first1 : first_at_least 1 [1;2]%R 0.
Proof. exists 1%R. repeat split; [lra|]. intros i y H. lia. Qed.
Lemma demo_first2 : first_at_least 2 [1;2]%R 1.
Proof. exists 2%R. repeat split; [lra|]. intros [|i] y H E; [|lia]. cbn in E. injection E as <-. lra. Qed.
Lemma demo_diffusion pv m0 (f : bool) start r g : first_at_least start [1;2]%R r ->
  exists b cov, diffusion (demo_ext pv m0) demo_data (demo_fit start f) g = (b, 8%nat, Ok tt)
    /\ b_D b = Some (diffusion_samples 3 (repeat m0 4)) /\ b_gradient b = Some (repeat m0 4)
    /\ b_intercept b = (if f then Some (repeat 0%R 4) else None) /\ b_covariance b = Some cov /\ length cov = (2 - r)%nat
    /\ b_start_dt b = Some start /\ b_dt b = [1;2]%R /\ b_displacements b = demo_disps /\ b_dims b = 3%nat.
Proof.
  intros Hr. destruct (demo_gls pv m0 f start r g Hr) as (cov & E & L). unfold diffusion. rewrite E.
  cbn [set_fit b_gradient samples_of opt_res]. eexists _, cov. split; [reflexivity|]. cbn. auto 12.
Qed.
Lemma demo_starts pv (m0 : R) : (0 <= m0)%R -> starts_positive (demo_ext pv m0).
Proof.
  intros H. split.
  - intros f x0 ml E. cbn in E. injection E as <-. destruct x0 as [|? [|]]; eexists _, _; split; eauto.
  - intros g r c. cbn. induction r; cbn; constructor; [|exact IHr]. split; [apply repeat_length|].
    apply Forall_forall. intros z Hz. apply repeat_spec in Hz. subst. lra.
Qed.
Lemma demo_randints pv m0 : randints_ok (demo_ext pv m0).
Proof.
  intros g n size. cbn. split; [apply repeat_length|]. intros H. apply Forall_forall. intros i Hi. apply repeat_spec in Hi. lia.
Qed.
Lemma demo_mvn pv m0 : mvn_shape (demo_ext pv m0).
Proof.
  intros g mu cov n. cbn. split; [apply repeat_length|]. apply Forall_forall. intros r Hr. apply repeat_spec in Hr. now subst.
Qed.
Lemma demo_draws pv m0 : draws_enough (demo_ext pv m0).
Proof. intros g n size. cbn. apply repeat_length. Qed.

Lemma demo_none : find_regime 3%R 0 [1;2]%R = Raise IndexError.
Proof.
  cbn [find_regime]. numR. assert (Rleb 3 1 = false) as -> by (apply Rleb_false; lra).
  assert (Rleb 3 2 = false) as -> by (apply Rleb_false; lra). reflexivity.
Qed.

(** *** C36 *)
Lemma C36_example_proof g :
  (exists b, bootstrap_GLS (demo_ext 1 1) demo_data (demo_fit 2 true) g = (b, 8%nat, Ok tt) /\ b_gradient b = Some [1;1;1;1]%R)
  /\ fit_data demo_data 1 = ([2], [4], [1], [2])%R.
Proof.
  split; [|reflexivity]. destruct (demo_gls 1 1 true 2 1 g demo_first2) as (cov & E & _). rewrite E. eexists. split; reflexivity.
Qed.
Lemma C36_none_example_proof g : exists b, bootstrap_GLS (demo_ext 1 1) demo_data (demo_fit 3 true) g = (b, 7%nat, Raise IndexError).
Proof.
  destruct (C36_none_proof (demo_ext 1 1) demo_data (demo_fit 3 true) g) as (b & g' & E & _).
  - intros x [<-|[<-|[]]]; cbn; lra.
  - exists b. rewrite E. unfold bootstrap_GLS in E. cbn [demo_fit l_random_state demo_ext x_seed x_seed_of] in E.
    destruct (find_regime _ _ _) as [dr|] eqn:Ef; [|now injection E as _ <- _].
    exfalso. change (b_dt _) with [1;2]%R in Ef. cbn [l_start_dt demo_fit] in Ef.
    revert Ef. cbn. numR. assert (Rleb 3 1 = false) as -> by (apply Rleb_false; lra).
    assert (Rleb 3 2 = false) as -> by (apply Rleb_false; lra). discriminate.
Qed.

(** *** C37 *)
Lemma C37_example_proof g : exists b, diffusion (demo_ext 1 6) demo_data (demo_fit 1 true) g = (b, 8%nat, Ok tt)
  /\ b_D b = Some (repeat (/ 10000)%R 4).
Proof.
  destruct (demo_diffusion 1 6 true 1 0 g demo_first1) as (b & cov & E & D & _). exists b. split; [exact E|]. rewrite D.
  unfold diffusion_samples. cbn [map repeat]. rewrite nofnat_R. numR. cbn [INR].
  assert (Q : (6 / (20000 * (1 + 1 + 1)))%R = (/ 10000)%R) by field. now rewrite Q.
Qed.

(** *** C38: the start must not be negative *)
Lemma C38_needed_proof g : exists b d, diffusion (demo_ext 1 (-6)) demo_data (demo_fit 1 true) g = (b, 8%nat, Ok tt)
  /\ b_D b = Some d /\ ~ all_ge 0 d.
Proof.
  destruct (demo_diffusion 1 (-6) true 1 0 g demo_first1) as (b & cov & E & D & _). exists b. eexists. split; [exact E|]. split; [exact D|].
  unfold diffusion_samples. cbn [map repeat]. rewrite nofnat_R. numR. cbn [INR]. intros H. inversion H; subst. lra.
Qed.

(** *** C39: a warning although the p-value is fine *)
Lemma C39_warning_refuted_proof : exists (X : Ext R nat nat nat) g l ns n_re mr alpha v g',
  sample_until_normal X g l ns n_re mr alpha = Some (Ok (v, true, g')) /\ (alpha <= x_normaltest X v)%R.
Proof.
  exists (demo_ext 1 1), 0%nat, [3;5]%R, 2%R, 3, 3, (1/1000)%R.
  assert (Ei : @py_int R _ 2%R = Ok 2) by (unfold py_int; numR; now rewrite Rtrunc_IZR).
  assert (E : bootstrap_n (demo_ext 1 1) 0%nat [3;5]%R 2%R 3 = Ok ([nmean [3;3]; nmean [3;3]; nmean [3;3]]%R, 3%nat)).
  { cbn [bootstrap_n]. rewrite Ei. reflexivity. }
  exists [nmean [3;3]; nmean [3;3]; nmean [3;3]]%R, 3%nat. unfold sample_until_normal. change (Z.to_nat 3) with 3%nat. rewrite E.
  cbn [resample_loop length]. change (x_normaltest (demo_ext 1 1) _) with 1%R.
  change (Z.of_nat 3 <? 3) with false. change (3 <=? Z.of_nat 3) with true. rewrite Bool.andb_false_r. split; [reflexivity|lra].
Qed.

(** *** C40 *)
Lemma C40_example_proof : exists v g',
  sample_until_normal (demo_ext 1 1) 0%nat [3;5]%R 2%R 2 10 (1/1000)%R = Some (Ok (v, false, g')) /\ v = [3;3]%R.
Proof.
  assert (Ei : @py_int R _ 2%R = Ok 2) by (unfold py_int; numR; now rewrite Rtrunc_IZR).
  assert (E : bootstrap_n (demo_ext 1 1) 0%nat [3;5]%R 2%R 2 = Ok ([nmean [3;3]; nmean [3;3]]%R, 2%nat)).
  { cbn [bootstrap_n]. rewrite Ei. reflexivity. }
  assert (Em : nmean [3;3]%R = 3%R) by (unfold nmean; rewrite nofnat_R; unfold nsum; cbn; numR; field).
  rewrite Em in E. exists [3;3]%R, 2%nat. split; [|reflexivity]. unfold sample_until_normal. change (Z.to_nat 2) with 2%nat. rewrite E.
  change (Z.to_nat 10) with 10%nat. cbn [resample_loop].
  change (x_normaltest (demo_ext 1 1) _) with 1%R. numR.
  assert (Rltb 1 (1/1000) = false) as -> by (apply Rltb_false; lra). reflexivity.
Qed.

(** *** C47: without an intercept *)
Lemma C47_refuted_proof : exists (X : Ext R nat nat nat) a p g a' g',
  an_diffusion X a p g = (a', g', Ok tt) /\ an_flatchain (@b_D R) a' = Raise AttributeError /\ distribution a' = Raise AttributeError.
Proof.
  destruct (demo_diffusion 1 1 false 1 0 0%nat demo_first1) as (b & cov & E & _).
  set (a := mkAn (mkAnalyzer [1;2] demo_disps [4;2] None)%R demo_data).
  exists (demo_ext 1 1), a, (demo_fit 1 false), 0%nat, (mkAn (an_data a) b), 8%nat.
  assert (Ea : an_diffusion (demo_ext 1 1) a (demo_fit 1 false) 0%nat = (mkAn (an_data a) b, 8%nat, Ok tt)).
  { unfold an_diffusion. change (an_diff a) with demo_data. now rewrite E. }
  split; [exact Ea|]. apply C47_no_intercept_proof in Ea as (K1 & K2 & _); [|reflexivity]. now split.
Qed.
(** A fit, then a fit that fails because start_dt is beyond the data. *)
Lemma C47_history_example_proof : exists b, history (demo_ext 1 6) demo_data
    [(CallDiffusion (demo_fit 1 true), Ok tt); (CallDiffusion (demo_fit 3 true), Raise IndexError)] b
  /\ b_D b = Some (diffusion_samples 3 (repeat 6%R 4)) /\ b_start_dt b = Some 3%R /\ b_gradient b = Some (repeat 6%R 4)
  /\ b_dt b = [1;2]%R.
Proof.
  destruct (demo_diffusion 1 6 true 1 0 0%nat demo_first1) as (b & cov & E & D & Hg & _ & _ & _ & _ & Hdt & _).
  exists (set_settings b (demo_fit 3 true)). split.
  - change [(CallDiffusion (demo_fit 1 true), Ok tt); (CallDiffusion (demo_fit 3 true), Raise IndexError)]
      with (([] ++ [(CallDiffusion (demo_fit 1 true), Ok tt)]) ++ [(CallDiffusion (demo_fit 3 true), @Raise unit IndexError)])%list.
    eapply (h_snoc _ _ _ _ 0%nat b 7%nat); [eapply (h_snoc _ _ _ _ 0%nat demo_data 8%nat); [constructor|exact E]|].
    cbn [run_call]. unfold diffusion, bootstrap_GLS. cbn [demo_fit l_random_state demo_ext x_seed x_seed_of].
    change (b_dt (set_settings b _)) with (b_dt b). rewrite Hdt.
    change (l_start_dt _) with 3%R. rewrite demo_none. reflexivity.
  - cbn. auto.
Qed.

(** *** C48 *)
Lemma C48_example_proof : exists b g' rows g'', diffusion (demo_ext 1 1) demo_data (demo_fit 1 true) 0%nat = (b, g', Ok tt)
  /\ posterior_predictive (demo_ext 1 1) b None 2 g' = Ok (rows, g'') /\ length rows = 8%nat /\ Forall (fun r => length r = 2%nat) rows.
Proof.
  destruct (demo_diffusion 1 1 true 1 0 0%nat demo_first1) as (b & cov & E & D & Hg & Hi & Hc & Lc & Hs & Hdt & _).
  destruct (C48_proof (demo_ext 1 1) b _ _ cov 1%R 0%nat None 2%nat 8%nat (demo_randints _ _) (demo_mvn _ _) Hg Hi Hc Hs)
    as (rows & blocks & g' & H1 & H2 & H3 & _).
  - rewrite Hdt. apply demo_first1.
  - rewrite Hdt. exact Lc.
  - reflexivity.
  - cbn. lia.
  - left. rewrite Hdt. cbn. lia.
  - exists b, 8%nat, rows, g'. split; [exact E|]. split; [exact H1|]. split; [exact H2|]. rewrite Hdt in H3. exact H3.
Qed.
Lemma C48_refuted_proof : exists (X : Ext R nat nat nat) b p g b' g', diffusion X b p g = (b', g', Ok tt)
  /\ posterior_predictive X b' None 2 g' = Raise AttributeError.
Proof.
  destruct (demo_diffusion 1 1 false 1 0 0%nat demo_first1) as (b & cov & E & D & Hg & Hi & _).
  exists (demo_ext 1 1), demo_data, (demo_fit 1 false), 0%nat, b, 8%nat. split; [exact E|].
  eapply (C48_no_intercept_proof (demo_ext 1 1) demo_data (demo_fit 1 false) 0%nat b 8%nat _ 0%nat); [intros; apply (demo_randints 1 1)| |reflexivity|exact E|apply demo_first1|exact Hg|discriminate].
  intros g n size Hn. apply (demo_randints 1 1); exact Hn.
Qed.
Lemma C48_one_point_refuted_proof : exists (X : Ext R nat nat nat) b p g b' g', l_fit_intercept p = true
  /\ diffusion X b p g = (b', g', Ok tt) /\ posterior_predictive X b' None 2 g' = Raise ValueError.
Proof.
  destruct (demo_diffusion 1 1 true 2 1 0%nat demo_first2) as (b & cov & E & D & Hg & Hi & Hc & Lc & Hs & Hdt & _).
  exists (demo_ext 1 1), demo_data, (demo_fit 2 true), 0%nat, b, 8%nat. split; [reflexivity|]. split; [exact E|].
  eapply (C48_one_point_proof (demo_ext 1 1) b _ _ cov 2%R 1%nat); [apply demo_randints|exact Hg|exact Hi|exact Hc|exact Hs| | |reflexivity|discriminate| |lia].
  - rewrite Hdt. apply demo_first2.
  - rewrite Hdt. exact Lc.
  - rewrite Hdt. reflexivity.
Qed.
(** The earlier fit is intact after the failed one of [C47_history_example_proof], but predictions are not available. *)
Lemma C48_after_failure_refuted_proof : exists (X : Ext R nat nat nat) b h b' gr ic cov, history X b h b'
  /\ b_gradient b' = Some gr /\ b_intercept b' = Some ic /\ b_covariance b' = Some cov
  /\ posterior_predictive X b' None 1 0%nat = Raise IndexError.
Proof.
  destruct (demo_diffusion 1 6 true 1 0 0%nat demo_first1) as (b & cov & E & D & Hg & Hi & Hc & _ & _ & Hdt & _).
  destruct C47_history_example_proof as (b' & H & _).
  exists (demo_ext 1 6), demo_data, [(CallDiffusion (demo_fit 1 true), Ok tt); (CallDiffusion (demo_fit 3 true), Raise IndexError)],
    (set_settings b (demo_fit 3 true)), (repeat 6%R 4), (repeat 0%R 4), cov. split.
  - change [(CallDiffusion (demo_fit 1 true), Ok tt); (CallDiffusion (demo_fit 3 true), Raise IndexError)]
      with (([] ++ [(CallDiffusion (demo_fit 1 true), Ok tt)]) ++ [(CallDiffusion (demo_fit 3 true), @Raise unit IndexError)])%list.
    eapply (h_snoc _ _ _ _ 0%nat b 7%nat); [eapply (h_snoc _ _ _ _ 0%nat demo_data 8%nat); [constructor|exact E]|].
    cbn [run_call]. unfold diffusion, bootstrap_GLS. cbn [demo_fit l_random_state demo_ext x_seed x_seed_of].
    change (b_dt (set_settings b _)) with (b_dt b). rewrite Hdt.
    change (l_start_dt _) with 3%R. rewrite demo_none. reflexivity.
  - split; [exact Hg|]. split; [exact Hi|]. split; [exact Hc|]. unfold posterior_predictive.
    change (b_gradient (set_settings b _)) with (b_gradient b). rewrite Hg. cbn [samples_of opt_res bind].
    change (b_dt (set_settings b _)) with (b_dt b). rewrite Hdt. cbn [b_start_dt set_settings opt_res bind l_start_dt demo_fit].
    rewrite demo_none. reflexivity.
Qed.

(** ** Restatements for C33-C35, C54 *)
Lemma C34_iff_proof (v n : list R) m : populate_covariance_matrix v n = Ok m -> Forall (fun c => 0 < c)%R n ->
  (positive_semidefinite m <->
   (forall i, (i < length v)%nat -> (0 <= vec_entry v i * (vec_entry n i * vec_entry n i))%R)
   /\ forall i j, (i <= j < length v)%nat ->
        (vec_entry v i * (vec_entry n i * vec_entry n i) <= vec_entry v j * (vec_entry n j * vec_entry n j))%R).
Proof.
  intros H F. rewrite (C34_proof v n m H F). unfold nondecreasing. rewrite square_counts_length. split; intros [H1 H2]; split.
  - intros i Hi. rewrite <- square_counts_nth by exact Hi. now apply H1.
  - intros i j Hij. rewrite <- !square_counts_nth by lia. now apply H2.
  - intros i Hi. rewrite square_counts_nth by exact Hi. now apply H1.
  - intros i j Hij. rewrite !square_counts_nth by lia. now apply H2.
Qed.
Lemma C33_example_proof : populate_covariance_matrix [1;3]%R [4;2]%R = Ok [[4/4*1; 4/2*1];[4/2*1;2/2*3]]%R
  /\ [[4/4*1; 4/2*1];[4/2*1;2/2*3]]%R = [[1;2];[2;3]]%R.
Proof. split; [reflexivity|]. repeat f_equal; field. Qed.
(** v = (1,3), n = (4,2): v n^2 = (16,12) decreases, so the matrix is not positive semi-definite. *)
Lemma C34_example_proof : exists m, populate_covariance_matrix [1;3]%R [4;2]%R = Ok m /\ ~ positive_semidefinite m.
Proof.
  destruct C33_example_proof as [E _]. eexists. split; [exact E|]. intros H. apply (C34_iff_proof _ _ _ E) in H.
  - destruct H as [_ H]. specialize (H 0%nat 1%nat ltac:(cbn; lia)). unfold vec_entry in H. cbn in H. lra.
  - repeat constructor; lra.
Qed.
Lemma C34_good_proof : exists m, populate_covariance_matrix [1;5]%R [4;2]%R = Ok m /\ positive_semidefinite m.
Proof.
  eexists. split; [reflexivity|]. apply (C34_iff_proof [1;5]%R [4;2]%R _ eq_refl).
  - repeat constructor; lra.
  - split.
    + intros [|[|]] Hi; [| |cbn in Hi; lia]; unfold vec_entry; cbn; lra.
    + intros [|[|]] [|[|]] Hi; try (cbn in Hi; lia); unfold vec_entry; cbn; lra.
Qed.
(** eigenvalues 4, 1 in the order given; cond_max 2 raises the smaller one to 2. *)
Lemma C35_example_proof : exists r, minimum_eigenvalue_method (eig_ext (fun _ => Ok ([4;1]%R, [[0;1];[1;0]]%R))) diag14 2%R = Ok r
  /\ r = [[2;0];[0;4]]%R.
Proof.
  eexists. split; [|reflexivity]. unfold minimum_eigenvalue_method. cbn [eig_ext x_eig bind]. unfold recondition_eigenvalues.
  change (py_index [4;1]%R 0) with (py_index [4;1]%R (Z.of_nat 0)). rewrite py_index_nat. cbn [nth_error opt_res bind map]. numR.
  assert (Rltb 4 (4 / 2) = false) as -> by (apply Rltb_false; lra).
  assert (Rltb 1 (4 / 2) = true) as -> by (apply Rltb_true; lra).
  f_equal. unfold vdiagvt. cbn [map combine fst snd]. rewrite !nsum_R. unfold rsum. cbn. numR.
  repeat (f_equal; try lra).
Qed.
Lemma C35_example_eigen_proof : eigendecomposition diag14 [[0;1];[1;0]]%R [4;1]%R.
Proof.
  split; [repeat constructor|]. split; [reflexivity|]. split.
  - intros i j Hi Hj. cbn in Hi, Hj. destruct i as [|[|]], j as [|[|]]; try lia; cbn; ring.
  - split; [repeat constructor|]. intros i j Hi Hj. cbn in Hi, Hj. destruct i as [|[|]], j as [|[|]]; try lia; cbn; ring.
Qed.
Lemma C54_negative_proof (dt n : list R) (ld : R) w g rest : (g < 0)%R -> log_likelihood dt n ld w (g :: rest) = Ok None.
Proof.
  intros H. unfold log_likelihood. change (py_index (g :: rest) 0) with (py_index (g :: rest) (Z.of_nat 0)).
  rewrite py_index_nat. cbn [nth_error opt_res bind]. numR. assert (Rltb g 0 = true) as -> by (now apply Rltb_true). reflexivity.
Qed.
(** dt = (1,2), data (2,4), unit weights: gradient 2, intercept 0. *)
Lemma C54_example_proof : gls_solution id2 [1;2]%R [2;4]%R 2 0 /\ positive_definite id2 /\ symmetric id2 /\ square id2 2.
Proof.
  split; [|split; [|split]].
  - unfold gls_solution, bilinear, residuals, matrix_entry, vec_entry, id2, ones. cbn. split; ring.
  - intros x L (i & Hi & Hx). destruct x as [|a [|b [|]]]; try discriminate. unfold quadratic, bilinear, matrix_entry, vec_entry, id2 in *.
    cbn in *. assert (0 <= a * a)%R by nra. assert (0 <= b * b)%R by nra. destruct i as [|[|]]; [| |lia].
    + assert (0 < a * a)%R by nra. lra.
    + assert (0 < b * b)%R by nra. lra.
  - intros [|[|]] [|[|]] Hi Hj; cbn in Hi, Hj; try lia; reflexivity.
  - split; [reflexivity|]. repeat constructor.
Qed.
Lemma C47_fresh_proof G Seed RS (X : Ext R G Seed RS) u dts ds no g b g' :
  (msd_bootstrap X u dts ds no g = Ok (b, g') -> not_fitted b)
  /\ (mstd_bootstrap X u dts ds no g = Ok (b, g') -> not_fitted b)
  /\ forall q, mscd_bootstrap X u dts ds q no g = Ok (b, g') -> not_fitted b.
Proof.
  split; [|split]; [intros H; eapply C47_fresh_msd; eauto|intros H; eapply C47_fresh_mstd; eauto|intros q H; eapply C47_fresh_mscd; eauto].
Qed.
