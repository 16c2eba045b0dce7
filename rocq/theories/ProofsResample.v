(** * ProofsResample: bootstrap results on average over the random numbers (C91) *)
From Verif Require Import Base Spec SpecParser SpecStats SpecRun SpecFit SpecMarkov SpecCalib SpecResample ModelParser ModelDiffusion ModelHdf Lemmas
  ProofsDisp ProofsCov ProofsBoot ProofsStats ProofsFit ProofsFit2 ProofsTrue SpecSym ProofsTime ProofsMarkov ProofsCalib.
From Coq Require Import Reals Lra Lia.
Open Scope nat_scope.

Definition pick (l : list R) (ix : list nat) : R := average (map (fun j => nth j l 0%R) ix).

Section Draws.
  Context {G Seed RS : Type} (X : Ext R G Seed RS).
  Lemma drawn_app reqs : forall reqs' g, drawn X g (reqs ++ reqs')%list
    = ((fst (drawn X g reqs) ++ fst (drawn X (snd (drawn X g reqs)) reqs'))%list, snd (drawn X (snd (drawn X g reqs)) reqs')).
  Proof.
    induction reqs as [|[k m] reqs IH]; intros reqs' g; cbn [drawn app].
    - cbn [fst snd app]. destruct (drawn X g reqs'); reflexivity.
    - destruct (x_randints X g k m) as [ix g1]. rewrite IH. destruct (drawn X g1 reqs) as [ixs g2]. cbn [fst snd]. reflexivity.
  Qed.
  Lemma drawn_length reqs : forall g, length (fst (drawn X g reqs)) = length reqs.
  Proof.
    induction reqs as [|[k m] reqs IH]; intros g; cbn [drawn]; [reflexivity|]. destruct (x_randints X g k m) as [ix g1]. specialize (IH g1).
    destruct (drawn X g1 reqs) as [ixs g2]. cbn in *. now f_equal.
  Qed.
  Lemma picked (l : list R) ix s : mapM (fun i => opt_res IndexError (nth_error l i)) ix = Ok s -> s = map (fun j => nth j l 0%R) ix.
  Proof.
    revert s. induction ix as [|i ix IH]; intros s H; cbn [mapM] in H; [now injection H as <-|].
    destruct (nth_error l i) as [x|] eqn:E; [|discriminate]. cbn [opt_res bind] in H. inv_bind H t Et. injection H as <-.
    cbn [map]. rewrite (nth_error_nth _ _ _ E). f_equal. now apply IH.
  Qed.
  Lemma bootstrap_drawn (l : list R) ns m : py_int ns = Ok (Z.of_nat m) -> forall r g v g', bootstrap_n X g l ns r = Ok (v, g') ->
    v = map (pick l) (fst (drawn X g (repeat (length l, m) r))) /\ g' = snd (drawn X g (repeat (length l, m) r)).
  Proof.
    intros Hm. induction r as [|r IH]; intros g v g' H; cbn [bootstrap_n repeat drawn] in *; [injection H as <- <-; now split|].
    rewrite Hm in H. cbn [bind] in H. inv_bind H a Ea. destruct a as [s g1]. inv_bind H c Ec. destruct c as [rest g2]. injection H as <- <-.
    unfold resample in Ea. destruct (Z.of_nat m <? 1)%Z; [discriminate|]. rewrite Nat2Z.id in Ea. destruct (x_randints X g (length l) m) as [ix g3].
    inv_bind Ea s' Es. injection Ea as <- <-. destruct (IH _ _ _ Ec) as [-> ->].
    destruct (drawn X g3 (repeat (length l, m) r)) as [ixs g4]. cbn [fst snd map]. split; [|reflexivity]. f_equal. unfold pick. rewrite <- (picked _ _ _ Es). apply nmean_average.
  Qed.
  Lemma normal_drawn (l : list R) ns m nre mr alpha g v w g' : py_int ns = Ok (Z.of_nat m) -> (mr <= nre)%Z -> (0 <= nre)%Z ->
    sample_until_normal X g l ns nre mr alpha = Some (Ok (v, w, g')) ->
    v = map (pick l) (fst (drawn X g (repeat (length l, m) (Z.to_nat nre)))) /\ g' = snd (drawn X g (repeat (length l, m) (Z.to_nat nre))).
  Proof.
    intros Hm Hr Hn H. unfold sample_until_normal in H. destruct (bootstrap_n X g l ns (Z.to_nat nre)) as [[vals g1]|] eqn:E; [|discriminate].
    pose proof (bootstrap_n_length X l ns _ _ _ _ E) as L.
    assert (B : (Z.of_nat (length vals) <? mr)%Z = false) by (apply Z.ltb_ge; rewrite L, Z2Nat.id; lia).
    destruct (Z.to_nat mr); cbn [resample_loop] in H; rewrite B, andb_false_r in H; injection H as <- <- <-; now apply (bootstrap_drawn l ns m Hm).
  Qed.
End Draws.

(** ** Averages over the draws *)
Section Average.
  Context {G Seed RS : Type} (X : Ext R G Seed RS) (gs : list G) (wt : G -> R) (reqs : list (nat * nat)).
  Hypothesis W : rsum (map wt gs) = 1%R.
  Hypothesis F : fair_draws gs wt X reqs.
  Context (l : list R) (p0 r m : nat).
  Hypothesis Hreq : forall a, a < r -> nth_error reqs (p0 + a) = Some (length l, m).
  Hypothesis Hl : 1 < length l.
  Hypothesis Hm : 0 < m.
  Notation K := (length l).
  Let mu := average l.
  Let s2 := (rsum (map (fun x => (x - mu) * (x - mu)) l) / INR K)%R.
  Lemma population : s2 = ((INR K - 1) / INR K * sample_variance l)%R.
  Proof.
    unfold s2, sample_variance. fold mu. assert (1 < INR K)%R by (change 1%R with (INR 1); now apply lt_INR). field. lra.
  Qed.
  Notation value a i g := (nth (slot X reqs (p0 + a) i g) l 0%R).
  Lemma tab_list (f : R -> R) : average (tab K (fun j => f (nth j l 0%R))) = average (map f l).
  Proof.
    f_equal. unfold tab. rewrite <- (map_nth_seq 0%R l) at 2. rewrite map_map. reflexivity.
  Qed.
  Lemma one_alike a : a < r -> alike gs wt m (fun g i => value a i g) mu s2.
  Proof.
    intros Ha i Hi. destruct F as (_ & F1 & _). split.
    - rewrite (F1 (p0 + a) i K m (fun j => nth j l 0%R) (Hreq a Ha) Hi). rewrite (tab_list (fun x => x)), map_id. reflexivity.
    - rewrite (F1 (p0 + a) i K m (fun j => (nth j l 0 - mu) * (nth j l 0 - mu))%R (Hreq a Ha) Hi). rewrite (tab_list (fun x => (x - mu) * (x - mu))%R).
      unfold s2, average. now rewrite map_length.
  Qed.
  Lemma centred_zero : average (map (fun x => x - mu)%R l) = 0%R.
  Proof.
    unfold mu, average. rewrite map_length. assert (N : (INR K <> 0)%R) by (apply not_0_INR; lia).
    assert (E : forall c (l0 : list R), rsum (map (fun x => x - c)%R l0) = (rsum l0 - INR (length l0) * c)%R).
    { intros c. induction l0 as [|x l0 IH]; [unfold rsum; cbn; ring|]. cbn [map length]. rewrite !rsum_cons, IH, S_INR. ring. }
    rewrite E. field. exact N.
  Qed.
  Lemma two_apart a b i j : a < r -> b < r -> i < m -> j < m -> a <> b \/ i <> j ->
    mean_over gs wt (fun g => (value a i g - mu) * (value b j g - mu))%R = 0%R.
  Proof.
    intros Ha Hb Hi Hj D. destruct F as (_ & _ & F2).
    rewrite (F2 (p0 + a) i K m (p0 + b) j K m (fun j => nth j l 0 - mu)%R (fun j => nth j l 0 - mu)%R (Hreq a Ha) Hi (Hreq b Hb) Hj ltac:(lia)).
    rewrite (tab_list (fun x => x - mu)%R), centred_zero. ring.
  Qed.
  Definition resampled a g := average (tab m (fun i => value a i g)).
  Lemma m_real : (INR m <> 0)%R. Proof. apply not_0_INR. lia. Qed.
  Lemma off a g : (resampled a g - mu = / INR m * sumto m (fun i => value a i g - mu))%R.
  Proof. unfold resampled. rewrite average_tab_sumto, sumto_minus, sumto_const. field. apply m_real. Qed.
  Lemma resampled_mean a : a < r -> mean_over gs wt (resampled a) = mu.
  Proof.
    intros Ha. unfold resampled. rewrite (mean_ext gs wt _ (fun g => / INR m * sumto m (fun i => value a i g))%R) by (intros; rewrite average_tab_sumto; apply Rmult_comm).
    rewrite mean_scale, (mean_sumto gs wt m (fun i g => value a i g)). rewrite (sumto_ext m _ (fun _ => mu)) by (intros i Hi; now apply (one_alike a Ha)).
    rewrite sumto_const. field. apply m_real.
  Qed.
  Lemma resampled_products a b : a < r -> b < r -> mean_over gs wt (fun g => (resampled a g - mu) * (resampled b g - mu))%R = (if Nat.eqb a b then s2 / INR m else 0)%R.
  Proof.
    intros Ha Hb. rewrite (mean_ext gs wt _ (fun g => / (INR m * INR m) * sumto m (fun i => sumto m (fun j => (value a i g - mu) * (value b j g - mu))))%R).
    2:{ intros g _. rewrite !off. rewrite <- (sumto_mult m m (fun i => value a i g - mu)%R (fun j => value b j g - mu)%R). field. apply m_real. }
    rewrite mean_scale, (mean_sumto gs wt m (fun i g => sumto m (fun j => (value a i g - mu) * (value b j g - mu))%R)).
    destruct (Nat.eqb_spec a b) as [<-|D].
    - rewrite (sumto_ext m _ (fun _ => s2)).
      2:{ intros i Hi. rewrite (mean_sumto gs wt m (fun j g => (value a i g - mu) * (value a j g - mu))%R). rewrite (sumto_one m i).
          - now apply (one_alike a Ha). - exact Hi. - intros j Hj Dj. apply two_apart; auto. }
      rewrite sumto_const. field. apply m_real.
    - rewrite (sumto_ext m _ (fun _ => 0%R)).
      2:{ intros i Hi. rewrite (mean_sumto gs wt m (fun j g => (value a i g - mu) * (value b j g - mu))%R). rewrite (sumto_ext m _ (fun _ => 0%R)).
          - rewrite sumto_const. ring. - intros j Hj. apply two_apart; auto. }
      rewrite sumto_const. ring.
  Qed.
  Lemma resampled_alike : alike gs wt r (fun g a => resampled a g) mu (s2 / INR m).
  Proof. intros a Ha. split; [exact (resampled_mean a Ha)|]. rewrite (resampled_products a a Ha Ha), Nat.eqb_refl. reflexivity. Qed.
  Lemma resampled_unrelated : unrelated gs wt r (fun g a => resampled a g) mu.
  Proof. intros a b Ha Hb D. rewrite (resampled_products a b Ha Hb). apply Nat.eqb_neq in D. now rewrite D. Qed.
  Lemma reported_mean : 0 < r -> mean_over gs wt (fun g => average (tab r (fun a => resampled a g))) = mu.
  Proof.
    intros Hr. assert (N : (INR r <> 0)%R) by (apply not_0_INR; lia).
    rewrite (mean_ext gs wt _ (fun g => / INR r * sumto r (fun a => resampled a g))%R) by (intros; rewrite average_tab_sumto; apply Rmult_comm).
    rewrite mean_scale, (mean_sumto gs wt r resampled). rewrite (sumto_ext r _ (fun _ => mu)) by (intros a Ha; now apply resampled_mean).
    rewrite sumto_const. field. exact N.
  Qed.
  Lemma reported_variance : 1 < r -> mean_over gs wt (fun g => sample_variance (tab r (fun a => resampled a g))) = (s2 / INR m)%R.
  Proof.
    intros Hr. destruct (scaled_law gs wt r (fun g a => resampled a g) mu (s2 / INR m) (fun g => average (tab r (fun a => resampled a g)))
      (fun g => sample_variance (tab r (fun a => resampled a g)))%R 1 W Hr resampled_alike) as (_ & _ & H).
    { intros g _. split; [reflexivity|]. field. }
    destruct (H resampled_unrelated) as [_ E]. rewrite E. field. apply m_real.
  Qed.
  (** The values are those the program computes. *)
  Lemma values_form g vals : In g gs -> length vals = r -> (forall a, a < r -> nth_error vals a = option_map (pick l) (nth_error (fst (drawn X g reqs)) (p0 + a))) ->
    vals = tab r (fun a => resampled a g).
  Proof.
    intros Hg L H. rewrite <- (map_nth_seq 0%R vals), L. unfold tab. apply map_ext_in. intros a Ha. apply in_seq in Ha.
    apply nth_error_nth. rewrite H by lia. destruct F as (F0 & _). destruct (F0 g (p0 + a) K m Hg (Hreq a ltac:(lia))) as (ix & E & Li). rewrite E. cbn [option_map]. f_equal.
    unfold pick, resampled. f_equal. unfold tab. rewrite <- (map_nth_seq 0 ix) at 1. rewrite map_map, Li. apply map_ext_in. intros i _. unfold slot.
    now rewrite (nth_error_nth _ _ _ E).
  Qed.
End Average.

(** ** The loop over the intervals *)
Section Loop.
  Context {G Seed RS : Type} (X : Ext R G Seed RS).
  Fixpoint chunks (r : nat) (qs : list (list R)) (ixs : list (list nat)) : list (list R) :=
    match qs with
    | [] => []
    | q :: rest => map (pick q) (firstn r ixs) :: chunks r rest (skipn r ixs)
    end.
  Lemma skip_skip {T} (a c : nat) : forall l : list T, skipn a (skipn c l) = skipn (c + a) l.
  Proof. induction c as [|c IH]; intros l; [reflexivity|]. destruct l; [now rewrite !skipn_nil|]. cbn. apply IH. Qed.
  Lemma chunks_nth r qs : forall ixs k, nth_error (chunks r qs ixs) k = option_map (fun q => map (pick q) (firstn r (skipn (k * r) ixs))) (nth_error qs k).
  Proof.
    induction qs as [|q qs IH]; intros ixs [|k]; cbn [chunks nth_error]; try reflexivity.
    rewrite IH. destruct (nth_error qs k); [|reflexivity]. cbn [option_map]. do 3 f_equal. rewrite skip_skip. f_equal.
  Qed.
  Lemma requests_nth r sizes : forall k a km, nth_error sizes k = Some km -> a < r -> nth_error (run_requests r sizes) (k * r + a) = Some km.
  Proof.
    induction sizes as [|x sizes IH]; intros [|k] a km H Ha; try discriminate; cbn [run_requests].
    - injection H as ->. cbn [Nat.mul Nat.add]. rewrite nth_error_app1 by (rewrite repeat_length; exact Ha). now apply nth_error_repeat.
    - rewrite nth_error_app2 by (rewrite repeat_length; cbn; lia). rewrite repeat_length. replace (S k * r + a - r) with (k * r + a) by (cbn; lia). now apply IH.
  Qed.
  Lemma loop_drawn u quantity ns n_o axes sl Qf : slice_axes sl axes -> u_bootstrap u = true -> (u_max_resamples u <= u_n_resamples u)%Z -> (0 <= u_n_resamples u)%Z ->
    forall ds sizes i b g b' g',
    (forall d, In d ds -> quantity d (map (map (fun v => map (coord v) axes)) (a_rows d)) = Ok (Qf d) /\ 1 < length (Qf d)) ->
    length sizes = length ds ->
    (forall k d km, nth_error ds k = Some d -> nth_error sizes k = Some km -> length (Qf d) = fst km
       /\ forall no, nth_error n_o (i + k) = Some no -> py_int (ns no (length (a_rows d))) = Ok (Z.of_nat (snd km))) ->
    b_slice b = sl -> boot_loop X u quantity ns n_o i ds b g = Ok (b', g') ->
    let vals := chunks (Z.to_nat (u_n_resamples u)) (map Qf ds) (fst (drawn X g (run_requests (Z.to_nat (u_n_resamples u)) sizes))) in
    b_n_bootstrap b' = (b_n_bootstrap b ++ map average vals)%list /\ b_v_bootstrap b' = (b_v_bootstrap b ++ map sample_variance vals)%list
    /\ b_distributions b' = (b_distributions b ++ vals)%list
    /\ g' = snd (drawn X g (run_requests (Z.to_nat (u_n_resamples u)) sizes)).
  Proof.
    intros Hsl Hb Hr Hn. set (r := Z.to_nat (u_n_resamples u)). induction ds as [|d ds IH]; intros sizes i b g b' g' HQ HL HS Hs H; cbv zeta.
    - destruct sizes; [|discriminate]. cbn in *. injection H as <- <-. now rewrite !app_nil_r.
    - destruct sizes as [|[K m] sizes]; [discriminate|]. cbn [boot_loop] in H. inv_bind H bg E. destruct bg as [b1 g1].
      destruct (HQ d (or_introl eq_refl)) as [Q1 Q2]. destruct (HS 0 d (K, m) eq_refl eq_refl) as [S1 S2]. cbn [fst snd] in S1, S2. rewrite Nat.add_0_r in S2.
      unfold boot_step in E. rewrite Hs, (disp_slice_axes _ _ _ Hsl) in E. cbn beta iota delta [bind] in E. rewrite Q1 in E. cbn beta iota delta [bind] in E.
      rewrite (proj2 (Nat.leb_gt _ _) Q2), Hb in E. inv_bind E bt E4. destruct bt as [boot g2]. inv_bind E nv E5. destruct nv as [n v]. inv_bind E vi E6. inv_bind E dt E7.
      injection E as <- <-. inv_bind E4 no F1. rewrite py_index_nat in F1. destruct (nth_error n_o i) as [no'|] eqn:F2; [|discriminate]. injection F1 as ->.
      destruct (sample_until_normal _ _ _ _ _ _ _) as [[[[distro w] g3]|e]|] eqn:F3; try discriminate. injection E4 as <- <-.
      destruct (normal_drawn X _ _ m _ _ _ _ _ _ _ (S2 no eq_refl) Hr Hn F3) as [-> ->]. fold r in H |- *. rewrite S1 in *.
      apply (IH sizes (S i)) in H.
      2:{ intros d' Hd. apply HQ. now right. }
      2:{ cbn in HL. lia. }
      2:{ intros k d' km Hd Hk. destruct (HS (S k) d' km Hd Hk) as [T1 T2]. split; [exact T1|]. intros no' Hno. apply T2. replace (i + S k) with (S i + k) by lia. exact Hno. }
      2:{ exact Hs. }
      cbv zeta in H. fold r in H. cbn [run_requests map]. rewrite drawn_app. cbn [fst snd].
      set (A := fst (drawn X g (repeat (K, m) r))) in *. set (gA := snd (drawn X g (repeat (K, m) r))) in *.
      assert (LA : length A = r) by (unfold A; rewrite drawn_length; apply repeat_length).
      cbn [chunks map]. rewrite (firstn_app r), LA, Nat.sub_diag, <- LA, firstn_all, LA. cbn [firstn]. rewrite app_nil_r.
      rewrite (skipn_app r), LA, Nat.sub_diag, <- LA, skipn_all, LA. cbn [skipn app].
      cbn [push_results b_n_bootstrap b_v_bootstrap b_distributions] in H. destruct H as (H1 & H2 & H3 & H4).
      rewrite H1, H2, H3, <- !app_assoc. cbn [app]. split; [do 2 f_equal; exact (nmean_average _)|]. split; [do 2 f_equal; exact (nvar_sample _)|]. split; [reflexivity|exact H4].
  Qed.
End Loop.

(** ** A family of runs, one for each initial state of the generator *)
Section Family.
  Context {G Seed RS : Type} (X : Ext R G Seed RS) (gs : list G) (wt : G -> R).
  Hypothesis W : rsum (map wt gs) = 1%R.
  Lemma chunk_means r qs sizes (vals : G -> list (list R)) i q K m : fair_draws gs wt X (run_requests r sizes) ->
    (forall g, In g gs -> vals g = chunks r qs (fst (drawn X g (run_requests r sizes)))) ->
    nth_error qs i = Some q -> nth_error sizes i = Some (K, m) -> length q = K -> 1 < K -> 0 < m -> 0 < r ->
    mean_over gs wt (fun g => nth i (map average (vals g)) 0%R) = average q
    /\ (1 < r -> mean_over gs wt (fun g => nth i (map sample_variance (vals g)) 0%R) = ((INR K - 1) / INR K * sample_variance q / INR m)%R).
  Proof.
    intros F HV Hq Hs HK K1 Hm Hr.
    assert (HR : forall a, a < r -> nth_error (run_requests r sizes) (i * r + a) = Some (length q, m)) by (intros a Ha; rewrite HK; now apply requests_nth).
    assert (V : forall g, In g gs -> nth_error (vals g) i = Some (tab r (fun a => resampled X (run_requests r sizes) q (i * r) m a g))).
    { intros g Hg. rewrite (HV g Hg), chunks_nth, Hq. cbn [option_map]. f_equal.
      set (ixs := fst (drawn X g (run_requests r sizes))).
      assert (L : i * r + r <= length ixs).
      { destruct r as [|r']; [lia|]. unfold ixs. rewrite drawn_length. assert (T := HR r' ltac:(lia)). assert (T' : nth_error (run_requests (S r') sizes) (i * S r' + r') <> None) by congruence. apply nth_error_Some in T'. lia. }
      apply (values_form X gs wt (run_requests r sizes) F q (i * r) r m HR ltac:(lia) Hm g); [exact Hg| |].
      - rewrite map_length, firstn_length, skipn_length. lia.
      - intros a Ha. rewrite nth_error_map, (firstn_nth _ r a Ha), nth_error_skipn. reflexivity. }
    split.
    - rewrite (mean_ext gs wt _ (fun g => average (tab r (fun a => resampled X (run_requests r sizes) q (i * r) m a g)))).
      + apply (reported_mean X gs wt (run_requests r sizes) F q (i * r) r m HR); lia.
      + intros g Hg. apply nth_error_nth. rewrite nth_error_map, (V g Hg). reflexivity.
    - intros Hr1. rewrite (mean_ext gs wt _ (fun g => sample_variance (tab r (fun a => resampled X (run_requests r sizes) q (i * r) m a g)))).
      + rewrite (reported_variance X gs wt (run_requests r sizes) W F q (i * r) r m HR); try lia. rewrite population by lia. now rewrite HK.
      + intros g Hg. apply nth_error_nth. rewrite nth_error_map, (V g Hg). reflexivity.
  Qed.
End Family.

Lemma whole_int (x : R) m : whole_part x m -> py_int x = Ok (Z.of_nat m).
Proof.
  intros [H1 H2]. unfold py_int. numR. assert (0 <= INR m)%R by apply pos_INR. rewrite Rtrunc_pos by lra.
  destruct (Rfloor_bounds x) as [F1 F2]. rewrite INR_IZR_INZ in H1, H2.
  assert (IZR (Rfloor x) < IZR (Z.of_nat m + 1))%R by (rewrite plus_IZR; lra). assert (IZR (Z.of_nat m) < IZR (Rfloor x + 1))%R by (rewrite plus_IZR; lra).
  apply lt_IZR in H0, H3. cbn [opt_res]. f_equal. lia.
Qed.
Section Runs.
  Context {G Seed RS : Type} (X : Ext R G Seed RS) (gs : list G) (wt : G -> R).
  Lemma agreement u ns n_o axes Qf used sizes (B : G -> Boot R) i K m no d :
    rsum (map wt gs) = 1%R -> fixed_resamples u -> length sizes = length used ->
    (forall k d km, nth_error used k = Some d -> nth_error sizes k = Some km -> length (Qf d) = fst km /\ 1 < fst km) ->
    (forall g, In g gs -> (exists dts shown, boot_report X u ns n_o dts axes Qf used shown (B g))
        /\ let vals := chunks (Z.to_nat (u_n_resamples u)) (map Qf used) (fst (drawn X g (run_requests (Z.to_nat (u_n_resamples u)) sizes))) in
           b_n_bootstrap (B g) = map average vals /\ b_v_bootstrap (B g) = map sample_variance vals) ->
    fair_draws gs wt X (run_requests (Z.to_nat (u_n_resamples u)) sizes) ->
    nth_error used i = Some d -> nth_error sizes i = Some (K, m) -> nth_error n_o i = Some no -> whole_part (ns no (length (a_rows d))) m -> 0 < m ->
    agrees_on_average gs wt B (Z.to_nat (u_n_resamples u)) i K m (ns no (length (a_rows d))).
  Proof.
    intros W (U1 & U2 & U3 & U4 & U5) HL HS HB F Hd Hi Hno [P1 P2] Hm. destruct (HS i d (K, m) Hd Hi) as [S1 S2]. cbn [fst] in S1, S2.
    assert (I : (1 <= INR m)%R) by (change 1%R with (INR 1); apply le_INR; lia).
    exists (average (Qf d)), (sample_variance (Qf d) / ns no (length (a_rows d)))%R.
    destruct (chunk_means X gs wt W (Z.to_nat (u_n_resamples u)) (map Qf used) sizes
      (fun g => chunks (Z.to_nat (u_n_resamples u)) (map Qf used) (fst (drawn X g (run_requests (Z.to_nat (u_n_resamples u)) sizes)))) i (Qf d) K m F (fun g _ => eq_refl)) as [M1 M2];
      [now rewrite nth_error_map, Hd|exact Hi|exact S1|exact S2|exact Hm|lia|].
    split; [|split].
    - intros g Hg. destruct (HB g Hg) as [(dts & shown & HR) _].
      assert (ES : shown = used).
      { eapply leading_all; [|exact (br_shown _ _ _ _ _ _ _ _ _ _ HR)]. apply Forall_forall. intros d' Hd'. apply In_nth_error in Hd' as (k & Hk).
        destruct (nth_error sizes k) as [km|] eqn:Ek; [destruct (HS k d' km Hk Ek); lia|]. apply nth_error_None in Ek.
        assert (nth_error used k <> None) by congruence. apply nth_error_Some in H. lia. }
      subst shown. split.
      + rewrite (br_n _ _ _ _ _ _ _ _ _ _ HR U2), nth_error_map, Hd. reflexivity.
      + destruct (br_v _ _ _ _ _ _ _ _ _ _ HR U2 i d Hd) as (no' & O & E). assert (no' = no) by congruence. now subst no'.
    - rewrite <- M1. apply mean_ext. intros g Hg. destruct (HB g Hg) as [_ [E _]]. now rewrite E.
    - intros H1. rewrite (mean_ext gs wt _ (fun g => nth i (map sample_variance (chunks (Z.to_nat (u_n_resamples u)) (map Qf used) (fst (drawn X g (run_requests (Z.to_nat (u_n_resamples u)) sizes))))) 0%R)).
      + rewrite (M2 H1). assert (1 < INR K)%R by (change 1%R with (INR 1); now apply lt_INR). field. lra.
      + intros g Hg. destruct (HB g Hg) as [_ [_ E]]. now rewrite E.
  Qed.
  Lemma chunks_of_run u quantity ns n_o dts disps no' axes Qf ds sizes b0 g b1 g1 :
    bootstrap_init dts disps no' (u_sub_sample_dt u) (u_dimension u) = Ok b0 -> slice_axes (b_slice b0) axes -> fixed_resamples u ->
    (forall d, In d ds -> quantity d (map (map (fun v => map (coord v) axes)) (a_rows d)) = Ok (Qf d)) -> length sizes = length ds ->
    (forall k d km, nth_error ds k = Some d -> nth_error sizes k = Some km -> length (Qf d) = fst km /\ 1 < fst km) ->
    (forall k d no km, nth_error ds k = Some d -> nth_error n_o k = Some no -> nth_error sizes k = Some km -> whole_part (ns no (length (a_rows d))) (snd km)) ->
    boot_loop X u quantity ns n_o 0 ds b0 g = Ok (b1, g1) ->
    let vals := chunks (Z.to_nat (u_n_resamples u)) (map Qf ds) (fst (drawn X g (run_requests (Z.to_nat (u_n_resamples u)) sizes))) in
    b_n_bootstrap (trim_n_o b1) = map average vals /\ b_v_bootstrap (trim_n_o b1) = map sample_variance vals.
  Proof.
    intros E1 Hsl (U1 & U2 & U3 & U4 & U5) HQ HL HS HW H. destruct (bootstrap_init_ok _ _ _ _ _ _ E1) as (_ & _ & _ & _ & _ & _ & E & _).
    destruct (loop_drawn X u quantity ns n_o axes (b_slice b0) Qf Hsl U3 U4 ltac:(lia) ds sizes 0 b0 g b1 g1) as (C1 & C2 & _); try assumption; try reflexivity.
    - intros d Hd. split; [now apply HQ|]. apply In_nth_error in Hd as (k & Hk).
      destruct (nth_error sizes k) as [km|] eqn:Ek; [destruct (HS k d km Hk Ek); lia|]. apply nth_error_None in Ek.
      assert (nth_error ds k <> None) by congruence. apply nth_error_Some in H0. lia.
    - intros k d km Hk Ek. split; [now destruct (HS k d km Hk Ek)|]. intros no Hno. apply whole_int. now apply (HW k d no km).
    - cbn [trim_n_o b_n_bootstrap b_v_bootstrap]. rewrite C1, C2, E. cbn [b_n_bootstrap b_v_bootstrap app]. now split.
  Qed.
  Lemma somewhere : rsum (map wt gs) = 1%R -> exists g, In g gs.
  Proof. destruct gs as [|g l]; intros H; [unfold rsum in H; cbn in H; lra|]. exists g. now left. Qed.
  Lemma sub_sample_same {T} k (l a c : list T) : sub_sample k l a -> sub_sample k l c -> a = c.
  Proof. intros H1 H2. apply list_ext. intros i. now rewrite H1, H2. Qed.
  Lemma sizes_at {T} (f : T -> nat) used (sizes : list (nat * nat)) : Forall2 (fun d km => f d = fst km /\ 1 < fst km) used sizes ->
    length sizes = length used /\ forall k d km, nth_error used k = Some d -> nth_error sizes k = Some km -> f d = fst km /\ 1 < fst km.
  Proof.
    intros H. split; [symmetry; eapply Forall2_length; eauto|]. intros k d km Hd Hk. destruct (Forall2_nth_error _ _ _ _ _ H Hd) as (km' & Hk' & P).
    assert (km' = km) by congruence. now subst.
  Qed.
  Lemma C91_msd_proof u dts disps n_o (B : G -> Boot R) used sizes i K m no :
    rsum (map wt gs) = 1%R -> fixed_resamples u ->
    (forall g, In g gs -> exists g', msd_bootstrap X u dts disps n_o g = Ok (B g, g')) ->
    sub_sample (Z.to_nat (u_sub_sample_dt u)) disps used ->
    Forall2 (fun d km => length (entries d) = fst km /\ 1 < fst km) used sizes ->
    (forall k no km, nth_error n_o k = Some no -> nth_error sizes k = Some km -> whole_part no (snd km)) ->
    fair_draws gs wt X (run_requests (Z.to_nat (u_n_resamples u)) sizes) ->
    nth_error sizes i = Some (K, m) -> nth_error n_o i = Some no -> 0 < m ->
    agrees_on_average gs wt B (Z.to_nat (u_n_resamples u)) i K m no.
  Proof.
    intros W U HB SU S2 HW F Hi Hno Hm. destruct (sizes_at _ _ _ S2) as [HL HS0].
    assert (HS : forall (axes : list axis) k d km, nth_error used k = Some d -> nth_error sizes k = Some km -> length (msd_values axes d) = fst km /\ 1 < fst km).
    { intros axes k d km Hd Hk. unfold msd_values. rewrite map_length. exact (HS0 k d km Hd Hk). }
    destruct (Forall2_nth_error_r _ _ _ _ _ S2 Hi) as (d & Hd & _).
    assert (U' := U). destruct U' as (U1 & U2 & U3 & U4 & U5).
    destruct (somewhere W) as (g0 & Hg0). destruct (HB g0 Hg0) as (g0' & H0).
    destruct (msd_run X u dts disps n_o g0 (B g0) g0' U1 H0) as (axes & _ & N & _).
    apply (agreement u (fun no _ => no) n_o axes (msd_values axes) used sizes B i K m no d W U HL (HS axes)); try assumption.
    2:{ now apply (HW i no (K, m)). }
    intros g Hg. destruct (HB g Hg) as (g' & H). split.
    - destruct (msd_run X u dts disps n_o g (B g) g' U1 H) as (axes' & shown & N' & _ & S1 & _ & _ & HR).
      assert (axes' = axes) by (eapply names_unique; eauto). subst axes'. rewrite (sub_sample_same _ _ _ _ SU S1). eauto.
    - unfold msd_bootstrap in H. inv_bind H b0 E1. inv_bind H bg E2. destruct bg as [b1 g1]. injection H as EB _. rewrite <- EB.
      destruct (bootstrap_init_ok _ _ _ _ _ _ E1) as (axes' & N1 & N2 & N3 & N4 & _). assert (axes' = axes) by (eapply names_unique; eauto). subst axes'.
      rewrite (sub_sample_same _ _ _ _ (stride_sub _ _ _ U1 N4) SU) in E2.
      refine (chunks_of_run u _ _ n_o _ _ _ axes (msd_values axes) used sizes b0 g b1 g1 E1 N2 U (fun d _ => f_equal Ok (d_squared_axes axes (a_rows d))) HL (HS axes) _ E2).
      intros k d' no' km _ K1 K2. now apply (HW k).
  Qed.
  Lemma C91_mstd_proof u dts disps n_o (B : G -> Boot R) used sizes natoms i K m no :
    rsum (map wt gs) = 1%R -> fixed_resamples u -> Forall arr_wf disps -> Forall (fun d => length (a_rows d) = natoms) disps ->
    (forall g, In g gs -> exists g', mstd_bootstrap X u dts disps n_o g = Ok (B g, g')) ->
    sub_sample (Z.to_nat (u_sub_sample_dt u)) disps used ->
    Forall2 (fun d km => a_obs d = fst km /\ 1 < fst km) (firstn (Nat.div (length used) 2) used) sizes ->
    (forall k no km, nth_error n_o k = Some no -> nth_error sizes k = Some km -> whole_part (no / INR natoms) (snd km)) ->
    fair_draws gs wt X (run_requests (Z.to_nat (u_n_resamples u)) sizes) ->
    nth_error sizes i = Some (K, m) -> nth_error n_o i = Some no -> 0 < m ->
    agrees_on_average gs wt B (Z.to_nat (u_n_resamples u)) i K m (no / INR natoms).
  Proof.
    intros W U HWF HN HB SU S2 HW F Hi Hno Hm. destruct (sizes_at _ _ _ S2) as [HL HS0]. fold (first_half used) in *.
    assert (HS : forall (axes : list axis) k d km, nth_error (first_half used) k = Some d -> nth_error sizes k = Some km -> length (mstd_values axes d) = fst km /\ 1 < fst km).
    { intros axes k d km Hd Hk. unfold mstd_values. rewrite tab_length. exact (HS0 k d km Hd Hk). }
    assert (IN : forall d, In d (first_half used) -> arr_wf d /\ length (a_rows d) = natoms).
    { intros d Hd. rewrite Forall_forall in HWF, HN. assert (In d disps) by (eapply sub_sample_In; eauto using first_half_In). auto. }
    destruct (Forall2_nth_error_r _ _ _ _ _ S2 Hi) as (d & Hd & _). fold (first_half used) in Hd.
    assert (U' := U). destruct U' as (U1 & U2 & U3 & U4 & U5).
    destruct (somewhere W) as (g0 & Hg0). destruct (HB g0 Hg0) as (g0' & H0).
    destruct (mstd_run X u dts disps n_o g0 (B g0) g0' U1 HWF H0) as (axes & _ & N & _).
    destruct (IN d (nth_error_In _ _ Hd)) as [_ Rd]. rewrite <- Rd.
    apply (agreement u (fun no n => no / INR n)%R n_o axes (mstd_values axes) (first_half used) sizes B i K m no d W U HL (HS axes)); try assumption.
    2:{ rewrite Rd. now apply (HW i no (K, m)). }
    intros g Hg. destruct (HB g Hg) as (g' & H). split.
    - destruct (mstd_run X u dts disps n_o g (B g) g' U1 HWF H) as (axes' & shown & N' & _ & S1 & _ & _ & HR).
      assert (axes' = axes) by (eapply names_unique; eauto). subst axes'. unfold first_half. rewrite (sub_sample_same _ _ _ _ SU S1). eauto.
    - unfold mstd_bootstrap in H. inv_bind H b0 E1. inv_bind H bg E2. destruct bg as [b1 g1]. injection H as EB _. rewrite <- EB.
      destruct (bootstrap_init_ok _ _ _ _ _ _ E1) as (axes' & N1 & N2 & N3 & N4 & _). assert (axes' = axes) by (eapply names_unique; eauto). subst axes'.
      rewrite (sub_sample_same _ _ _ _ (stride_sub _ _ _ U1 N4) SU) in E2.
      refine (chunks_of_run u _ _ n_o _ _ _ axes (mstd_values axes) (first_half used) sizes b0 g b1 g1 E1 N2 U _ HL (HS axes) _ E2).
      + intros d' Hd'. cbv beta. rewrite N3, coll_motion_axes; [reflexivity|]. now apply IN.
      + intros k d' no' km K0 K1 K2. cbv beta. rewrite nofnat_R. destruct (IN d' (nth_error_In _ _ K0)) as [_ ->]. now apply (HW k).
  Qed.
  Lemma C91_mscd_proof u dts disps q n_o (B : G -> Boot R) used sizes natoms i K m no :
    rsum (map wt gs) = 1%R -> fixed_resamples u -> Forall arr_wf disps -> Forall (fun d => length (a_rows d) = natoms) disps ->
    (forall l, q = QArray l -> length l = natoms) ->
    (forall g, In g gs -> exists g', mscd_bootstrap X u dts disps q n_o g = Ok (B g, g')) ->
    sub_sample (Z.to_nat (u_sub_sample_dt u)) disps used ->
    Forall2 (fun d km => a_obs d = fst km /\ 1 < fst km) (firstn (Nat.div (length used) 2) used) sizes ->
    (forall k no km, nth_error n_o k = Some no -> nth_error sizes k = Some km -> whole_part (no / INR natoms) (snd km)) ->
    fair_draws gs wt X (run_requests (Z.to_nat (u_n_resamples u)) sizes) ->
    nth_error sizes i = Some (K, m) -> nth_error n_o i = Some no -> 0 < m ->
    agrees_on_average gs wt B (Z.to_nat (u_n_resamples u)) i K m (no / INR natoms).
  Proof.
    intros W U HWF HN HQ HB SU S2 HW F Hi Hno Hm. destruct (sizes_at _ _ _ S2) as [HL HS0]. fold (first_half used) in *.
    set (qs := charges q natoms).
    assert (HS : forall k d km, nth_error (first_half used) k = Some d -> nth_error sizes k = Some km -> length (mscd_values qs d) = fst km /\ 1 < fst km).
    { intros k d km Hd Hk. unfold mscd_values. rewrite tab_length. exact (HS0 k d km Hd Hk). }
    assert (IN : forall d, In d (first_half used) -> arr_wf d /\ length (a_rows d) = natoms).
    { intros d Hd. rewrite Forall_forall in HWF, HN. assert (In d disps) by (eapply sub_sample_In; eauto using first_half_In). auto. }
    destruct (Forall2_nth_error_r _ _ _ _ _ S2 Hi) as (d & Hd & _). fold (first_half used) in Hd.
    assert (U' := U). destruct U' as (U1 & U2 & U3 & U4 & U5).
    destruct (somewhere W) as (g0 & Hg0). destruct (HB g0 Hg0) as (g0' & H0).
    destruct (mscd_run X u dts disps q n_o g0 (B g0) g0' natoms U1 HWF HN HQ H0) as (axes & _ & N & _).
    destruct (IN d (nth_error_In _ _ Hd)) as [_ Rd]. rewrite <- Rd.
    apply (agreement u (fun no n => no / INR n)%R n_o axes (mscd_values qs) (first_half used) sizes B i K m no d W U HL HS); try assumption.
    2:{ rewrite Rd. now apply (HW i no (K, m)). }
    intros g Hg. destruct (HB g Hg) as (g' & H). split.
    - destruct (mscd_run X u dts disps q n_o g (B g) g' natoms U1 HWF HN HQ H) as (axes' & shown & N' & _ & S1 & _ & _ & HR).
      assert (axes' = axes) by (eapply names_unique; eauto). subst axes'. unfold first_half. rewrite (sub_sample_same _ _ _ _ SU S1). eauto.
    - unfold mscd_bootstrap in H. inv_bind H b0 E1. inv_bind H d0 E0. inv_bind H bg E2. destruct bg as [b1 g1]. injection H as EB _. rewrite <- EB.
      destruct (bootstrap_init_ok _ _ _ _ _ _ E1) as (axes' & N1 & N2 & N3 & N4 & _). assert (axes' = axes) by (eapply names_unique; eauto). subst axes'.
      assert (S1 := stride_sub _ _ _ U1 N4).
      assert (Hd0 : length (a_rows d0) = natoms).
      { rewrite Forall_forall in HN. apply HN. apply py_index_ok_inv in E0. eapply sub_sample_In; eauto. }
      rewrite Hd0, charge_array_R in E2. fold qs in E2. rewrite (sub_sample_same _ _ _ _ S1 SU) in E2.
      refine (chunks_of_run u _ _ n_o _ _ _ axes (mscd_values qs) (first_half used) sizes b0 g b1 g1 E1 N2 U _ HL HS _ E2).
      + intros d' Hd'. cbv beta. destruct (IN d' Hd') as [I1 I2]. rewrite sq_chg_motion_axes; [reflexivity| |exact I1].
        rewrite I2. unfold qs. destruct q as [c|l]; cbn [charges]; [apply repeat_length|]. now apply HQ.
      + intros k d' no' km K0 K1 K2. cbv beta. rewrite nofnat_R. destruct (IN d' (nth_error_In _ _ K0)) as [_ ->]. now apply (HW k).
  Qed.
End Runs.

(** ** Example *)
Lemma coins_in_range X : draws_in_range (coins X).
Proof. intros g n size Hn. cbn [coins x_randints fst]. apply Forall_forall. intros i Hi. apply in_map_iff in Hi as (j & <- & _). lia. Qed.
Lemma coins_fair X : fair_draws rows_of_coins even_odds (coins X) (run_requests 2 [(2, 2)]).
Proof.
  assert (D : forall g, drawn (coins X) g (run_requests 2 [(2, 2)])
    = ([[Nat.min (Nat.b2n (Nat.testbit g 0)) 1; Nat.min (Nat.b2n (Nat.testbit g 1)) 1];
        [Nat.min (Nat.b2n (Nat.testbit (Nat.div g 4) 0)) 1; Nat.min (Nat.b2n (Nat.testbit (Nat.div g 4) 1)) 1]], Nat.div (Nat.div g 4) 4)) by reflexivity.
  assert (P : forall p km, nth_error (run_requests 2 [(2, 2)]) p = Some km -> p < 2 /\ km = (2, 2)).
  { intros [|[|p]] km H; [injection H as <-; auto| injection H as <-; auto|]. destruct p; discriminate. }
  assert (A : forall f : nat -> R, average (tab 2 f) = ((f 0%nat + f 1%nat) / 2)%R) by (intros f; unfold average, tab, rsum; cbn; field).
  split; [|split].
  - intros g p k m _ H. destruct (P _ _ H) as [Hp E]. injection E as -> ->. rewrite D. destruct p as [|[|p]]; [| |lia]; eexists; split; reflexivity.
  - intros p i k m f H Hi. destruct (P _ _ H) as [Hp E]. injection E as -> ->. rewrite A. unfold mean_over, even_odds, slot, rsum.
    destruct p as [|[|p]]; [| |lia]; destruct i as [|[|i]]; try lia; cbn; field.
  - intros p i k m q j k' m' f h H Hi H' Hj Hne. destruct (P _ _ H) as [Hp E]. injection E as -> ->. destruct (P _ _ H') as [Hq E]. injection E as -> ->.
    rewrite !A. unfold mean_over, even_odds, slot, rsum.
    destruct p as [|[|p]]; try lia; destruct q as [|[|q]]; try lia; destruct i as [|[|i]]; try lia; destruct j as [|[|j]]; try lia; cbn; field.
Qed.
Lemma C91_example_proof X : fixed_resamples two_resamples /\ fair_draws rows_of_coins even_odds (coins X) (run_requests 2 [(2, 2)])
  /\ exists B, (forall g, In g rows_of_coins -> exists g', msd_bootstrap (coins X) two_resamples [1%R] two_hops [(5 / 2)%R] g = Ok (B g, g')
                  /\ b_n (B g) = [5%R] /\ b_v (B g) = [(64 / 5)%R])
     /\ mean_over rows_of_coins even_odds (fun g => nth 0 (b_n_bootstrap (B g)) 0%R) = 5%R
     /\ mean_over rows_of_coins even_odds (fun g => nth 0 (b_v_bootstrap (B g)) 0%R) = 8%R.
Proof.
  assert (U : fixed_resamples two_resamples) by (repeat split; cbn; lia).
  split; [exact U|]. split; [apply coins_fair|].
  assert (W : rsum (map even_odds rows_of_coins) = 1%R) by (unfold rsum, even_odds; cbn; field).
  assert (R0 : forall g, exists b g', msd_bootstrap (coins X) two_resamples [1%R] two_hops [(5 / 2)%R] g = Ok (b, g')).
  { intros g. destruct (msd_total (coins X) (with_bootstrap two_resamples false) [1%R] two_hops [(5/2)%R] all_axes g) as (b & H); try (cbn; lia); try discriminate.
    - exact names_xyz. - repeat constructor.
    - destruct (C62_succeeds_proof (coins X) (coins_in_range X) two_resamples [1%R] two_hops [(5/2)%R] b g g eq_refl) with (g := g) as (b' & g' & E & _).
      + repeat constructor; lra. + exact H. + exists b', g'. exact E. }
  set (B := fun g => match msd_bootstrap (coins X) two_resamples [1%R] two_hops [(5 / 2)%R] g with Ok (b, _) => b | Raise _ => demo_data end).
  assert (R1 : forall g, exists g', msd_bootstrap (coins X) two_resamples [1%R] two_hops [(5 / 2)%R] g = Ok (B g, g')).
  { intros g. destruct (R0 g) as (b & g' & H). exists g'. unfold B. rewrite H. reflexivity. }
  assert (SS : sub_sample 1 two_hops two_hops) by (intros i; now rewrite Nat.mul_1_r).
  assert (R2 : forall g, b_n (B g) = [5%R] /\ b_v (B g) = [(64 / 5)%R]).
  { intros g. destruct (R1 g) as (g' & H). destruct (msd_run (coins X) two_resamples _ _ _ _ _ _ ltac:(cbn; lia) H) as (axes & shown & N & _ & S1 & _ & _ & HR).
    assert (axes = all_axes) by (eapply names_unique; [exact N|exact names_xyz]). subst axes.
    rewrite <- (sub_sample_same _ _ _ _ SS S1) in HR.
    assert (ES : shown = two_hops) by (eapply leading_all; [|exact (br_shown _ _ _ _ _ _ _ _ _ _ HR)]; repeat constructor). subst shown.
    assert (V1 : average (msd_values all_axes (mkArr 2 [[mkV 1 0 0; mkV 3 0 0]%R])) = 5%R) by (unfold average, rsum, sqlen; cbn; unfold sqlen, rsum; cbn; field).
    assert (V2 : (sample_variance (msd_values all_axes (mkArr 2 [[mkV 1 0 0; mkV 3 0 0]%R])) / (5 / 2) = 64 / 5)%R).
    { unfold sample_variance. rewrite V1. unfold rsum; cbn; unfold sqlen, rsum; cbn. field. }
    split.
    - rewrite (br_n _ _ _ _ _ _ _ _ _ _ HR eq_refl). cbn [map two_hops]. now rewrite V1.
    - assert (L := br_v_len _ _ _ _ _ _ _ _ _ _ HR). destruct (br_v _ _ _ _ _ _ _ _ _ _ HR eq_refl 0 _ eq_refl) as (no & O & E). injection O as <-. rewrite V2 in E.
      destruct (b_v (B g)) as [|x [|y l]]; try discriminate L. injection E as ->. reflexivity. }
  exists B. split; [intros g Hg; destruct (R1 g) as (g' & H); exists g'; split; [exact H|apply R2]|].
  destruct (C91_msd_proof (coins X) rows_of_coins even_odds two_resamples [1%R] two_hops [(5 / 2)%R] B two_hops [(2, 2)] 0 2 2 (5 / 2)%R W U) as (n & v & E1 & E2 & E3).
  - intros g _. apply R1.
  - exact SS.
  - repeat constructor.
  - intros [|[|k]] no km H1 H2; try discriminate. injection H1 as <-. injection H2 as <-. unfold whole_part. cbn. lra.
  - apply coins_fair.
  - reflexivity.
  - reflexivity.
  - lia.
  - destruct (E1 0 ltac:(cbn; auto)) as [F1 F2]. destruct (R2 0) as [G1 G2]. rewrite G1 in F1. rewrite G2 in F2. injection F1 as <-. injection F2 as <-.
    split; [exact E2|]. change (Z.to_nat (u_n_resamples two_resamples)) with 2 in E3. rewrite (E3 ltac:(lia)). cbn. field.
Qed.
Lemma C91_refuted_proof X : exists u dts disps n_o (B : nat -> Boot R) gs wt v,
  rsum (map wt gs) = 1%R /\ fixed_resamples u /\ fair_draws gs wt (coins X) (run_requests (Z.to_nat (u_n_resamples u)) [(2, 2)])
  /\ (forall g, In g gs -> exists g', msd_bootstrap (coins X) u dts disps n_o g = Ok (B g, g') /\ nth_error (b_v (B g)) 0 = Some v)
  /\ mean_over gs wt (fun g => nth 0 (b_v_bootstrap (B g)) 0%R) <> v.
Proof.
  destruct (C91_example_proof X) as (U & F & B & R1 & _ & E). exists two_resamples, [1%R], two_hops, [(5 / 2)%R], B, rows_of_coins, even_odds, (64 / 5)%R.
  split; [unfold rsum, even_odds; cbn; field|]. split; [exact U|]. split; [exact F|]. split; [|rewrite E; lra].
  intros g Hg. destruct (R1 g Hg) as (g' & H & _ & V). exists g'. split; [exact H|]. rewrite V. reflexivity.
Qed.
