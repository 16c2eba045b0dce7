(** * ProofsPredict: posterior predictions on average over the random numbers (C110) *)
From Verif Require Import Base Spec SpecFit SpecMarkov SpecRun SpecPredict ModelParser ModelDiffusion Lemmas ProofsCov ProofsStats ProofsFit ProofsFit2 ProofsMarkov ProofsCalib ProofsSampler.
From Coq Require Import Reals Lra Lia Psatz.
Open Scope nat_scope.

(** ** What is computed *)
Section Run.
  Context {G Seed RS : Type} (X : Ext R G Seed RS).
  Lemma loop_value gr ic cov dts n_pred : length gr = length ic -> length cov = length dts -> length dts <> 1 \/ n_pred <= 1 ->
    forall draws g, Forall (fun i => i < length gr) draws ->
    exists g', ppd_loop X gr (Some ic) cov dts n_pred draws g = Ok (scattered_around X g (map (sample_line gr ic dts) draws) cov n_pred, g').
  Proof.
    intros HL HC H1 draws. induction draws as [|j draws IH]; intros g Hd.
    - exists g. reflexivity.
    - inversion Hd as [|? ? Hj Hd']; subst. cbn [ppd_loop]. rewrite !py_index_nat.
      destruct (nth_error gr j) as [gj|] eqn:Eg; [|apply nth_error_None in Eg; lia].
      destruct (nth_error ic j) as [cj|] eqn:Ec; [|apply nth_error_None in Ec; lia].
      cbn [opt_res bind]. rewrite py_index_nat, Ec. cbn [opt_res bind]. rewrite map_length, HC, Nat.eqb_refl. cbn [guard bind].
      assert (Emu : map (fun d => nadd (nmul gj d) cj) dts = sample_line gr ic dts j).
      { unfold sample_line, line_points, vec_entry. rewrite (nth_error_nth _ _ _ Eg), (nth_error_nth _ _ _ Ec). reflexivity. }
      rewrite Emu. cbn [map scattered_around]. destruct (x_mvn X g (sample_line gr ic dts j) cov n_pred) as [rows g1] eqn:Em.
      assert (Eb : negb (Nat.eqb (length dts) 1) || Nat.leb n_pred 1 = true).
      { destruct H1 as [H1|H1]; [apply Nat.eqb_neq in H1; now rewrite H1|]. apply Nat.leb_le in H1. rewrite H1. apply Bool.orb_true_r. }
      rewrite Eb. cbn [guard bind]. destruct (IH g1 Hd') as (g2 & ->). cbn [bind]. eexists. reflexivity.
  Qed.
  Lemma around_shape g mus cov n w : mvn_shape X -> Forall (fun mu => length mu = w) mus ->
    length (scattered_around X g mus cov n) = length mus /\ Forall (fun b => length b = n /\ Forall (fun row => length row = w) b) (scattered_around X g mus cov n).
  Proof.
    intros HM H. revert g. induction H as [|mu mus Hmu _ IH]; intros g; cbn [scattered_around]; [split; [reflexivity|constructor]|].
    destruct (HM g mu cov n) as [M1 M2]. destruct (x_mvn X g mu cov n) as [rows g']. cbn [fst] in M1, M2. destruct (IH g') as [I1 I2]. split; [cbn; now rewrite I1|].
    constructor; [|exact I2]. split; [exact M1|]. now rewrite <- Hmu.
  Qed.
  Definition values (gr ic dts : list R) (cov : list (list R)) (k n : nat) (g : G) : list (list (list R)) :=
    scattered_around X (snd (x_randints X g (length gr) k)) (map (sample_line gr ic dts) (picked X g (length gr) k)) cov n.
  Lemma predictive_value b gr ic cov start r n_post n_pred g : randints_ok X ->
    b_gradient b = Some gr -> b_intercept b = Some ic -> b_covariance b = Some cov -> b_start_dt b = Some start ->
    first_at_least start (b_dt b) r -> length cov = length (b_dt b) - r -> length gr = length ic -> 0 < length gr -> length (b_dt b) - r <> 1 \/ n_pred <= 1 ->
    let k := match n_post with Some k => k | None => length gr end in
    exists g', posterior_predictive X b n_post n_pred g = Ok (List.concat (values gr ic (skipn r (b_dt b)) cov k n_pred g), g').
  Proof.
    intros HR Eg Ei Ecov Es Hr Hc HL Hpos H1 k. unfold posterior_predictive.
    assert (Ek : (match n_post with Some k => Ok k | None => let! gr := samples_of (b_gradient b) in Ok (length gr) end) = Ok k).
    { unfold k. destruct n_post; [reflexivity|]. now rewrite Eg. }
    rewrite Ek. cbn [bind]. rewrite Es. cbn [opt_res bind]. rewrite (find_regime_of_first _ _ _ Hr). cbn [bind].
    rewrite Eg. cbn [samples_of opt_res bind].
    assert (E0 : Nat.ltb 0 (length gr) = true) by (now apply Nat.ltb_lt). rewrite E0. cbn [orb guard bind].
    destruct (HR g (length gr) k) as [R1 R2]. unfold values, picked. destruct (x_randints X g (length gr) k) as [draws g1]. cbn [fst snd] in *.
    rewrite Ecov, Ei. cbn [opt_res bind].
    assert (Ls : length (skipn r (b_dt b)) = length (b_dt b) - r) by apply skipn_length.
    destruct (loop_value gr ic cov (skipn r (b_dt b)) n_pred HL ltac:(congruence) ltac:(rewrite Ls; exact H1) draws g1 (R2 Hpos)) as (g2 & ->).
    cbn [bind]. eexists. reflexivity.
  Qed.
End Run.
Lemma nth_concat_blocks {T} (n : nat) (bs : list (list T)) j p d : Forall (fun b => length b = n) bs -> p < n -> j < length bs ->
  nth (j * n + p) (List.concat bs) d = nth p (nth j bs []) d.
Proof.
  intros H Hp. revert j. induction H as [|b bs Hb _ IH]; intros j Hj; [cbn in Hj; lia|]. cbn [List.concat length] in *. destruct j as [|j].
  - cbn [Nat.mul Nat.add nth]. apply app_nth1. lia.
  - rewrite app_nth2 by (rewrite Hb; nia). replace (S j * n + p - length b) with (j * n + p) by (rewrite Hb; nia). cbn [nth]. apply IH. lia.
Qed.
Lemma length_concat_blocks {T} (n : nat) (bs : list (list T)) : Forall (fun b => length b = n) bs -> length (List.concat bs) = length bs * n.
Proof. induction 1 as [|b bs Hb _ IH]; [reflexivity|]. cbn [List.concat length]. rewrite app_length, IH, Hb. reflexivity. Qed.
Lemma average_linear (a b : list R) (t : R) : length a = length b -> 0 < length a ->
  average (tab (length a) (fun s => vec_entry a s * t + vec_entry b s)%R) = mean_line a b t.
Proof.
  intros HL H. assert (Hn : (INR (length a) <> 0)%R) by (apply not_0_INR; lia). unfold mean_line.
  assert (E : forall c : list R, length c = length a -> average c = (sumto (length a) (vec_entry c) / INR (length a))%R).
  { intros c Lc. rewrite <- average_tab_sumto. f_equal. unfold tab, vec_entry. rewrite <- Lc. symmetry. apply map_nth_seq. }
  rewrite (E a eq_refl), (E b (eq_sym HL)), average_tab_sumto. rewrite sumto_plus.
  rewrite (sumto_ext _ (fun i => vec_entry a i * t)%R (fun i => t * vec_entry a i)%R) by (intros; ring). rewrite sumto_scale. change (fun i => vec_entry a i) with (vec_entry a). change (fun i => vec_entry b i) with (vec_entry b). field. exact Hn.
Qed.
Lemma average_lines (a b : list R) (t t' : R) : length a = length b -> 0 < length a ->
  average (tab (length a) (fun s => (vec_entry a s * t + vec_entry b s - mean_line a b t) * (vec_entry a s * t' + vec_entry b s - mean_line a b t')))%R = lines_covariance a b t t'.
Proof.
  intros HL H. assert (Hn : (INR (length a) <> 0)%R) by (apply not_0_INR; lia). unfold lines_covariance, sample_covariance. rewrite <- HL, !average_tab_sumto.
  set (da := fun s => (vec_entry a s - average a)%R). set (db := fun s => (vec_entry b s - average b)%R).
  rewrite (sumto_ext _ _ (fun s => t * t' * (da s * da s) + (t + t') * (da s * db s) + db s * db s)%R) by (intros; unfold mean_line, da, db; ring).
  rewrite !sumto_plus, !sumto_scale. unfold da, db. field. exact Hn.
Qed.

(** ** Averages over the states of the generator *)
Section Average.
  Context {G Seed RS : Type} (gs : list G) (wt : G -> R) (X : Ext R G Seed RS) (gr ic dts : list R) (cov : list (list R)) (k n : nat).
  Hypothesis (F : fair_predictions gs wt X gr ic dts cov k n) (HL : length gr = length ic) (HP : 0 < length gr).
  Let L s i := (vec_entry gr s * vec_entry dts i + vec_entry ic s)%R.
  Let mu i := mean_line gr ic (vec_entry dts i).
  Let val j p i g := vec_entry (nth p (nth j (values X gr ic dts cov k n g) []) []) i.
  Let split_value j p i g : i < length dts -> val j p i g = (L (pick X gr k j g) i + noise X gr ic dts cov k n j p i g)%R.
  Proof.
    intros Hi. unfold val, noise. fold (values X gr ic dts cov k n g).
    assert (E : vec_entry (sample_line gr ic dts (pick X gr k j g)) i = L (pick X gr k j g) i).
    { unfold sample_line, line_points. unfold vec_entry at 1. rewrite (nth_map_lt _ dts i 0%R) by exact Hi. reflexivity. }
    rewrite E. ring.
  Qed.
  Lemma mean_value j p i : j < k -> p < n -> i < length dts -> mean_over gs wt (val j p i) = mu i.
  Proof using F HL HP.
    intros Hj Hp Hi. destruct F as (_ & F1 & _ & F3 & _).
    rewrite (mean_ext gs wt _ (fun g => L (pick X gr k j g) i + 1 * noise X gr ic dts cov k n j p i g)%R) by (intros g _; rewrite split_value by exact Hi; ring).
    rewrite mean_plus. rewrite (F1 j (fun s => L s i) Hj), (F3 j p i j (fun _ => 1%R) Hj Hp Hi Hj). unfold L, mu. rewrite average_linear by assumption. ring.
  Qed.
  Lemma covariance_value j p i j' p' i' : j < k -> p < n -> i < length dts -> j' < k -> p' < n -> i' < length dts ->
    mean_over gs wt (fun g => (val j p i g - mu i) * (val j' p' i' g - mu i'))%R
    = ((if Nat.eqb j j' then lines_covariance gr ic (vec_entry dts i) (vec_entry dts i') else 0) + (if (Nat.eqb j j' && Nat.eqb p p')%bool then matrix_entry cov i i' else 0))%R.
  Proof using F HL HP.
    intros Hj Hp Hi Hj' Hp' Hi'. destruct F as (_ & F1 & F2 & F3 & F4).
    set (d s i := (L s i - mu i)%R). set (N j p i g := noise X gr ic dts cov k n j p i g). set (P j g := pick X gr k j g).
    rewrite (mean_ext gs wt _ (fun g => d (P j g) i * d (P j' g) i' + (d (P j g) i * N j' p' i' g + (d (P j' g) i' * N j p i g + N j p i g * N j' p' i' g)))%R)
      by (intros g _; rewrite !split_value by assumption; unfold d, P, N; ring).
    rewrite !mean_plus. unfold N, P. rewrite (F3 j' p' i' j (fun s => d s i)) by assumption. rewrite (F3 j p i j' (fun s => d s i')) by assumption. rewrite F4 by assumption.
    assert (Z : forall q, average (tab (length gr) (fun s => d s q)) = 0%R).
    { intros q. pose proof (average_linear gr ic (vec_entry dts q) HL HP) as A. rewrite average_tab_sumto in A |- *. unfold d, L. rewrite sumto_minus, sumto_const. fold (mu q) in A.
      assert (Hn : (INR (length gr) <> 0)%R) by (apply not_0_INR; lia). rewrite <- A. field. exact Hn. }
    destruct (Nat.eqb j j') eqn:E; cbn [andb].
    - apply Nat.eqb_eq in E. subst j'. rewrite (F1 j (fun s => d s i * d s i')%R Hj). unfold d, L, mu. rewrite average_lines by assumption. ring.
    - apply Nat.eqb_neq in E. rewrite (F2 j j' (fun s => d s i) (fun s => d s i') Hj Hj' E). rewrite !Z. ring.
  Qed.
End Average.
Lemma C110_proof {G Seed RS} (X : Ext R G Seed RS) (gs : list G) (wt : G -> R) b gr ic cov start r n_post n : randints_ok X -> mvn_shape X ->
  b_gradient b = Some gr -> b_intercept b = Some ic -> b_covariance b = Some cov -> b_start_dt b = Some start ->
  first_at_least start (b_dt b) r -> length cov = length (b_dt b) - r -> length gr = length ic -> 0 < length gr -> (length (b_dt b) - r <> 1 \/ n <= 1) ->
  let k := match n_post with Some k => k | None => length gr end in let dts := skipn r (b_dt b) in
  fair_predictions gs wt X gr ic dts cov k n ->
  exists rows, (forall g, In g gs -> exists g', posterior_predictive X b n_post n g = Ok (rows g, g') /\ length (rows g) = k * n /\ Forall (fun row => length row = length dts) (rows g))
    /\ (forall j p i, j < k -> p < n -> i < length dts -> mean_over gs wt (fun g => matrix_entry (rows g) (j * n + p) i) = mean_line gr ic (vec_entry dts i))
    /\ (forall j p i j' p' i', j < k -> p < n -> i < length dts -> j' < k -> p' < n -> i' < length dts ->
          mean_over gs wt (fun g => (matrix_entry (rows g) (j * n + p) i - mean_line gr ic (vec_entry dts i)) * (matrix_entry (rows g) (j' * n + p') i' - mean_line gr ic (vec_entry dts i')))%R
          = ((if Nat.eqb j j' then lines_covariance gr ic (vec_entry dts i) (vec_entry dts i') else 0) + (if (Nat.eqb j j' && Nat.eqb p p')%bool then matrix_entry cov i i' else 0))%R).
Proof.
  intros HR HM Eg Ei Ecov Es Hr Hc HL HP H1 k dts F. exists (fun g => List.concat (values X gr ic dts cov k n g)).
  assert (Sh : forall g, length (values X gr ic dts cov k n g) = k /\ Forall (fun b => length b = n /\ Forall (fun row => length row = length dts) b) (values X gr ic dts cov k n g)).
  { intros g. destruct (HR g (length gr) k) as [R1 _]. unfold values.
    destruct (around_shape X (snd (x_randints X g (length gr) k)) (map (sample_line gr ic dts) (picked X g (length gr) k)) cov n (length dts) HM) as [A1 A2].
    - apply Forall_forall. intros m Hm. apply in_map_iff in Hm as (s & <- & _). unfold sample_line, line_points. apply map_length.
    - split; [|exact A2]. rewrite A1, map_length. exact R1. }
  assert (Bl : forall g, Forall (fun b => length b = n) (values X gr ic dts cov k n g)).
  { intros g. eapply Forall_impl; [|exact (proj2 (Sh g))]. intros bl [Q _]. exact Q. }
  assert (En : forall g j p i, j < k -> p < n -> matrix_entry (List.concat (values X gr ic dts cov k n g)) (j * n + p) i = vec_entry (nth p (nth j (values X gr ic dts cov k n g) []) []) i).
  { intros g j p i Hj Hp. unfold matrix_entry. rewrite nth_concat_blocks; [reflexivity|exact (Bl g)|exact Hp|now rewrite (proj1 (Sh g))]. }
  split; [|split].
  - intros g _. destruct (predictive_value X b gr ic cov start r n_post n g HR Eg Ei Ecov Es Hr Hc HL HP H1) as (g' & E). exists g'. split; [exact E|].
    destruct (Sh g) as [S1 S2]. split.
    + rewrite (length_concat_blocks n) by (exact (Bl g)). now rewrite S1.
    + clear - S2. induction S2 as [|bl bs [_ Hb] _ IH]; [constructor|]. cbn [List.concat]. apply Forall_app. now split.
  - intros j p i Hj Hp Hi. rewrite (mean_ext gs wt _ (fun g => vec_entry (nth p (nth j (values X gr ic dts cov k n g) []) []) i)) by (intros; now apply En).
    now apply mean_value.
  - intros j p i j' p' i' Hj Hp Hi Hj' Hp' Hi'. erewrite mean_ext; [apply (covariance_value gs wt X gr ic dts cov k n F HL HP j p i j' p' i'); assumption|].
    intros g _. cbv beta. now rewrite !En by assumption.
Qed.
Lemma C110_fit_proof {G Seed RS} (X : Ext R G Seed RS) (gs : list G) (wt : G -> R) b p g0 b' g1 r gr n_post n : randints_ok X -> mvn_shape X -> matrix_shapes X ->
  length (b_v b) = length (b_dt b) -> length (b_n_o b) = length (b_dt b) -> l_fit_intercept p = true -> diffusion X b p g0 = (b', g1, Ok tt) ->
  first_at_least (l_start_dt p) (b_dt b) r -> b_gradient b' = Some gr -> gr <> [] -> (length (b_dt b) - r <> 1 \/ n <= 1) ->
  let k := match n_post with Some k => k | None => length gr end in let dts := skipn r (b_dt b) in
  exists ic cov, b_intercept b' = Some ic /\ b_covariance b' = Some cov /\ (fair_predictions gs wt X gr ic dts cov k n ->
   exists rows, (forall g, In g gs -> exists g', posterior_predictive X b' n_post n g = Ok (rows g, g') /\ length (rows g) = k * n /\ Forall (fun row => length row = length dts) (rows g))
    /\ (forall j p i, j < k -> p < n -> i < length dts -> mean_over gs wt (fun g => matrix_entry (rows g) (j * n + p) i) = mean_line gr ic (vec_entry dts i))
    /\ (forall j p i j' p' i', j < k -> p < n -> i < length dts -> j' < k -> p' < n -> i' < length dts ->
          mean_over gs wt (fun g => (matrix_entry (rows g) (j * n + p) i - mean_line gr ic (vec_entry dts i)) * (matrix_entry (rows g) (j' * n + p') i' - mean_line gr ic (vec_entry dts i')))%R
          = ((if Nat.eqb j j' then lines_covariance gr ic (vec_entry dts i) (vec_entry dts i') else 0) + (if (Nat.eqb j j' && Nat.eqb p p')%bool then matrix_entry cov i i' else 0))%R)).
Proof.
  intros HR HM HS Hv Hn Hf H F Eg Hne H1 k dts.
  destruct (diffusion_ok X _ _ _ _ _ H) as (b1 & gr' & EG & Eg1 & ->). cbn [set_D b_gradient] in Eg. rewrite Eg1 in Eg. injection Eg as ->.
  assert (K := gls_cases X b p g0). rewrite EG in K.
  inversion K as [| | | |r' g2 g3 raw cov chain gr0 ic F' E0 EC ES C0 EI]; subst.
  cbn [set_fit b_gradient] in Eg1. injection Eg1 as ->.
  assert (r' = r) by (eapply first_at_least_unique; eauto). subst r'.
  destruct EI as [[_ (c & C1 & ->)]|[EF _]]; [|congruence].
  assert (HL := columns_length _ _ _ C0 C1).
  assert (Lc := cov_length X (set_settings b p) p r raw cov HS Hv Hn EC).
  exists c, cov. split; [reflexivity|]. split; [reflexivity|]. intros FP.
  apply (C110_proof X gs wt (set_D (set_fit (set_covariance (set_settings b p) cov) chain gr (Some c)) (diffusion_samples (b_dims b) gr)) gr c cov (l_start_dt p) r n_post n);
    try assumption; try reflexivity. destruct gr; [congruence|cbn; lia].
Qed.

(** ** Example: sixteen states; each holds two indices and eight signs *)
Definition signs_ext : Ext R (list nat * list R) nat nat :=
  mkExt sqrt (fun g n size => (map (fun i => Nat.min (nth i (fst g) 0) (n - 1)) (seq 0 size), g)) (fun _ => 0%R) (fun _ => (0%R, 0%R)) (fun rs => rs) (fun _ => ([], []))
    (fun _ _ _ => Ok 1%R) (fun m => Ok (repeat 1%R (length m), repeat (repeat 1%R (length m)) (length m)))
    (fun m => Ok m) (fun _ => Ok 0%R) (ln (2 * PI)) (fun m => Ok m) (fun _ _ => Ok 1%R) (fun _ x0 => Ok x0)
    (fun g rows cols => (repeat (repeat 0%R cols) rows, g)) (fun _ => true) (fun g _ => ([], g))
    (fun g mu _ n => (map (fun q => map (fun i => (nth i mu 0 + nth (q * length mu + i) (snd g) 0)%R) (seq 0 (length mu))) (seq 0 n), (fst g, skipn (n * length mu) (snd g)))).
Definition sign_states : list (list nat * list R) :=
  [([0;0]%nat, [1;1;1;1;1;1;1;1]%R);
   ([1;0]%nat, [-1;-1;1;-1;-1;1;-1;1]%R);
   ([0;1]%nat, [-1;1;-1;-1;1;-1;-1;1]%R);
   ([1;1]%nat, [1;-1;-1;1;-1;-1;1;1]%R);
   ([0;0]%nat, [1;-1;-1;-1;1;1;1;-1]%R);
   ([1;0]%nat, [-1;1;-1;1;-1;1;-1;-1]%R);
   ([0;1]%nat, [-1;-1;1;1;1;-1;-1;-1]%R);
   ([1;1]%nat, [1;1;1;-1;-1;-1;1;-1]%R);
   ([0;0]%nat, [1;1;1;1;-1;-1;-1;-1]%R);
   ([1;0]%nat, [-1;-1;1;-1;1;-1;1;-1]%R);
   ([0;1]%nat, [-1;1;-1;-1;-1;1;1;-1]%R);
   ([1;1]%nat, [1;-1;-1;1;1;1;-1;-1]%R);
   ([0;0]%nat, [1;-1;-1;-1;-1;-1;-1;1]%R);
   ([1;0]%nat, [-1;1;-1;1;1;-1;1;1]%R);
   ([0;1]%nat, [-1;-1;1;1;-1;1;1;1]%R);
   ([1;1]%nat, [1;1;1;-1;1;1;-1;1]%R)].
Definition one_sixteenth (g : list nat * list R) : R := (1/16)%R.
Definition fitted_data : Boot R := set_fit (set_covariance (set_settings demo_data (demo_fit 1 true)) [[1;0];[0;1]]%R) [[1;0];[3;2]]%R [1;3]%R (Some [0;2]%R).
Lemma signs_randints : randints_ok signs_ext.
Proof.
  intros g n size. cbn. split; [now rewrite map_length, seq_length|]. intros Hn. apply Forall_forall. intros x Hx. apply in_map_iff in Hx as (i & <- & _). lia.
Qed.
Lemma signs_shape : mvn_shape signs_ext.
Proof.
  intros g mu cov n. cbn. split; [now rewrite map_length, seq_length|]. apply Forall_forall. intros x Hx. apply in_map_iff in Hx as (i & <- & _). now rewrite map_length, seq_length.
Qed.
Lemma signs_fair : fair_predictions sign_states one_sixteenth signs_ext [1;3]%R [0;2]%R [1;2]%R [[1;0];[0;1]]%R 2 2.
Proof.
  unfold fair_predictions, mean_over, sign_states. split; [unfold one_sixteenth; cbn; lra|]. split; [|split; [|split]].
  - intros j f Hj. destruct j as [|[|j]]; [| |lia]; unfold one_sixteenth, average, tab, pick, picked; cbn; lra.
  - intros j j' f h Hj Hj' D. destruct j as [|[|j]]; [| |lia]; (destruct j' as [|[|j']]; [| |lia]); try (now exfalso; apply D); unfold one_sixteenth, average, tab, pick, picked; cbn; nra.
  - intros j p i j' f Hj Hp Hi Hj'. cbn [length] in Hi. destruct j as [|[|j]]; [| |lia]; (destruct j' as [|[|j']]; [| |lia]); (destruct p as [|[|p]]; [| |lia]); (destruct i as [|[|i]]; [| |lia]);
      unfold one_sixteenth, noise, pick, picked, vec_entry, sample_line, line_points; cbn; lra.
  - intros j p i j' p' i' Hj Hp Hi Hj' Hp' Hi'. cbn [length] in Hi, Hi'. destruct j as [|[|j]]; [| |lia]; (destruct j' as [|[|j']]; [| |lia]); (destruct p as [|[|p]]; [| |lia]); (destruct p' as [|[|p']]; [| |lia]); (destruct i as [|[|i]]; [| |lia]); (destruct i' as [|[|i']]; [| |lia]);
      unfold one_sixteenth, noise, pick, picked, vec_entry, sample_line, line_points, matrix_entry; cbn; lra.
Qed.
Lemma C110_example_proof : randints_ok signs_ext /\ mvn_shape signs_ext /\ b_gradient fitted_data = Some [1;3]%R /\ b_intercept fitted_data = Some [0;2]%R
  /\ b_covariance fitted_data = Some [[1;0];[0;1]]%R /\ b_start_dt fitted_data = Some 1%R /\ first_at_least 1 (b_dt fitted_data) 0 /\ skipn 0 (b_dt fitted_data) = [1;2]%R
  /\ fair_predictions sign_states one_sixteenth signs_ext [1;3]%R [0;2]%R [1;2]%R [[1;0];[0;1]]%R 2 2
  /\ mean_line [1;3]%R [0;2]%R 1 = 3%R /\ lines_covariance [1;3]%R [0;2]%R 1 1 = 4%R /\ lines_covariance [1;3]%R [0;2]%R 1 2 = 6%R.
Proof.
  split; [exact signs_randints|]. split; [exact signs_shape|]. repeat (split; [reflexivity|]). split.
  { exists 1%R. split; [reflexivity|]. split; [lra|]. intros i y Hi. lia. }
  split; [reflexivity|]. split; [exact signs_fair|].
  unfold mean_line, lines_covariance, sample_covariance, average, tab, vec_entry. cbn. repeat split; field.
Qed.
