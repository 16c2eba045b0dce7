(** * ProofsLong2: random walks and the examples of C99 *)
From Verif Require Import Base Spec SpecParser SpecStats SpecRun SpecFit SpecGls SpecTrue SpecPool SpecColl SpecMarkov SpecCalib SpecIdeal SpecLong
  ModelParser ModelDiffusion ModelHdf ModelAnalyzer Lemmas
  ProofsDisp ProofsCov ProofsIntervals ProofsWindows ProofsParser ProofsBoot ProofsTraj ProofsStats ProofsStats2 ProofsFit ProofsFit2 ProofsMarkov ProofsTrue ProofsColl ProofsPool ProofsCollective ProofsCalib ProofsIdeal ProofsLong.
From Coq Require Import Reals Lra Lia Psatz.
Open Scope nat_scope.

Lemma sum_nonneg {T} (f : T -> R) l : (forall x, (0 <= f x)%R) -> (0 <= rsum (map f l))%R.
Proof. intros H. induction l as [|y l IH]; [cbn; lra|]. cbn [map]. rewrite rsum_cons. specialize (H y). lra. Qed.
Section Walk.
  Context {E : Type} (es : list E) (wt : E -> R).
  Hypothesis W : probabilities es wt.
  Notation M := (mean_over es wt).
  Notation cov := (covary es wt).
  Let W1 : rsum (map wt es) = 1%R := proj1 W.
  Context (s : E -> nat -> nat -> V3 R) (axes : list axis) (N len : nat) (C : axis -> axis -> R) (q : R).
  Hypothesis HI : independent_steps es wt s.
  Hypothesis HU : unbiased_steps es wt s N len.
  Hypothesis HC : second_moments es wt s N len C.
  Hypothesis HF : fourth_below es wt s N len axes q.
  Notation X := (ProofsIdeal.X s axes).
  Notation tr := (trace_of axes C).
  Notation tq := (trace_square axes C).
  Lemma net_fourth_le a k n : a < N -> k + n <= len -> (M (fun e => X a k n e * X a k n e) <= INR n * q + INR n * (INR n - 1) * (tr * tr + 2 * tq))%R.
  Proof.
    intros Ha. induction n as [|n IH]; intros Hk.
    - rewrite (mean_ext es wt _ (fun _ => 0%R)).
      + rewrite mean_const by exact W1. cbn. lra.
      + intros e _. assert (Z : X a k 0 e = 0%R); [|rewrite Z; ring]. unfold ProofsIdeal.X, sqlen, net. cbn [seq map]. rewrite (map_ext _ (fun _ => 0%R)) by (intros c; destruct c; cbn; ring). rewrite rsum_const. ring.
    - set (d := fun e => net (s e) a k n). set (t := fun e => s e a (k + n)%nat).
      pose proof (last_step es wt s HI a k n) as LS. pose proof (net_mean es wt W1 s N len HU a k n) as NM.
      assert (I1 : M (fun e => sqlen axes (d e) * inner axes (d e) (t e))%R = 0%R).
      { rewrite (mean_ext es wt _ (fun e => rsum (map (fun c => (sqlen axes (d e) * coord (d e) c) * coord (t e) c)%R axes))) by (intros; unfold inner; rewrite <- rsum_map_scale; f_equal; apply map_ext; intros; ring).
        apply (rsum_mean_zero es wt W1 axes (fun c e => (sqlen axes (d e) * coord (d e) c) * coord (t e) c)%R). intros c.
        unfold d, t. rewrite (LS (fun v => sqlen axes v * coord v c)%R (fun v => coord v c)), HU by lia. ring. }
      assert (I2 : M (fun e => sqlen axes (t e) * inner axes (d e) (t e))%R = 0%R).
      { rewrite (mean_ext es wt _ (fun e => rsum (map (fun c => coord (d e) c * (sqlen axes (t e) * coord (t e) c))%R axes))) by (intros; unfold inner; rewrite <- rsum_map_scale; f_equal; apply map_ext; intros; ring).
        apply (rsum_mean_zero es wt W1 axes (fun c e => coord (d e) c * (sqlen axes (t e) * coord (t e) c))%R). intros c.
        unfold d, t. rewrite (LS (fun v => coord v c)%R (fun v => sqlen axes v * coord v c)%R), NM by lia. ring. }
      assert (I3 : M (fun e => inner axes (d e) (t e) * inner axes (d e) (t e))%R = (INR n * tq)%R).
      { rewrite (mean_ext es wt _ (fun e => rsum (map (fun c => rsum (map (fun c' => (coord (d e) c * coord (d e) c') * (coord (t e) c * coord (t e) c'))%R axes)) axes))).
        2:{ intros e _. unfold inner at 1. rewrite Rmult_comm, <- rsum_map_scale. f_equal. apply map_ext. intros c. unfold inner. rewrite Rmult_comm, <- rsum_map_scale. f_equal. apply map_ext. intros c'. ring. }
        rewrite (mean_rsum es wt W1 axes (fun c e => rsum (map (fun c' => (coord (d e) c * coord (d e) c') * (coord (t e) c * coord (t e) c'))%R axes))).
        unfold trace_square. rewrite <- rsum_map_scale. f_equal. apply map_ext. intros c.
        rewrite (mean_rsum es wt W1 axes (fun c' e => (coord (d e) c * coord (d e) c') * (coord (t e) c * coord (t e) c'))%R). rewrite <- rsum_map_scale. f_equal. apply map_ext. intros c'.
        unfold d, t. rewrite (LS (fun v => coord v c * coord v c')%R (fun v => coord v c * coord v c')%R), (net_second es wt W1 s N len HI HU C HC), HC by lia. ring. }
      assert (I4 : M (fun e => sqlen axes (d e) * sqlen axes (t e))%R = (INR n * tr * tr)%R).
      { unfold d, t. rewrite (LS (sqlen axes) (sqlen axes)), (step_square es wt W1 s axes N len C HC) by lia. fold (X a k n). rewrite (net_square es wt W1 s axes N len HI HU C HC) by lia. ring. }
      rewrite (mean_ext es wt _ (fun e => X a k n e * X a k n e + (4 * (inner axes (d e) (t e) * inner axes (d e) (t e)) + (sqlen axes (t e) * sqlen axes (t e)
        + (4 * (sqlen axes (d e) * inner axes (d e) (t e)) + (2 * (sqlen axes (d e) * sqlen axes (t e)) + 4 * (sqlen axes (t e) * inner axes (d e) (t e)))))))%R)
        by (intros; unfold ProofsIdeal.X; rewrite net_S, sqlen_plus; unfold d, t; ring).
      rewrite !mean_plus, !mean_scale, I1, I2, I3, I4. specialize (IH ltac:(lia)). assert (F := HF a (k + n) Ha ltac:(lia)). unfold t. rewrite S_INR. 
      replace ((INR n + 1) * q + (INR n + 1) * (INR n + 1 - 1) * (tr * tr + 2 * tq))%R with ((INR n * q + INR n * (INR n - 1) * (tr * tr + 2 * tq)) + (4 * (INR n * tq) + (q + (4 * 0 + (2 * (INR n * tr * tr) + 4 * 0)))))%R by ring.
      lra.
  Qed.
  Lemma trace_square_pos : (0 <= tq)%R.
  Proof. unfold trace_square. apply sum_nonneg. intros c. apply sum_nonneg. intros c'. apply Rle_0_sqr. Qed.
  Lemma walk_spread_mono l m : 0 < len -> 0 < N -> l <= m -> (walk_spread axes C q l <= walk_spread axes C q m)%R.
  Proof.
    intros HL HN Hlm. unfold walk_spread.
    assert (J : (tr * tr <= q)%R).
    { apply Rle_trans with (2 := HF 0 0 HN HL). rewrite <- (step_square es wt W1 s axes N len C HC 0 0 HN HL).
      assert (P := spread_pos es wt W (fun e => sqlen axes (s e 0 0))). rewrite spread_covary, covary_alt in P by exact W1. lra. }
    pose proof trace_square_pos as T0. assert (L := le_INR _ _ Hlm). assert (L' : l - 1 <= m - 1) by lia. apply le_INR in L'.
    pose proof (pos_INR l). pose proof (pos_INR (l - 1)).
    assert (INR l * INR (l - 1) <= INR m * INR (m - 1))%R by (apply Rmult_le_compat; assumption).
    assert (INR l * (q - tr * tr) <= INR m * (q - tr * tr))%R by (apply Rmult_le_compat_r; lra).
    assert (INR l * INR (l - 1) * tq <= INR m * INR (m - 1) * tq)%R by (apply Rmult_le_compat_r; assumption). lra.
  Qed.
  Lemma walk_steady T m (own : nat -> E -> nat -> nat -> R) : 0 < N -> 1 < T -> len = T - 1 ->
    (forall e c f l, In e es -> c < N -> f + l < T -> own c e f (f + l) = sqlen axes (net (s e) c f l)) ->
    steady_atoms es wt own N T m 0 (fun l => INR l * tr)%R (walk_spread axes C q m).
  Proof.
    intros HN HT HL HO.
    assert (CE : forall c f l c' f' l', c < N -> c' < N -> f + l < T -> f' + l' < T ->
      cov (fun e => own c e f (f + l)) (fun e => own c' e f' (f' + l')) = cov (X c f l) (X c' f' l')).
    { intros c f l c' f' l' H1 H2 H3 H4. apply (covary_ext es wt W1); intros e He; now apply HO. }
    split.
    - intros c Hc. split.
      + intros f l H1 H2. rewrite (mean_ext es wt _ (X c f l)) by (intros e He; now apply HO). apply (net_square es wt W1 s axes N len HI HU C HC); lia.
      + intros f l H1 H2. rewrite spread_covary, CE by assumption. apply Rle_trans with (walk_spread axes C q l); [|apply walk_spread_mono; lia].
        rewrite covary_alt by exact W1. pose proof (net_fourth_le c f l Hc ltac:(lia)) as Q.
        rewrite (net_square es wt W1 s axes N len HI HU C HC) by lia. unfold walk_spread. destruct l as [|l]; [cbn [INR Nat.sub] in *; lra|].
        rewrite (minus_INR (S l) 1) by lia. cbn [INR] in *. change (match l with O => 1 | S _ => INR l + 1 end)%R with (INR (S l)) in *. rewrite S_INR in *. nra.
      + intros f l f' l' H1 H2 H3 H4. rewrite CE by (assumption || lia). apply (separate es wt W1 s axes HI). lia.
    - intros c c' f l f' l' H1 H2 D H3 H4 H5 H6. rewrite CE by assumption. apply (separate es wt W1 s axes HI). now left.
  Qed.
End Walk.

Section Report.
  Context {G Seed RS : Type} (X : Ext R G Seed RS) {E : Type} (es : list E) (wt : E -> R) (x : E -> nat -> nat -> V3 R) (p : E -> Parsed R) (an : E -> Analyzer R) (v : E -> R).
  Lemma C99_walk_proof i circ cell types vol n natoms k a u axes j m N s C (q : R) :
    probabilities es wt -> (forall e, In e es -> faithful_read i circ cell types vol n natoms k (x e) a (p e)) ->
    (0 < u_sub_sample_dt u)%Z -> u_block u = false -> names (pystr_text (u_dimension u)) axes ->
    (forall e, In e es -> exists g g' t, diffusion_analyzer X (of_parsed (p e)) u g = Ok (an e, g')
       /\ nth_error (b_dt (an_diff (an e))) j = Some t /\ nth_error (b_n (an_diff (an e))) j = Some (v e)
       /\ nth_error (p_intervals (p e)) (j * Z.to_nat (u_sub_sample_dt u)) = Some (Z.of_nat m)) ->
    0 < N -> 1 < kept n k -> 0 < m -> (forall e, In e es -> length (p_indices (p e)) = N) ->
    (forall e c f l, In e es -> c < N -> f + l < kept n k ->
       move_of natoms k (fun f b => cart cell (x e f b)) (p_indices (p e)) (p_drift_indices (p e)) c f (f + l) = net (s e) c f l) ->
    independent_steps es wt s -> unbiased_steps es wt s N (kept n k - 1) -> second_moments es wt s N (kept n k - 1) C -> fourth_below es wt s N (kept n k - 1) axes q ->
    within_square es wt v (INR m * trace_of axes C)%R
      (walk_spread axes C q m * (2 * INR m - 1) / (INR N * INR (kept n k - m + 1)) + trace_of axes C / INR (kept n k - m + 1) * (trace_of axes C / INR (kept n k - m + 1)))%R.
  Proof.
    intros W F Hk Hb Hn R HN HT Hm HL HO HI HU HC HF.
    pose proof (C99_atoms_proof X es wt x p an v i circ cell types vol n natoms k a u axes j m 0 N (fun l => INR l * trace_of axes C)%R (walk_spread axes C q m) W F Hk Hb Hn R HN HL) as Q.
    replace (walk_spread axes C q m * (2 * INR m - 1) / (INR N * INR (kept n k - m + 1)) + trace_of axes C / INR (kept n k - m + 1) * (trace_of axes C / INR (kept n k - m + 1)))%R
      with (allowance (kept n k) m 0 (fun l => INR l * trace_of axes C)%R (walk_spread axes C q m / INR N)).
    - apply Q. apply (walk_steady es wt W s axes N (kept n k - 1) C q HI HU HC HF); try assumption; [reflexivity|].
      intros e c f l H1 H2 H3. unfold own_square. now rewrite HO.
    - unfold allowance. rewrite (minus_INR m 1), Nat.add_0_r by lia. cbn [INR].
      assert (0 < INR N)%R by now apply lt_0_INR. assert (0 < INR (kept n k - m + 1))%R by (apply lt_0_INR; lia). field. lra.
  Qed.
End Report.

(** ** The example *)
Definition eighth (_ : bool * bool * bool) : R := (1 / 8)%R.
Lemma tosses_probabilities : probabilities tosses eighth.
Proof. split; [unfold eighth, tosses, rsum; cbn; lra|]. intros; unfold eighth; lra. Qed.
Lemma mean_tosses F : mean_over tosses eighth F = (1 / 8 * (F (true,true,true) + F (true,true,false) + F (true,false,true) + F (true,false,false) + F (false,true,true) + F (false,true,false) + F (false,false,true) + F (false,false,false)))%R.
Proof. unfold mean_over, tosses, eighth, rsum. cbn [map fold_right]. ring. Qed.
Lemma coin_same e e' a k : (a = 0 -> k = 0 -> fst (fst e) = fst (fst e')) -> (a = 0 -> k = 1 -> snd (fst e) = snd (fst e')) -> (a = 0 -> k = 2 -> snd e = snd e') -> coin_step e a k = coin_step e' a k.
Proof.
  destruct e as [[x y] z], e' as [[x' y'] z']. cbn [fst snd]. intros H1 H2 H3. destruct a as [|a]; [|reflexivity].
  destruct k as [|[|[|k]]]; cbn; [now rewrite H1|now rewrite H2|now rewrite H3|reflexivity].
Qed.
Lemma coin_independent : independent_steps tosses eighth coin_step.
Proof.
  intros P f g Hf Hg.
  assert (S : forall (b : bool) (Q : nat -> nat -> bool) h, uses_only (fun a k => Q a k = b) h ->
     (Q 0 0 <> b -> forall y z, h (coin_step (false, y, z)) = h (coin_step (true, y, z)))
     /\ (Q 0 1 <> b -> forall x z, h (coin_step (x, false, z)) = h (coin_step (x, true, z)))
     /\ (Q 0 2 <> b -> forall x y, h (coin_step (x, y, false)) = h (coin_step (x, y, true)))).
  { intros b Q h Hh. split; [|split]; intros D ? ?; apply Hh; intros a k HQ; apply coin_same; intros -> ->; cbn; congruence. }
  destruct (S true P f Hf) as (F0 & F1 & F2). destruct (S false P g Hg) as (G0 & G1 & G2). clear S Hf Hg. rewrite !mean_tosses. cbn beta.
  assert (D : true <> false) by discriminate. assert (D' : false <> true) by discriminate.
  destruct (P 0 0); [clear F0; pose proof (G0 D) as A0|clear G0; pose proof (F0 D') as A0];
  (destruct (P 0 1); [clear F1; pose proof (G1 D) as A1|clear G1; pose proof (F1 D') as A1]);
  (destruct (P 0 2); [clear F2; pose proof (G2 D) as A2|clear G2; pose proof (F2 D') as A2]);
  rewrite ?A0, ?A1, ?A2; field.
Qed.
Lemma coin_means (F : V3 R -> R) r : (1 / 2 * F (mkV (1 / 10) 0 0) + 1 / 2 * F (mkV (- (1 / 10)) 0 0))%R = r ->
  forall a k, a < 1 -> k < 3 -> mean_over tosses eighth (fun e => F (coin_step e a k)) = r.
Proof.
  intros H a k Ha Hk. destruct a as [|a]; [|lia]. rewrite mean_tosses. rewrite <- H. destruct k as [|[|[|k]]]; [| | |lia]; cbn [coin_step]; field.
Qed.
Lemma coin_unbiased : unbiased_steps tosses eighth coin_step 1 3.
Proof. intros a k c. apply (coin_means (fun v => coord v c)). destruct c; cbn [coord vx vy vz]; lra. Qed.
Lemma coin_second : second_moments tosses eighth coin_step 1 3 coin_moments.
Proof. intros a k c c'. apply (coin_means (fun v => coord v c * coord v c')%R). destruct c, c'; cbn [coord vx vy vz coin_moments]; lra. Qed.
Lemma coin_fourth : fourth_below tosses eighth coin_step 1 3 all_axes (1 / 10000)%R.
Proof.
  intros a k Ha Hk. right. apply (coin_means (fun v => sqlen all_axes v * sqlen all_axes v)%R); try assumption. unfold sqlen, all_axes, rsum. cbn. field.
Qed.
Lemma walk_move s f g : move_of 2 1 (fun f b => cart unit_cell (walk s f b)) [0%Z] [1%Z] 0 f g = mkV (s g - s f)%R 0%R 0%R.
Proof.
  unfold move_of, moves. cbn [map nth]. change (site 2 0) with 0. rewrite !Nat.mul_1_r.
  unfold relative_displacement, average3. cbn [map]. change (site 2 1) with 1. unfold average.
  cbn [walk zero3 cart unit_cell minus3 vx vy vz length map rsum fold_right]. unfold minus3, rsum. cbn. f_equal; field.
Qed.
Lemma coin_net e f l : f + l < 4 -> mkV (random_walk e (f + l)%nat - random_walk e f)%R 0%R 0%R = net (coin_step e) 0 f l.
Proof.
  destruct e as [[a b] c]. intros H. unfold net, random_walk, toss.
  destruct f as [|[|[|[|f]]]], l as [|[|[|[|l]]]]; try (exfalso; lia); unfold sum3, plus3; cbn; f_equal; lra.
Qed.
Lemma C99_example_proof : forall G Seed RS (X : Ext R G Seed RS) circ (g : G), exists p an v,
  probabilities tosses eighth
  /\ (forall e, In e tosses -> faithful_read Ase circ unit_cell ["Li"; "O"]%string 1%R 4 2 1 (walk (random_walk e)) walk_params (p e))
  /\ (forall e, In e tosses -> exists t, diffusion_analyzer X (of_parsed (p e)) (demo_boot 1 "xyz") g = Ok (an e, g)
       /\ nth_error (b_dt (an_diff (an e))) 1 = Some t /\ nth_error (b_n (an_diff (an e))) 1 = Some (v e) /\ nth_error (p_intervals (p e)) 1 = Some 2%Z)
  /\ (forall e, In e tosses -> length (p_indices (p e)) = 1)
  /\ (forall e c f l, In e tosses -> c < 1 -> f + l < 4 ->
       move_of 2 1 (fun f b => cart unit_cell (walk (random_walk e) f b)) (p_indices (p e)) (p_drift_indices (p e)) c f (f + l) = net (coin_step e) c f l)
  /\ independent_steps tosses eighth coin_step /\ unbiased_steps tosses eighth coin_step 1 3
  /\ second_moments tosses eighth coin_step 1 3 coin_moments /\ fourth_below tosses eighth coin_step 1 3 all_axes (1 / 10000)%R
  /\ within_square tosses eighth v (2 * (1 / 100))%R (4 / 10000 * 3 / 3 + 1 / 300 * (1 / 300))%R
  /\ mean_over tosses eighth (fun e => (v e - 2 * (1 / 100)) * (v e - 2 * (1 / 100)))%R = (1 / 10000)%R.
Proof.
  intros G Seed RS X circ g.
  assert (K : exists p an, forall e, In e tosses -> walked X circ g (random_walk e) (p e) (an e)).
  { assert (L : forall es, exists p an, forall e, In e es -> walked X circ g (random_walk e) (p e) (an e)).
    { induction es as [|e0 es (p & an & IH)].
      - destruct (walk_run G Seed RS X circ g steady steady_gentle) as (p & an & _). exists (fun _ => p), (fun _ => an). intros e [].
      - destruct (walk_run G Seed RS X circ g _ (random_gentle e0)) as (p0 & an0 & W).
        assert (D : forall e : bool * bool * bool, {e = e0} + {e <> e0}) by (intros; repeat decide equality).
        exists (fun e => if D e then p0 else p e), (fun e => if D e then an0 else an e). intros e [<-|He].
        + destruct (D e0); [exact W|congruence].
        + destruct (D e) as [->|_]; [exact W|now apply IH]. }
    apply L. }
  destruct K as (p & an & K).
  set (d := fun e f l => ((random_walk e (f + l)%nat - random_walk e f) * (random_walk e (f + l)%nat - random_walk e f))%R).
  set (v := fun e => ((d e 0%nat 1%nat + d e 0%nat 2%nat + d e 1%nat 2%nat) / 3)%R). exists p, an, v.
  assert (F : forall e, In e tosses -> faithful_read Ase circ unit_cell ["Li"; "O"]%string 1%R 4 2 1 (walk (random_walk e)) walk_params (p e)) by (intros e He; apply (K e He)).
  assert (Rn : forall e, In e tosses -> exists t, diffusion_analyzer X (of_parsed (p e)) (demo_boot 1 "xyz") g = Ok (an e, g)
       /\ nth_error (b_dt (an_diff (an e))) 1 = Some t /\ nth_error (b_n (an_diff (an e))) 1 = Some (v e) /\ nth_error (p_intervals (p e)) 1 = Some 2%Z).
  { intros e He. destruct (walked_values X circ g _ _ _ (K e He)) as [_ V]. destruct (K e He) as (_ & E1 & _ & _ & H & Ht). eexists.
    split; [exact H|]. split; [now rewrite Ht|]. split; [exact V|]. now rewrite E1. }
  assert (L1 : forall e, In e tosses -> length (p_indices (p e)) = 1) by (intros e He; destruct (K e He) as (_ & _ & E2 & _); now rewrite E2).
  assert (Mv : forall e c f l, In e tosses -> c < 1 -> f + l < 4 ->
       move_of 2 1 (fun f b => cart unit_cell (walk (random_walk e) f b)) (p_indices (p e)) (p_drift_indices (p e)) c f (f + l) = net (coin_step e) c f l).
  { intros e c f l He Hc Hl. destruct (K e He) as (_ & _ & E2 & E3 & _). rewrite E2, E3. assert (c = 0) by lia. subst c. rewrite walk_move. now apply coin_net. }
  split; [exact tosses_probabilities|]. split; [exact F|]. split; [exact Rn|]. split; [exact L1|]. split; [exact Mv|]. split; [exact coin_independent|]. split; [exact coin_unbiased|].
  split; [exact coin_second|]. split; [exact coin_fourth|]. split.
  - pose proof (C99_walk_proof X tosses eighth (fun e => walk (random_walk e)) p an v Ase circ unit_cell ["Li"; "O"]%string 1%R 4 2 1 walk_params (demo_boot 1 "xyz") all_axes 1 2 1 coin_step coin_moments (1 / 10000)%R
      tosses_probabilities F eq_refl eq_refl names_xyz) as Q. rewrite kept_one in Q.
    specialize (Q ltac:(intros e He; destruct (Rn e He) as (t & Q1); exists g, g, t; exact Q1) ltac:(lia) ltac:(lia) ltac:(lia) L1 Mv coin_independent coin_unbiased coin_second coin_fourth).
    assert (T1 : trace_of all_axes coin_moments = (1 / 100)%R) by (unfold trace_of, all_axes, rsum; cbn; ring).
    assert (T2 : trace_square all_axes coin_moments = (1 / 10000)%R) by (unfold trace_square, all_axes, rsum; cbn; field).
    unfold walk_spread in Q. rewrite T1, T2 in Q. cbn [Nat.sub Nat.add INR] in Q. 
    match type of Q with within_square _ _ _ ?c ?q => replace c with (2 * (1 / 100))%R in Q by field; replace q with (4 / 10000 * 3 / 3 + 1 / 300 * (1 / 300))%R in Q by field end. exact Q.
  - rewrite mean_tosses. unfold v, d. cbn [Nat.add random_walk toss]. lra.
Qed.
