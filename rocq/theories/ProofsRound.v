(** * ProofsRound: C79, mean squared displacements in double precision *)
From Verif Require Import Base ModelParser ModelDiffusion Spec SpecStats SpecDouble SpecUnwrap SpecRun SpecRound Lemmas ProofsDisp ProofsParser ProofsTraj ProofsFloat ProofsUnwrap ProofsBoot ProofsStats.
From Coq Require Import Reals Lra Lia Psatz Permutation.
From Coq.Floats Require Import SpecFloat.
From Flocq Require Import Core.
From Flocq.Prop Require Import Relative Plus_error.
Open Scope Z_scope.

#[local] Instance prec_pos : Prec_gt_0 fprec := eq_refl.

(** ** Relative closeness of nonnegative numbers *)
Definition near (k : nat) (a r : R) : Prop := ((1 - eps) ^ k * r <= a <= (1 + eps) ^ k * r)%R.
Lemma eps_range : (0 < eps < 1)%R.
Proof. unfold eps. split; lra. Qed.
Lemma low_pow k : (0 < (1 - eps) ^ k <= 1)%R.
Proof.
  destruct eps_range. induction k as [|k [I1 I2]]; cbn [pow]; [split; lra|]. split; [apply Rmult_lt_0_compat; lra|].
  nra.
Qed.
Lemma high_pow k : (1 <= (1 + eps) ^ k)%R.
Proof. destruct eps_range. apply pow_R1_Rle. lra. Qed.
Lemma near_refl k r : (0 <= r)%R -> near k r r.
Proof. intros H. pose proof (low_pow k). pose proof (high_pow k). split; nra. Qed.
Lemma near_S k a r : (0 <= r)%R -> near k a r -> near (S k) a r.
Proof.
  intros H [H1 H2]. destruct eps_range. pose proof (low_pow k). pose proof (high_pow k). split; cbn [pow].
  - eapply Rle_trans; [|exact H1]. rewrite Rmult_assoc. assert (0 <= (1 - eps) ^ k * r)%R by (apply Rmult_le_pos; lra). nra.
  - eapply Rle_trans; [exact H2|]. rewrite Rmult_assoc. assert (0 <= (1 + eps) ^ k * r)%R by (apply Rmult_le_pos; lra). nra.
Qed.
Lemma near_le k k' a r : (k <= k')%nat -> (0 <= r)%R -> near k a r -> near k' a r.
Proof. intros H. induction H as [|k' _ IH]; intros Hr N; [exact N|]. apply near_S; auto. Qed.
Lemma near_nonneg k a r : (0 <= r)%R -> near k a r -> (0 <= a)%R.
Proof. intros H [H1 _]. pose proof (low_pow k). eapply Rle_trans; [|exact H1]. apply Rmult_le_pos; lra. Qed.
Lemma near_trans j k a b r : (0 <= r)%R -> near j b a -> near k a r -> near (j + k) b r.
Proof.
  intros H [H1 H2] [H3 H4]. pose proof (low_pow j). pose proof (high_pow j). unfold near. rewrite !pow_add, !Rmult_assoc. split.
  - eapply Rle_trans; [|exact H1]. apply Rmult_le_compat_l; lra.
  - eapply Rle_trans; [exact H2|]. apply Rmult_le_compat_l; lra.
Qed.
Lemma near_add k a b r s : near k a r -> near k b s -> near k (a + b) (r + s).
Proof. intros [? ?] [? ?]. split; rewrite Rmult_plus_distr_l; lra. Qed.
Lemma near_scale k a r c : (0 <= c)%R -> near k a r -> near k (a * c) (r * c).
Proof. intros Hc [? ?]. split; rewrite <- Rmult_assoc; now apply Rmult_le_compat_r. Qed.
Lemma near_rel a r : (0 <= r)%R -> (Rabs (a - r) <= eps * Rabs r)%R -> near 1 a r.
Proof. intros H. rewrite (Rabs_pos_eq r) by exact H. intros K. apply abs_le in K. unfold near. cbn [pow]. split; lra. Qed.
Lemma near_rnd r : (0 <= r)%R -> (r = 0 \/ bpow radix2 (-1022) <= r)%R -> near 1 (rnd r) r.
Proof.
  intros H [->|K]; [rewrite rnd0; now apply near_refl|]. apply near_rel; [exact H|]. apply rel_normal. now rewrite Rabs_pos_eq.
Qed.
Lemma near_rnd_add a b : rep a -> rep b -> (0 <= a)%R -> (0 <= b)%R -> near 1 (rnd (a + b)) (a + b).
Proof.
  intros Ra Rb Ha Hb. destruct (Rle_or_lt (bpow radix2 (-1021)) (a + b)) as [L|L].
  - apply near_rnd; [lra|]. right. eapply Rle_trans; [|exact L]. apply bpow_le. lia.
  - rewrite rnd_rep; [apply near_refl; lra|]. apply FLT_format_plus_small; try assumption; try typeclasses eauto.
    rewrite Rabs_pos_eq by lra. apply Rlt_le. exact L.
Qed.
(** Bernoulli. *)
Lemma low_bound k : (1 - INR k * eps <= (1 - eps) ^ k)%R.
Proof.
  destruct eps_range. induction k as [|k IH]; [cbn; lra|]. rewrite S_INR. cbn [pow]. pose proof (low_pow k). pose proof (pos_INR k).
  apply Rle_trans with ((1 - eps) * (1 - INR k * eps))%R; [|apply Rmult_le_compat_l; lra]. assert (0 <= INR k * (eps * eps))%R by (apply Rmult_le_pos; nra). lra.
Qed.
Lemma high_bound k : (INR k * eps <= / 2)%R -> ((1 + eps) ^ k <= 1 + 2 * INR k * eps)%R.
Proof.
  intros H. destruct eps_range. pose proof (low_bound k). pose proof (pos_INR k).
  assert (P : ((1 + eps) ^ k * (1 - eps) ^ k <= 1)%R).
  { rewrite <- Rpow_mult_distr. replace ((1 + eps) * (1 - eps))%R with (1 - eps * eps)%R by ring.
    assert (Q : (0 <= 1 - eps * eps <= 1)%R) by (split; nra). pose proof (pow_incr _ 1 k Q) as W. now rewrite pow1 in W. }
  pose proof (high_pow k). assert (0 <= INR k * eps)%R by (apply Rmult_le_pos; lra).
  set (t := (INR k * eps)%R) in *. replace (2 * INR k * eps)%R with (2 * t)%R by (unfold t; ring).
  assert ((1 + eps) ^ k * (1 - t) <= 1)%R by nra. nra.
Qed.
Lemma near_abs k a r : (0 <= r)%R -> (INR k * eps <= / 2)%R -> near k a r -> (Rabs (a - r) <= 2 * INR k * eps * r)%R.
Proof.
  intros H Hk [H1 H2]. pose proof (low_bound k). pose proof (high_bound k Hk). destruct eps_range. pose proof (pos_INR k).
  assert (0 <= INR k * eps * r)%R by (apply Rmult_le_pos; [apply Rmult_le_pos|]; lra).
  apply abs_le. split; nra.
Qed.

(** ** Sums in any order *)
Record approx (lo : Z) (k : nat) (M : R) (p : spec_float * R) : Prop := {
  ap_fin : finite_double (fst p);
  ap_pos : (0 <= snd p <= M)%R;
  ap_low : (snd p = 0 \/ bpow radix2 lo <= snd p)%R;
  ap_near : near k (value (fst p)) (snd p) }.
Lemma rsum_range {T} (f : T -> R) M l : (0 <= M)%R -> Forall (fun p => 0 <= f p <= M)%R l -> (0 <= rsum (map f l) <= INR (length l) * M)%R.
Proof.
  intros HM. induction 1 as [|p l [H1 H2] _ [I1 I2]]; cbn [map rsum length]; [cbn; lra|]. rewrite S_INR. split; lra.
Qed.
Lemma approx_range lo k M ps : (0 <= M)%R -> Forall (approx lo k M) ps -> (0 <= rsum (map snd ps) <= INR (length ps) * M)%R.
Proof. intros HM H. apply rsum_range; [exact HM|]. eapply Forall_impl; [|exact H]. intros p. apply ap_pos. Qed.
Lemma rsum_low lo l : Forall (fun r => 0 <= r /\ (r = 0 \/ bpow radix2 lo <= r))%R l -> (rsum l = 0 \/ bpow radix2 lo <= rsum l)%R.
Proof.
  intros H. assert (P : (0 <= rsum l)%R) by (induction H as [|r l [? _] _ IH]; cbn [rsum]; lra).
  induction H as [|r l [H1 [->|H2]] F IH]; cbn [rsum] in *; [now left| |].
  - rewrite Rplus_0_l in *. apply IH. exact P.
  - right. assert (0 <= rsum l)%R by (clear - F; induction F as [|? ? [? _] _ ?]; cbn [rsum]; lra). lra.
Qed.
Lemma approx_low lo k M ps : Forall (approx lo k M) ps -> (rsum (map snd ps) = 0 \/ bpow radix2 lo <= rsum (map snd ps))%R.
Proof.
  intros H. apply rsum_low. apply Forall_map. eapply Forall_impl; [|exact H]. intros p [_ ? ? _]. split; [lra|assumption].
Qed.
Lemma near_double k a r : (0 <= r)%R -> (INR k * eps <= / 2)%R -> near k a r -> (a <= 2 * r)%R.
Proof. intros H Hk [_ H2]. eapply Rle_trans; [exact H2|]. apply Rmult_le_compat_r; [exact H|]. pose proof (high_bound k Hk). lra. Qed.
Lemma sum_near lo k M : (0 <= M)%R -> forall h l s, sum_of h l s -> forall ps, l = map fst ps -> Forall (approx lo k M) ps ->
  (INR (h + k) * eps <= / 2)%R -> (2 * INR (length ps) * M <= bpow radix2 1000)%R ->
  finite_double s /\ near (h + k) (value s) (rsum (map snd ps)).
Proof.
  intros HM h l s S. induction S as [h|h x|h l l' s s' _ IH1 _ IH2|h l l' s P _ IH]; intros ps El Hps Hk Hb.
  - symmetry in El. apply map_eq_nil in El. subst ps. split; [apply zero_fv|]. cbn. apply near_refl. lra.
  - destruct ps as [|p [|p' ps]]; try discriminate. injection El as ->. apply Forall_inv in Hps. destruct Hps as [F P _ N].
    split; [exact F|]. cbn [map rsum]. rewrite Rplus_0_r. apply near_le with k; [lia|lra|exact N].
  - symmetry in El. apply map_eq_app in El as (ps1 & ps2 & -> & E1 & E2). apply Forall_app in Hps as [H1 H2].
    rewrite app_length, plus_INR in Hb. destruct (approx_range _ _ _ _ HM H1) as [A1 B1]. destruct (approx_range _ _ _ _ HM H2) as [A2 B2].
    pose proof (pos_INR (length ps1)) as L1. pose proof (pos_INR (length ps2)) as L2.
    assert (0 <= INR (length ps1) * M)%R by now apply Rmult_le_pos. assert (0 <= INR (length ps2) * M)%R by now apply Rmult_le_pos.
    assert (Hk' : (INR (h + k) * eps <= / 2)%R). { destruct eps_range. cbn [Nat.add] in Hk. rewrite S_INR in Hk. lra. }
    destruct (IH1 ps1 (eq_sym E1) H1 Hk') as [F1 N1]; [lra|]. destruct (IH2 ps2 (eq_sym E2) H2 Hk') as [F2 N2]; [lra|].
    pose proof (near_nonneg _ _ _ A1 N1) as P1. pose proof (near_nonneg _ _ _ A2 N2) as P2.
    pose proof (near_double _ _ _ A1 Hk' N1) as Q1. pose proof (near_double _ _ _ A2 Hk' N2) as Q2.
    destruct (fv_add s s' _ _ (fv_self _ F1) (fv_self _ F2)) as [F E]; [rewrite Rabs_pos_eq by lra; lra|].
    change 53 with fprec. change 1024 with femax. split; [exact F|]. rewrite E, map_app, rsum_app.
    change (S h + k)%nat with (1 + (h + k))%nat. apply near_trans with (value s + value s')%R; [lra| |now apply near_add].
    apply near_rnd_add; try assumption; now apply finite_rep.
  - subst l'. apply Permutation_map_inv in P as (ps' & -> & P).
    destruct (IH ps' eq_refl) as [F N].
    + rewrite Forall_forall in *. intros p Hp. apply Hps. eapply Permutation_in; [symmetry; exact P|exact Hp].
    + exact Hk.
    + now rewrite <- (Permutation_length P).
    + split; [exact F|]. rewrite (rsum_perm (map snd ps) (map snd ps')); [exact N|]. now apply Permutation_map.
Qed.
Lemma sum_weaken h l s : sum_of h l s -> forall h', (h <= h')%nat -> sum_of h' l s.
Proof.
  induction 1 as [h|h x|h l l' s s' _ IH1 _ IH2|h l l' s P _ IH]; intros h' H.
  - constructor.
  - constructor.
  - destruct h' as [|h']; [lia|]. constructor; [apply IH1|apply IH2]; lia.
  - eapply by_order; [exact P|]. now apply IH.
Qed.
Lemma fold_sum l : forall h l0 s, sum_of h l0 s -> sum_of (h + length l) (l0 ++ l)%list (fold_left nadd l s).
Proof.
  induction l as [|x l IH]; intros h l0 s H; cbn [fold_left length].
  - now rewrite app_nil_r, Nat.add_0_r.
  - replace (l0 ++ x :: l)%list with ((l0 ++ [x]) ++ l)%list by now rewrite <- app_assoc.
    replace (h + S (length l))%nat with (S h + length l)%nat by lia. apply IH. apply (by_plus h l0 [x]); [exact H|constructor].
Qed.
Lemma nsum_sum (l : list spec_float) : sum_of (length l) l (nsum l).
Proof. apply (fold_sum l 0 []). constructor. Qed.

(** ** Squares, squared lengths and their mean *)
Definition sized (e : Z) (x : spec_float) : Prop :=
  finite_double x /\ (value x = 0 \/ bpow radix2 (- e) <= Rabs (value x) <= bpow radix2 e)%R.
Lemma moderate_sized x : moderate x -> sized 300 x.
Proof. intros [F H]. split; [exact F|]. now rewrite !(bpow_powerRZ radix2). Qed.
Lemma square_near e x : 0 <= e <= 300 -> sized e x -> approx (- e + - e) 1 (bpow radix2 (e + e)) (SFmul fprec femax x x, (value x * value x)%R).
Proof.
  intros He [F H]. assert (P : (0 <= value x * value x)%R) by apply Rle_0_sqr.
  assert (U : (value x * value x <= bpow radix2 (e + e))%R /\ (value x * value x = 0 \/ bpow radix2 (- e + - e) <= value x * value x)%R).
  { destruct H as [->|H].
    - rewrite Rmult_0_l. split; [apply bpow_ge_0|now left].
    - rewrite !bpow_plus.
      rewrite <- (Rabs_pos_eq (value x * value x)), Rabs_mult by exact P. pose proof (bpow_ge_0 radix2 (- e)). pose proof (bpow_ge_0 radix2 e).
      split; [|right]; apply Rmult_le_compat; try lra; apply Rabs_pos. }
  destruct U as [U L]. destruct (fv_mul x x _ _ (fv_self _ F) (fv_self _ F)) as [F' E].
  { rewrite Rabs_pos_eq by exact P. eapply Rle_trans; [exact U|]. apply bpow_le. lia. }
  constructor; cbn [fst snd]; [exact F'|lra|exact L|]. rewrite E. apply near_rnd; [exact P|]. destruct L as [L|L]; [now left|right].
  eapply Rle_trans; [|exact L]. apply bpow_le. lia.
Qed.
Lemma coord_values v a : coord (values3 v) a = value (part v a).
Proof. now destruct a. Qed.
Lemma tiny_index k : (INR k <= 1125899906842640)%R -> (INR k * eps <= / 2)%R.
Proof. intros H. unfold eps. lra. Qed.
Lemma computed_square_near e axes v x : 0 <= e <= 300 -> (length axes <= 3)%nat -> (forall i, sized e (part v i)) -> computed_square axes v x ->
  approx (- e + - e) 4 (3 * bpow radix2 (e + e)) (x, sqlen axes (values3 v)).
Proof.
  intros He L H C. pose (ps := map (fun a => (SFmul fprec femax (part v a) (part v a), (value (part v a) * value (part v a))%R)) axes).
  assert (Hps : Forall (approx (- e + - e) 1 (bpow radix2 (e + e))) ps).
  { unfold ps. apply Forall_forall. intros p Hp. apply in_map_iff in Hp as (a & <- & _). apply square_near, H. exact He. }
  assert (ES : rsum (map snd ps) = sqlen axes (values3 v)).
  { unfold ps, sqlen. rewrite map_map. cbn [snd]. f_equal. apply map_ext. intros a. now rewrite coord_values. }
  assert (LP : (INR (length ps) <= 3)%R). { unfold ps. rewrite map_length. change 3%R with (IZR (Z.of_nat 3)). rewrite <- INR_IZR_INZ. now apply le_INR. }
  pose proof (bpow_ge_0 radix2 (e + e)) as B0.
  destruct (sum_near (- e + - e) 1 (bpow radix2 (e + e)) B0 3 _ x C ps) as [F N].
  - unfold ps. rewrite map_map. reflexivity.
  - exact Hps.
  - apply tiny_index. cbn. lra.
  - apply Rle_trans with (bpow radix2 3 * bpow radix2 (e + e))%R; [|rewrite <- bpow_plus; apply bpow_le; lia].
    apply Rmult_le_compat_r; [exact B0|]. change (bpow radix2 3) with 8%R. lra.
  - destruct (approx_range _ _ _ _ B0 Hps) as [A1 A2]. rewrite ES in *. constructor; cbn [fst snd]; [exact F| |rewrite <- ES; exact (approx_low _ _ _ _ Hps)|exact N]. split; [exact A1|].
    eapply Rle_trans; [exact A2|]. now apply Rmult_le_compat_r.
Qed.

Lemma C79_any_order_proof axes (d : Arr spec_float) xs h s : (length axes <= 3)%nat -> moderate_displacements d ->
  entries d <> [] -> Z.of_nat (length (entries d)) <= 2 ^ 50 -> Z.of_nat h <= 2 ^ 50 ->
  Forall2 (computed_square axes) (entries d) xs -> sum_of h xs s ->
  accurate (INR h + 5) (SFdiv 53 1024 s (SFofZ (Z.of_nat (length (entries d))))) (msd_of axes (values d)).
Proof.
  intros L MD NE Hn Hh HX HS.
  assert (MV : Forall (fun v => forall i, moderate (part v i)) (entries d)). { unfold entries. now apply Forall_concat. }
  set (M := (3 * bpow radix2 600)%R). assert (HM : (0 <= M)%R) by (unfold M; pose proof (bpow_ge_0 radix2 600); lra).
  assert (EV : entries (values d) = map values3 (entries d)). { unfold entries, values. cbn [a_rows]. symmetry. apply concat_map. }
  assert (HP : exists ps, xs = map fst ps /\ map snd ps = map (sqlen axes) (entries (values d)) /\ Forall (approx (-600) 4 M) ps).
  { rewrite EV. clear - L MV HX. induction HX as [|v x vs xs C _ IH]; [exists []; repeat split; constructor|].
    inversion MV as [|? ? M1 M2]; subst. destruct (IH M2) as (ps & -> & E2 & F). exists ((x, sqlen axes (values3 v)) :: ps).
    cbn [map fst snd]. rewrite E2. repeat split. constructor; [apply (computed_square_near 300); [lia|exact L|intros i; apply moderate_sized, M1|exact C]|exact F]. }
  destruct HP as (ps & -> & E2 & F).
  assert (LP : length ps = length (entries d)). { rewrite <- (map_length snd ps), E2, EV, !map_length. reflexivity. }
  set (n := length (entries d)) in *. assert (Hn' : (INR n <= bpow radix2 50)%R). { rewrite INR_IZR_INZ. change (bpow radix2 50) with (IZR (2 ^ 50)). now apply IZR_le. }
  assert (Hh' : (INR h <= 1125899906842624)%R). { rewrite INR_IZR_INZ. change 1125899906842624%R with (IZR (2 ^ 50)). now apply IZR_le. }
  assert (N1 : (1 <= INR n)%R). { change 1%R with (INR 1). apply le_INR. unfold n. destruct (entries d); [congruence|cbn; lia]. }
  assert (B : (2 * INR (length ps) * M <= bpow radix2 1000)%R).
  { rewrite LP. apply Rle_trans with (bpow radix2 3 * bpow radix2 50 * bpow radix2 600)%R; [|rewrite <- !bpow_plus; apply bpow_le; lia].
    unfold M. rewrite <- Rmult_assoc. apply Rmult_le_compat_r; [apply bpow_ge_0|]. change (bpow radix2 3) with 8%R. lra. }
  destruct (sum_near (-600) 4 M HM h _ s HS ps eq_refl F) as [Fs Ns].
  - apply tiny_index. rewrite plus_INR. cbn [INR]. lra.
  - exact B.
  - destruct (approx_range _ _ _ _ HM F) as [A1 A2]. assert (K4 : (INR (h + 4) * eps <= / 2)%R) by (apply tiny_index; rewrite plus_INR; cbn [INR]; lra).
    pose proof (near_double _ _ _ A1 K4 Ns) as DB. pose proof (near_nonneg _ _ _ A1 Ns) as P0.
    destruct (ofZ_small (Z.of_nat n)) as [FZ EZ]; [lia|]. rewrite <- INR_IZR_INZ in EZ.
    assert (IN : (0 < / INR n <= 1)%R). { split; [apply Rinv_0_lt_compat; lra|]. rewrite <- Rinv_1. apply Rinv_le_contravar; lra. }
    assert (Q0 : (0 <= value s / INR n)%R) by (apply Rmult_le_pos; lra).
    destruct (fv_div s (SFofZ (Z.of_nat n)) _ _ (fv_self _ Fs) (conj FZ EZ)) as [Fq Eq]; [lra| |].
    { rewrite Rabs_pos_eq by exact Q0. apply Rle_trans with (value s); [|lra]. unfold Rdiv. rewrite <- (Rmult_1_r (value s)) at 2. apply Rmult_le_compat_l; lra. }
    assert (EM : msd_of axes (values d) = (rsum (map snd ps) / INR n)%R).
    { unfold msd_of, average. rewrite <- E2, map_length, LP. reflexivity. }
    assert (MP : (0 <= msd_of axes (values d))%R) by (rewrite EM; apply Rmult_le_pos; lra).
    split; [exact Fq|]. change 53 with fprec. change 1024 with femax. rewrite Eq.
    replace ((INR h + 5) * / 2 ^ 52)%R with (2 * INR (1 + (h + 4)) * eps)%R.
    2:{ rewrite !plus_INR. cbn [INR]. rewrite <- eps_pow. change (2 ^ 53)%R with (2 * 2 ^ 52)%R. field. }
    apply near_abs; [exact MP|apply tiny_index; rewrite !plus_INR; cbn [INR]; lra|].
    assert (NQ : near (h + 4) (value s / INR n) (msd_of axes (values d))). { rewrite EM. apply near_scale; [lra|exact Ns]. }
    apply near_trans with (value s / INR n)%R; [exact MP| |exact NQ]. apply near_rnd; [exact Q0|].
    (* the quotient is zero or normal *)
    destruct (approx_low _ _ _ _ F) as [Z|Z].
    + left. destruct Ns as [_ Ns]. rewrite Z, Rmult_0_r in Ns. replace (value s) with 0%R by lra. unfold Rdiv. now rewrite Rmult_0_l.
    + right. destruct Ns as [Ns _]. pose proof (low_bound (h + 4)) as LB.
      assert (V : (bpow radix2 (-601) <= value s)%R).
      { eapply Rle_trans; [|exact Ns]. change (-601) with (-1 + -600). rewrite bpow_plus. apply Rmult_le_compat; try apply bpow_ge_0; [|exact Z].
        change (bpow radix2 (-1)) with (/ 2)%R. lra. }
      apply Rle_trans with (bpow radix2 (-601) * bpow radix2 (-50))%R; [rewrite <- bpow_plus; apply bpow_le; lia|].
      apply Rmult_le_compat; try apply bpow_ge_0; [exact V|]. change (-50) with (- (50)). rewrite bpow_opp. apply Rinv_le_contravar; lra.
Qed.

(** ** The statistics code at double precision *)
Lemma coord_inj axes : forall axes', (forall v : V3 R, map (coord v) axes = map (coord v) axes') -> axes = axes'.
Proof.
  induction axes as [|a axes IH]; intros [|a' axes'] H; [reflexivity|specialize (H (mkV 0 1 2)%R); discriminate|specialize (H (mkV 0 1 2)%R); discriminate|].
  f_equal.
  - specialize (H (mkV 0 1 2)%R). injection H as H _. destruct a, a'; cbn in H; try reflexivity; lra.
  - apply IH. intros v. specialize (H v). now injection H.
Qed.
Lemma dimension_parts {A} d : forall sl, dict_get (pystr_lower d) DIMENSIONALITY = Ok sl ->
  exists axes, names (pystr_text d) axes /\ (length axes <= 3)%nat /\ forall v : V3 A, apply_slice sl (components v) = Ok (map (part v) axes).
Proof.
  intros sl H. destruct (dimension_lookup d) as [(axes & sl' & N & D & S & _)|[_ D]]; [|congruence].
  assert (sl' = sl) by congruence. subst sl'. exists axes. split; [exact N|].
  assert (T : exists axes', In (axes', sl) axes_table).
  { destruct d as [s|s]; cbn [pystr_lower] in H.
    - destruct (dict_get_axes s PyStr (or_introl eq_refl)) as [(ax & sl' & I & _ & E)|[_ E]]; [|congruence]. exists ax. congruence.
    - destruct (dict_get_axes s PyBytes (or_intror eq_refl)) as [(ax & sl' & I & _ & E)|[_ E]]; [|congruence]. exists ax. congruence. }
  destruct T as [axes' T]. pose proof axes_table_ok as TO. rewrite Forall_forall in TO. specialize (TO _ T). cbn [fst snd] in TO.
  assert (axes = axes'). { apply coord_inj. intros v. specialize (S v). specialize (TO v). congruence. } subst axes'.
  repeat (destruct T as [T|T]; [injection T as <- <-; split; [cbn; lia|intros v; reflexivity]|]). destruct T.
Qed.
Lemma disp_slice_parts {A} sl axes (d : Arr A) : (forall v : V3 A, apply_slice sl (components v) = Ok (map (part v) axes)) ->
  disp_slice sl d = Ok (map (map (fun v => map (part v) axes)) (a_rows d)).
Proof.
  intros H. unfold disp_slice. apply mapM_total. intros row _. unfold slice_row. apply mapM_total. intros v _. apply H.
Qed.
Section Loop.
  Context {A : Type} {NA : Num A} {G Seed RS : Type} (X : Ext A G Seed RS).
  Definition lengths2 (axes : list axis) (d : Arr A) : list A := map (fun v => sq_norm (map (part v) axes)) (entries d).
  Lemma d_squared_parts axes (d : Arr A) : d_squared (map (map (fun v => map (part v) axes)) (a_rows d)) = lengths2 axes d.
  Proof.
    unfold d_squared, lengths2, entries. rewrite map_map, concat_map. f_equal. apply map_ext. intros row. now rewrite map_map.
  Qed.
  Definition several (d : Arr A) : bool := negb (length (entries d) <=? 1)%nat.
  Lemma msd_loop_n u ns n_o sl axes : (forall v : V3 A, apply_slice sl (components v) = Ok (map (part v) axes)) -> u_block u = false ->
    forall ds i b g b' g', b_slice b = sl -> boot_loop X u (fun _ q => Ok (d_squared q)) ns n_o i ds b g = Ok (b', g') ->
    b_n b' = (b_n b ++ map (fun d => nmean (lengths2 axes d)) (filter several ds))%list.
  Proof.
    intros HS HB. induction ds as [|d ds IH]; intros i b g b' g' Sl H; cbn [boot_loop] in H.
    - injection H as <- _. cbn. now rewrite app_nil_r.
    - inv_bind H p E. destruct p as [b1 g1]. unfold boot_step in E. rewrite Sl, (disp_slice_parts _ _ d HS) in E.
      cbn beta iota delta [bind] in E; rewrite d_squared_parts in E. cbn [filter]. unfold several at 1.
      assert (LL : length (lengths2 axes d) = length (entries d)) by apply map_length. rewrite LL in E.
      destruct (length (entries d) <=? 1)%nat; cbn [negb].
      + injection E as <- <-. exact (IH _ _ _ _ _ Sl H).
      + rewrite HB in E. inv_bind E p E1. destruct p as [bo g2]. inv_bind E p E2. destruct p as [n v]. inv_bind E2 no E3. injection E2 as <- <-.
        inv_bind E vi E4. inv_bind E dt E5. injection E as <- <-. apply IH in H; [|exact Sl]. rewrite H. cbn [push_results b_n map]. now rewrite <- app_assoc.
  Qed.
  Lemma msd_means u dts disps n_o g b g' : 0 < u_sub_sample_dt u -> u_block u = false ->
    msd_bootstrap X u dts disps n_o g = Ok (b, g') ->
    exists axes used, names (pystr_text (u_dimension u)) axes /\ (length axes <= 3)%nat /\ sub_sample (Z.to_nat (u_sub_sample_dt u)) disps used
      /\ b_n b = map (fun d => nmean (lengths2 axes d)) (filter several used).
  Proof.
    intros Hk HB H. unfold msd_bootstrap in H. inv_bind H b0 E. inv_bind H p E1. destruct p as [b1 g1]. injection H as <- _.
    unfold bootstrap_init in E. inv_bind E ds D1. inv_bind E ts D2. inv_bind E d0 D3. inv_bind E sl D4. injection E as <-.
    destruct (dimension_parts (A := A) _ _ D4) as (axes & N & L & S). exists axes, ds. split; [exact N|]. split; [exact L|]. split; [now apply stride_sub|].
    cbn [b_displacements] in E1. apply (msd_loop_n u _ _ sl axes S HB) in E1; [|reflexivity]. exact E1.
  Qed.
End Loop.
Lemma forall_sub_sample {T} (P : T -> Prop) k l l' : sub_sample k l l' -> Forall P l -> Forall P l'.
Proof.
  intros S H. rewrite Forall_forall in *. intros x Hx. apply In_nth_error in Hx as [i Hi]. rewrite S in Hi. apply H. eapply nth_error_In; exact Hi.
Qed.
Lemma C79_mean_proof axes (d : Arr spec_float) : (length axes <= 3)%nat -> moderate_displacements d ->
  entries d <> [] -> Z.of_nat (length (entries d)) <= 2 ^ 50 ->
  accurate (INR (length (entries d)) + 5) (nmean (lengths2 axes d)) (msd_of axes (values d)).
Proof.
  intros L MD NE Hn. unfold nmean. assert (LL : length (lengths2 axes d) = length (entries d)) by apply map_length. rewrite LL.
  apply (C79_any_order_proof axes d (lengths2 axes d)); auto.
  - unfold lengths2. clear - L. induction (entries d) as [|v l IH]; cbn [map]; constructor; [|exact IH]. unfold computed_square, sq_norm. rewrite map_map.
    eapply sum_weaken; [apply nsum_sum|]. rewrite map_length. exact L.
  - rewrite <- LL. apply nsum_sum.
Qed.
Lemma C79_msd_proof {G Seed RS} (X : Ext spec_float G Seed RS) u dts disps n_o g b g' : 0 < u_sub_sample_dt u -> u_block u = false ->
  Forall moderate_displacements disps -> Forall (fun d => Z.of_nat (length (entries d)) <= 2 ^ 50) disps ->
  msd_bootstrap X u dts disps n_o g = Ok (b, g') ->
  exists axes used, names (pystr_text (u_dimension u)) axes /\ sub_sample (Z.to_nat (u_sub_sample_dt u)) disps used
    /\ Forall2 (fun d m => accurate (INR (length (entries d)) + 5) m (msd_of axes (values d)))
         (filter (fun d => (1 <? length (entries d))%nat) used) (b_n b).
Proof.
  intros Hk HB HM HN H. destruct (msd_means X u dts disps n_o g b g' Hk HB H) as (axes & used & N & L & S & E).
  exists axes, used. split; [exact N|]. split; [exact S|]. rewrite E.
  assert (EF : filter several used = filter (fun d : Arr spec_float => (1 <? length (entries d))%nat) used).
  { apply filter_ext. intros d. unfold several. now rewrite <- Nat.ltb_antisym. }
  rewrite EF. apply (forall_sub_sample _ _ _ _ S) in HM. apply (forall_sub_sample _ _ _ _ S) in HN. clear - L HM HN.
  induction used as [|d ds IH]; cbn [filter]; [constructor|]. inversion HM; inversion HN; subst. destruct (1 <? length (entries d))%nat eqn:E; cbn [map]; [|now apply IH].
  constructor; [|now apply IH]. apply C79_mean_proof; try assumption. intros Z. rewrite Z in E. discriminate.
Qed.

(** ** Examples *)
Definition rounding_demo : Arr spec_float :=
  mkArr 2 [[mkV (SFofZ 1) (SFofZ 0) (SFofZ (-2)); mkV (SFofZ 3) (SFofZ 1) (SFofZ 1)]; [mkV (SFofZ 0) (SFofZ 2) (SFofZ 1); mkV (SFofZ 1) (SFofZ 1) (SFofZ 1)]].
Lemma moderate_int z : Z.abs z <= 8 -> moderate (SFofZ z).
Proof.
  intros H. destruct (ofZ_small z) as [F E]; [lia|]. split; [exact F|]. rewrite E. destruct (Z.eq_dec z 0) as [->|N]; [now left|right].
  rewrite <- !(bpow_powerRZ radix2), <- abs_IZR. split.
  - apply Rle_trans with 1%R; [change 1%R with (bpow radix2 0); apply bpow_le; lia|]. apply IZR_le. lia.
  - apply Rle_trans with (IZR 8); [now apply IZR_le|]. change (IZR 8) with (bpow radix2 3). apply bpow_le. lia.
Qed.
Lemma rounding_demo_ok : moderate_displacements rounding_demo.
Proof. unfold moderate_displacements, rounding_demo. cbn [a_rows]. repeat first [apply Forall_nil|apply Forall_cons]; intros []; apply moderate_int; cbn; lia. Qed.
Lemma C79_example_proof {G Seed RS} (X : Ext spec_float G Seed RS) (g : G) :
  exists b, msd_bootstrap X (mkBootParams 1 false false 0 0 (PyStr "xz") (SFofZ 0)) [SFofZ 1] [rounding_demo] [SFofZ 4] g = Ok (b, g)
    /\ b_n b = [S754_finite false 5066549580791808 (-50)].
Proof. eexists. split; reflexivity. Qed.
