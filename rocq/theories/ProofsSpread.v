(** * ProofsSpread: C80, variances and non-Gaussian parameters in double precision *)
From Verif Require Import Base ModelParser ModelDiffusion Spec SpecStats SpecDouble SpecUnwrap SpecRun SpecRound Lemmas ProofsDisp ProofsParser ProofsTraj ProofsFloat ProofsUnwrap ProofsBoot ProofsStats ProofsRound.
From Coq Require Import Reals Lra Lia Psatz Permutation.
From Coq.Floats Require Import SpecFloat.
From Flocq Require Import Core.
From Flocq.Prop Require Import Relative Plus_error.
Open Scope Z_scope.

#[local] Instance prec_pos : Prec_gt_0 fprec := eq_refl.

(** ** More closeness *)
Lemma near_mul j k a b r s : (0 <= r)%R -> (0 <= s)%R -> near j a r -> near k b s -> near (j + k) (a * b) (r * s).
Proof.
  intros Hr Hs Nj Nk. pose proof (near_nonneg _ _ _ Hr Nj). pose proof (near_nonneg _ _ _ Hs Nk). destruct Nj as [A1 A2], Nk as [B1 B2].
  unfold near. rewrite !pow_add. pose proof (low_pow j). pose proof (low_pow k).
  split.
  - replace ((1 - eps) ^ j * (1 - eps) ^ k * (r * s))%R with (((1 - eps) ^ j * r) * ((1 - eps) ^ k * s))%R by ring.
    apply Rmult_le_compat; try assumption; apply Rmult_le_pos; lra.
  - replace ((1 + eps) ^ j * (1 + eps) ^ k * (r * s))%R with (((1 + eps) ^ j * r) * ((1 + eps) ^ k * s))%R by ring.
    apply Rmult_le_compat; assumption.
Qed.
Lemma near_pos k a r : (0 < r)%R -> near k a r -> (0 < a)%R.
Proof. intros H [A _]. pose proof (low_pow k). eapply Rlt_le_trans; [|exact A]. apply Rmult_lt_0_compat; lra. Qed.
Lemma near_inv k b s : (0 < s)%R -> near k b s -> near (2 * k) (/ b) (/ s).
Proof.
  intros Hs N. pose proof (near_pos _ _ _ Hs N) as Pb. destruct N as [B1 B2]. pose proof eps_range as [E0 E1].
  assert (E2 : (eps < / 2)%R) by (unfold eps; lra). pose proof (low_pow k) as [L0 L1]. pose proof (high_pow k) as H1.
  assert (I1 : ((1 - eps) ^ (2 * k) * (1 + eps) ^ k <= 1)%R).
  { rewrite pow_mult, <- Rpow_mult_distr. assert (Q : (0 <= (1 - eps) ^ 2 * (1 + eps) <= 1)%R).
    { cbn [pow]. split; [nra|]. assert (0 <= eps * eps)%R by nra. nra. }
    pose proof (pow_incr _ 1 k Q) as W. now rewrite pow1 in W. }
  assert (I2 : (1 <= (1 + eps) ^ (2 * k) * (1 - eps) ^ k)%R).
  { rewrite pow_mult, <- Rpow_mult_distr. apply pow_R1_Rle. cbn [pow]. assert (eps * eps <= eps * / 2)%R by nra. nra. }
  unfold near. split.
  - apply Rmult_le_reg_r with (b * s)%R; [now apply Rmult_lt_0_compat|]. replace (/ b * (b * s))%R with s by (field; lra).
    replace ((1 - eps) ^ (2 * k) * / s * (b * s))%R with ((1 - eps) ^ (2 * k) * b)%R by (field; lra).
    pose proof (low_pow (2 * k)). apply Rle_trans with ((1 - eps) ^ (2 * k) * ((1 + eps) ^ k * s))%R; [apply Rmult_le_compat_l; lra|].
    rewrite <- Rmult_assoc. rewrite <- (Rmult_1_l s) at 2. apply Rmult_le_compat_r; lra.
  - apply Rmult_le_reg_r with (b * s)%R; [now apply Rmult_lt_0_compat|]. replace (/ b * (b * s))%R with s by (field; lra).
    replace ((1 + eps) ^ (2 * k) * / s * (b * s))%R with ((1 + eps) ^ (2 * k) * b)%R by (field; lra).
    pose proof (high_pow (2 * k)). apply Rle_trans with ((1 + eps) ^ (2 * k) * ((1 - eps) ^ k * s))%R; [|apply Rmult_le_compat_l; lra].
    rewrite <- Rmult_assoc. rewrite <- (Rmult_1_l s) at 1. apply Rmult_le_compat_r; lra.
Qed.
Lemma near_div j k a b r s : (0 <= r)%R -> (0 < s)%R -> near j a r -> near k b s -> near (j + 2 * k) (a / b) (r / s).
Proof. intros Hr Hs Na Nb. apply near_mul; [exact Hr|left; now apply Rinv_0_lt_compat|exact Na|now apply near_inv]. Qed.
Lemma near_half k a r : (0 <= r)%R -> (INR k * eps <= / 2)%R -> near k a r -> (/ 2 * r <= a)%R.
Proof. intros H Hk [A _]. eapply Rle_trans; [|exact A]. apply Rmult_le_compat_r; [exact H|]. pose proof (low_bound k). lra. Qed.
Lemma small_index k : (INR k <= 4503599627370496)%R -> (INR k * eps <= / 2)%R.
Proof. intros H. unfold eps. lra. Qed.

(** ** Means *)
Lemma average_range lo k M ps : (0 <= M)%R -> ps <> [] -> Forall (approx lo k M) ps -> (0 <= average (map snd ps) <= M)%R.
Proof.
  intros HM NE F. destruct (approx_range _ _ _ _ HM F) as [A1 A2]. unfold average. rewrite map_length.
  assert (N1 : (1 <= INR (length ps))%R). { change 1%R with (INR 1). apply le_INR. destruct ps; [congruence|cbn; lia]. }
  assert (0 < / INR (length ps))%R by (apply Rinv_0_lt_compat; lra). split; [apply Rmult_le_pos; lra|].
  apply Rmult_le_reg_r with (INR (length ps)); [lra|]. unfold Rdiv. rewrite Rmult_assoc, Rinv_l by lra. lra.
Qed.
Lemma mean_near lo k M (ps : list (spec_float * R)) h s : (0 <= M)%R -> -900 <= lo -> ps <> [] -> Z.of_nat (length ps) <= 2 ^ 40 ->
  Forall (approx lo k M) ps -> sum_of h (map fst ps) s -> (INR (h + k) <= 1125899906842640)%R -> (M <= bpow radix2 900)%R ->
  approx (lo - 40) (S (h + k)) M (SFdiv 53 1024 s (SFofZ (Z.of_nat (length ps))), average (map snd ps)).
Proof.
  intros HM Hlo NE Hn F HS Hk MB. set (n := length ps) in *.
  assert (Hn' : (INR n <= bpow radix2 40)%R). { rewrite INR_IZR_INZ. change (bpow radix2 40) with (IZR (2 ^ 40)). now apply IZR_le. }
  assert (N1 : (1 <= INR n)%R). { change 1%R with (INR 1). apply le_INR. unfold n. destruct ps; [congruence|cbn; lia]. }
  assert (B : (2 * INR n * M <= bpow radix2 1000)%R).
  { apply Rle_trans with (bpow radix2 1 * bpow radix2 40 * bpow radix2 900)%R; [|rewrite <- !bpow_plus; apply bpow_le; lia].
    change (bpow radix2 1) with 2%R. apply Rmult_le_compat; lra. }
  pose proof (tiny_index _ Hk) as K.
  destruct (sum_near lo k M HM h _ s HS ps eq_refl F K B) as [Fs Ns].
  destruct (approx_range _ _ _ _ HM F) as [A1 A2]. fold n in A2.
  pose proof (near_double _ _ _ A1 K Ns) as DB. pose proof (near_nonneg _ _ _ A1 Ns) as P0.
  destruct (ofZ_small (Z.of_nat n)) as [FZ EZ]; [lia|]. rewrite <- INR_IZR_INZ in EZ.
  assert (IN : (0 < / INR n <= 1)%R). { split; [apply Rinv_0_lt_compat; lra|]. rewrite <- Rinv_1. apply Rinv_le_contravar; lra. }
  assert (IL : (bpow radix2 (-40) <= / INR n)%R). { change (-40) with (- (40)). rewrite bpow_opp. apply Rinv_le_contravar; lra. }
  assert (Q0 : (0 <= value s / INR n)%R) by (apply Rmult_le_pos; lra).
  destruct (fv_div s (SFofZ (Z.of_nat n)) _ _ (fv_self _ Fs) (conj FZ EZ)) as [Fq Eq]; [lra| |].
  { rewrite Rabs_pos_eq by exact Q0. apply Rle_trans with (value s); [|lra]. unfold Rdiv. rewrite <- (Rmult_1_r (value s)) at 2. apply Rmult_le_compat_l; lra. }
  assert (EM : average (map snd ps) = (rsum (map snd ps) / INR n)%R) by (unfold average; now rewrite map_length).
  constructor; cbn [fst snd].
  - exact Fq.
  - exact (average_range _ _ _ _ HM NE F).
  - rewrite EM. destruct (approx_low _ _ _ _ F) as [Z|Z]; [left; rewrite Z; unfold Rdiv; now rewrite Rmult_0_l|right].
    replace (lo - 40) with (lo + -40) by lia. rewrite bpow_plus. apply Rmult_le_compat; try apply bpow_ge_0; assumption.
  - change 53 with fprec. change 1024 with femax. rewrite Eq, EM. change (S (h + k)) with (1 + (h + k))%nat.
    apply near_trans with (value s / INR n)%R; [apply Rmult_le_pos; lra| |apply near_scale; [lra|exact Ns]]. apply near_rnd; [exact Q0|].
    destruct (approx_low _ _ _ _ F) as [Z|Z].
    + left. destruct Ns as [_ Ns]. rewrite Z, Rmult_0_r in Ns. replace (value s) with 0%R by lra. unfold Rdiv. now rewrite Rmult_0_l.
    + right. pose proof (near_half _ _ _ A1 K Ns) as V.
      apply Rle_trans with (bpow radix2 (-1) * bpow radix2 lo * bpow radix2 (-40))%R; [rewrite <- !bpow_plus; apply bpow_le; lia|].
      apply Rmult_le_compat; try apply bpow_ge_0; [apply Rmult_le_pos; apply bpow_ge_0| |exact IL]. change (bpow radix2 (-1)) with (/ 2)%R. lra.
Qed.
Lemma approx_mul lo lo' j k M N x y r s : (M * N <= bpow radix2 990)%R -> -1000 <= lo + lo' -> (INR (j + k) <= 1125899906842640)%R ->
  approx lo j M (x, r) -> approx lo' k N (y, s) -> approx (lo + lo') (S (j + k)) (M * N) (SFmul fprec femax x y, (r * s)%R).
Proof.
  intros HB Hlo Hk [F1 P1 L1 N1] [F2 P2 L2 N2]. cbn [fst snd] in *.
  assert (Hr : (0 <= r)%R) by lra. assert (Hs : (0 <= s)%R) by lra. pose proof (near_mul _ _ _ _ _ _ Hr Hs N1 N2) as NM.
  assert (P : (0 <= r * s)%R) by now apply Rmult_le_pos. assert (U : (r * s <= M * N)%R) by (apply Rmult_le_compat; lra).
  assert (K : (INR (j + k) * eps <= / 2)%R) by (apply tiny_index, Hk).
  pose proof (near_nonneg _ _ _ P NM) as P0. pose proof (near_double _ _ _ P K NM) as D. pose proof (near_half _ _ _ P K NM) as V.
  assert (L : (r * s = 0 \/ bpow radix2 (lo + lo') <= r * s)%R).
  { destruct L1 as [->|L1]; [left; ring|]. destruct L2 as [->|L2]; [left; ring|right]. rewrite bpow_plus. apply Rmult_le_compat; try apply bpow_ge_0; assumption. }
  destruct (fv_mul x y _ _ (fv_self _ F1) (fv_self _ F2)) as [F E].
  { rewrite Rabs_pos_eq by exact P0. apply Rle_trans with (bpow radix2 1 * bpow radix2 990)%R; [change (bpow radix2 1) with 2%R; lra|].
    rewrite <- bpow_plus. apply bpow_le. lia. }
  constructor; cbn [fst snd]; [exact F|lra|exact L|]. rewrite E. change (S (j + k)) with (1 + (j + k))%nat.
  apply near_trans with (value x * value y)%R; [exact P| |exact NM]. apply near_rnd; [exact P0|].
  destruct L as [L|L].
  - left. destruct NM as [_ NM]. rewrite L, Rmult_0_r in NM. lra.
  - right. apply Rle_trans with (bpow radix2 (-1) * bpow radix2 (lo + lo'))%R; [rewrite <- bpow_plus; apply bpow_le; lia|].
    change (bpow radix2 (-1)) with (/ 2)%R. lra.
Qed.
Lemma approx_exact x r lo : finite_double x -> value x = r -> (0 <= r)%R -> (bpow radix2 lo <= r)%R -> approx lo 0 r (x, r).
Proof. intros F E P L. constructor; cbn [fst snd]; [exact F|lra|now right|]. rewrite E. now apply near_refl. Qed.

(** ** The squared lengths of one interval *)
Lemma tame_sized x : tame x -> sized 100 x.
Proof. intros [F H]. split; [exact F|]. now rewrite !(bpow_powerRZ radix2). Qed.
Definition M2 : R := (3 * bpow radix2 200)%R.
Lemma M2_pos : (0 <= M2)%R.
Proof. unfold M2. pose proof (bpow_ge_0 radix2 200). lra. Qed.
Lemma M2_le : (M2 <= bpow radix2 202)%R.
Proof. unfold M2. change 202 with (2 + 200). rewrite bpow_plus. apply Rmult_le_compat_r; [apply bpow_ge_0|]. change (bpow radix2 2) with 4%R. lra. Qed.
Lemma square_pairs axes (d : Arr spec_float) : (length axes <= 3)%nat -> tame_displacements d ->
  exists ps, lengths2 axes d = map fst ps /\ map (sqlen axes) (entries (values d)) = map snd ps /\ Forall (approx (-200) 4 M2) ps
    /\ length ps = length (entries d).
Proof.
  intros L TD. assert (TV : Forall (fun v => forall i, tame (part v i)) (entries d)). { unfold entries. now apply Forall_concat. }
  assert (EV : entries (values d) = map values3 (entries d)). { unfold entries, values. cbn [a_rows]. symmetry. apply concat_map. }
  rewrite EV. unfold lengths2. clear - L TV. induction TV as [|v vs T _ IH]; [exists []; repeat split; constructor|].
  destruct IH as (ps & E1 & E2 & F & N). exists ((sq_norm (map (part v) axes), sqlen axes (values3 v)) :: ps). cbn [map fst snd length].
  rewrite E1, E2, N. repeat split. constructor; [|exact F]. apply (computed_square_near 100); [lia|exact L|intros i; apply tame_sized, T|].
  unfold computed_square, sq_norm. rewrite map_map. eapply sum_weaken; [apply nsum_sum|]. rewrite map_length. exact L.
Qed.
Lemma nmean_near lo k M (ps : list (spec_float * R)) : (0 <= M)%R -> -900 <= lo -> ps <> [] -> Z.of_nat (length ps) <= 2 ^ 40 ->
  Forall (approx lo k M) ps -> (INR k <= 1000)%R -> (M <= bpow radix2 900)%R ->
  approx (lo - 40) (S (length ps + k)) M (nmean (map fst ps), average (map snd ps)).
Proof.
  intros HM Hlo NE Hn F Hk MB. unfold nmean. rewrite map_length. apply mean_near; try assumption.
  - rewrite <- (map_length fst ps). apply nsum_sum.
  - rewrite plus_INR. assert (INR (length ps) <= IZR (2 ^ 40))%R by (rewrite INR_IZR_INZ; now apply IZR_le). change (IZR (2 ^ 40)) with 1099511627776%R in *. lra.
Qed.
Lemma int_approx z lo : 0 <= z < 2 ^ 53 -> (bpow radix2 lo <= IZR z)%R -> approx lo 0 (IZR z) (SFofZ z, IZR z).
Proof. intros H L. destruct (ofZ_small z) as [F E]; [lia|]. apply approx_exact; try assumption. now apply IZR_le. Qed.
Lemma rel_plus a b : rep a -> rep b -> (Rabs (rnd (a + b) - (a + b)) <= eps * Rabs (a + b))%R.
Proof.
  intros Ra Rb. destruct (Rle_or_lt (bpow radix2 (-1021)) (Rabs (a + b))) as [L|L].
  - apply rel_normal. eapply Rle_trans; [|exact L]. apply bpow_le. lia.
  - rewrite rnd_rep, Rminus_eq_0, Rabs_R0; [apply Rmult_le_pos; [unfold eps; lra|apply Rabs_pos]|].
    apply FLT_format_plus_small; try assumption; try typeclasses eauto. now apply Rlt_le.
Qed.
Lemma rel_minus a b : rep a -> rep b -> (Rabs (rnd (a - b) - (a - b)) <= eps * Rabs (a - b))%R.
Proof. intros Ra Rb. apply rel_plus; [exact Ra|now apply generic_format_opp]. Qed.

Lemma ngp_near (ps : list (spec_float * R)) : ps <> [] -> Z.of_nat (length ps) <= 2 ^ 40 -> Forall (approx (-200) 4 M2) ps ->
  average (map snd ps) <> 0%R ->
  finite_double (ngp_calculation (map fst ps)) /\
  (Rabs (value (ngp_calculation (map fst ps)) - non_gaussian (map snd ps))
     <= (5 * INR (length ps) + 38) * / 2 ^ 52 * (non_gaussian (map snd ps) + 1))%R.
Proof.
  intros NE Hn F Ha. set (n := length ps) in *. set (l := map snd ps) in *. pose proof M2_pos as MP. pose proof M2_le as ML.
  assert (Hn' : (INR n <= 1099511627776)%R). { rewrite INR_IZR_INZ. change 1099511627776%R with (IZR (2 ^ 40)). now apply IZR_le. }
  pose proof (pos_INR n) as Hn0.
  assert (B2 : (M2 * M2 <= bpow radix2 404)%R). { change 404 with (202 + 202). rewrite bpow_plus. apply Rmult_le_compat; lra. }
  (* the mean and the mean square *)
  pose (ps4 := map (fun p : spec_float * R => (SFmul fprec femax (fst p) (fst p), (snd p * snd p)%R)) ps).
  assert (F4 : Forall (approx (-400) 9 (M2 * M2)) ps4).
  { unfold ps4. apply Forall_map. eapply Forall_impl; [|exact F]. intros [x r] A. cbn [fst snd]. change (-400) with (-200 + -200).
    change 9%nat with (S (4 + 4)). apply approx_mul; try assumption; try lia; [|cbn [Nat.add INR]; lra]. eapply Rle_trans; [exact B2|apply bpow_le; lia]. }
  assert (L4 : length ps4 = n) by apply map_length.
  assert (A4 : approx (-440) (S (n + 9)) (M2 * M2) (nmean (map fst ps4), average (map snd ps4))).
  { rewrite <- L4. apply (nmean_near (-400)); [now apply Rmult_le_pos|lia| |now rewrite L4|exact F4|cbn [INR]; lra|eapply Rle_trans; [exact B2|apply bpow_le; lia]].
    unfold ps4. destruct ps; [congruence|discriminate]. }
  assert (A2 : approx (-240) (S (n + 4)) M2 (nmean (map fst ps), average l)).
  { apply (nmean_near (-200)); try assumption; [lia|cbn [INR]; lra|]. eapply Rle_trans; [exact ML|apply bpow_le; lia]. }
  assert (E4f : map fst ps4 = map (fun d => nmul d d) (map fst ps)). { unfold ps4. rewrite !map_map. reflexivity. }
  assert (E4s : map snd ps4 = map (fun x => x * x)%R l). { unfold ps4, l. rewrite !map_map. reflexivity. }
  rewrite E4f, E4s in A4.
  assert (T : approx (-440 + 1) (S (S (n + 9) + 0)) (M2 * M2 * 3) (SFmul fprec femax (nmean (map (fun d => nmul d d) (map fst ps))) (SFofZ 3), (average (map (fun x => x * x)%R l) * 3)%R)).
  { apply approx_mul; [|lia| |exact A4|apply (int_approx 3); [lia|change (bpow radix2 1) with 2%R; lra]].
    - apply Rle_trans with (bpow radix2 404 * bpow radix2 2)%R; [|rewrite <- bpow_plus; apply bpow_le; lia]. change (bpow radix2 2) with 4%R. apply Rmult_le_compat; try lra; now apply Rmult_le_pos.
    - rewrite Nat.add_0_r, S_INR, plus_INR. cbn [INR]. lra. }
  assert (SQ : approx (-240 + -240) (S (S (n + 4) + S (n + 4))) (M2 * M2) (nsq (nmean (map fst ps)), (average l * average l)%R)).
  { apply approx_mul; [|lia| |exact A2|exact A2]; [eapply Rle_trans; [exact B2|apply bpow_le; lia]|]. rewrite !plus_INR, !S_INR, !plus_INR. cbn [INR]. lra. }
  assert (BT : approx (-240 + -240 + 2) (S (S (S (n + 4) + S (n + 4)) + 0)) (M2 * M2 * 5) (SFmul fprec femax (nsq (nmean (map fst ps))) (SFofZ 5), (average l * average l * 5)%R)).
  { apply approx_mul; [|lia| |exact SQ|apply (int_approx 5); [lia|change (bpow radix2 2) with 4%R; lra]].
    - apply Rle_trans with (bpow radix2 404 * bpow radix2 3)%R; [|rewrite <- bpow_plus; apply bpow_le; lia]. change (bpow radix2 3) with 8%R. apply Rmult_le_compat; try lra; now apply Rmult_le_pos.
    - rewrite Nat.add_0_r, S_INR, plus_INR, !S_INR, !plus_INR. cbn [INR]. lra. }
  destruct T as [FT PT LT NT], BT as [FB PB LB NB]. cbn [fst snd] in *.
  set (top := SFmul fprec femax _ (SFofZ 3)) in *. set (bot := SFmul fprec femax _ (SFofZ 5)) in *.
  assert (EN : ngp_calculation (map fst ps) = SFsub fprec femax (SFdiv fprec femax top bot) (SFofZ 1)) by reflexivity. rewrite EN.
  assert (Sb : (0 < average l * average l * 5)%R). { assert (0 < average l * average l)%R by (apply Rlt_0_sqr in Ha; exact Ha). lra. }
  set (q := (average (map (fun x => x * x)%R l) * 3 / (average l * average l * 5))%R).
  assert (EQ : non_gaussian l = (q - 1)%R). { unfold non_gaussian, q. f_equal. field. exact Ha. }
  assert (NEl : l <> []) by (unfold l; destruct ps; [congruence|discriminate]).
  pose proof (C31_bound l NEl Ha) as J. rewrite EQ in J. assert (Q35 : (3 / 5 <= q)%R) by lra.
  assert (NQ : near (5 * n + 35) (value top / value bot) q).
  { replace (5 * n + 35)%nat with (S (S (n + 9) + 0) + 2 * S (S (S (n + 4) + S (n + 4)) + 0))%nat by lia. apply near_div; [lra|exact Sb|exact NT|exact NB]. }
  pose proof (near_pos _ _ _ Sb NB) as Pb.
  assert (IK : forall c, (c <= 100)%nat -> (INR (5 * n + c) * eps <= / 2)%R).
  { intros c Hc. apply small_index. rewrite plus_INR, mult_INR. cbn [INR]. apply le_INR in Hc. rewrite (INR_IZR_INZ 100) in Hc. cbn in Hc. lra. }
  assert (QU : (q <= bpow radix2 950)%R).
  { unfold q. destruct LB as [LB|LB]; [lra|]. apply Rle_trans with ((M2 * M2 * 3) * bpow radix2 478)%R.
    - apply Rmult_le_compat; [lra|left; now apply Rinv_0_lt_compat|lra|]. rewrite <- (Rinv_inv (bpow radix2 478)), <- bpow_opp.
      apply Rinv_le_contravar; [apply bpow_gt_0|]. exact LB.
    - apply Rle_trans with (bpow radix2 406 * bpow radix2 478)%R; [|rewrite <- bpow_plus; apply bpow_le; lia]. apply Rmult_le_compat_r; [apply bpow_ge_0|].
      change 406 with (404 + 2). rewrite bpow_plus. change (bpow radix2 2) with 4%R. apply Rmult_le_compat; try lra; now apply Rmult_le_pos. }
  assert (Q0 : (0 <= q)%R) by lra.
  pose proof (near_double _ _ _ Q0 (IK 35%nat ltac:(lia)) NQ) as QD. pose proof (near_nonneg _ _ _ Q0 NQ) as QN.
  pose proof (near_half _ _ _ Q0 (IK 35%nat ltac:(lia)) NQ) as QH.
  destruct (fv_div top bot _ _ (fv_self _ FT) (fv_self _ FB)) as [FQ EQ']; [lra| |].
  { rewrite Rabs_pos_eq by exact QN. apply Rle_trans with (bpow radix2 1 * bpow radix2 950)%R; [change (bpow radix2 1) with 2%R; lra|]. rewrite <- bpow_plus. apply bpow_le. lia. }
  set (qh := SFdiv fprec femax top bot) in *.
  assert (NQ' : near (5 * n + 36) (value qh) q).
  { replace (5 * n + 36)%nat with (1 + (5 * n + 35))%nat by lia. apply near_trans with (value top / value bot)%R; [exact Q0| |exact NQ].
    rewrite EQ'. apply near_rnd; [exact QN|]. right. apply Rle_trans with (bpow radix2 (-2)); [apply bpow_le; lia|]. change (bpow radix2 (-2)) with (/ 4)%R. lra. }
  pose proof (near_abs _ _ _ Q0 (IK 36%nat ltac:(lia)) NQ') as EA. pose proof (near_double _ _ _ Q0 (IK 36%nat ltac:(lia)) NQ') as QD'.
  pose proof (near_nonneg _ _ _ Q0 NQ') as QN'.
  destruct (ofZ_small 1) as [F1 V1]; [lia|].
  assert (AB : (Rabs (value qh - 1) <= 2 * q + 1)%R) by (apply abs_le; lra).
  destruct (fv_sub qh (SFofZ 1) _ _ (fv_self _ FQ) (conj F1 V1)) as [FR ER].
  { eapply Rle_trans; [exact AB|]. apply Rle_trans with (bpow radix2 2 * bpow radix2 950)%R; [|rewrite <- bpow_plus; apply bpow_le; lia].
    assert (1 <= bpow radix2 950)%R by (change 1%R with (bpow radix2 0); apply bpow_le; lia). change (bpow radix2 2) with 4%R. lra. }
  split; [exact FR|]. rewrite ER, EQ. pose proof (rel_minus (value qh) 1 (finite_rep _ FQ)) as RM.
  assert (R1 : rep 1) by (rewrite <- V1; now apply finite_rep). specialize (RM R1).
  replace (rnd (value qh - 1) - (q - 1))%R with ((rnd (value qh - 1) - (value qh - 1)) + (value qh - q))%R by ring.
  eapply Rle_trans; [apply Rabs_triang|]. assert (EP : (/ 2 ^ 52 = 2 * eps)%R) by (unfold eps; cbn; lra).
  rewrite EP. replace (q - 1 + 1)%R with q by ring. rewrite plus_INR, mult_INR in EA. cbn [INR] in EA.
  pose proof eps_range as [E0 _]. assert (eps * Rabs (value qh - 1) <= eps * (4 * q))%R by (apply Rmult_le_compat_l; lra).
  assert (0 <= eps * q)%R by (apply Rmult_le_pos; lra). set (N := INR n) in *. nra.
Qed.

(** ** Euclidean norms of lists *)
Section Norm.
  Context {T : Type} (l : list T).
  Definition norm (f : T -> R) : R := sqrt (rsum (map (fun p => f p * f p)%R l)).
  Lemma squares_nonneg (f : T -> R) (k : list T) : (0 <= rsum (map (fun p => f p * f p)%R k))%R.
  Proof. induction k; cbn [map rsum]; [lra|]. assert (0 <= f a * f a)%R by apply Rle_0_sqr. lra. Qed.
  Lemma norm_nonneg f : (0 <= norm f)%R.
  Proof. apply sqrt_pos. Qed.
  Lemma norm_sq f : (norm f * norm f = rsum (map (fun p => f p * f p)%R l))%R.
  Proof. apply sqrt_sqrt, squares_nonneg. Qed.
  Lemma schwarz (f g : T -> R) (k : list T) :
    (rsum (map (fun p => f p * g p)%R k) * rsum (map (fun p => f p * g p)%R k)
      <= rsum (map (fun p => f p * f p)%R k) * rsum (map (fun p => g p * g p)%R k))%R.
  Proof.
    induction k as [|p k IH]; cbn [map rsum]; [lra|]. pose proof (squares_nonneg f k) as PA. pose proof (squares_nonneg g k) as PB.
    set (A := rsum (map (fun p => f p * f p)%R k)) in *. set (B := rsum (map (fun p => g p * g p)%R k)) in *. set (S := rsum (map (fun p => f p * g p)%R k)) in *.
    set (x := f p). set (y := g p).
    assert (H : (2 * (x * y) * S <= x * x * B + y * y * A)%R).
    { assert (U : (0 <= x * x * B)%R) by (apply Rmult_le_pos; [apply Rle_0_sqr|exact PB]).
      assert (W : (0 <= y * y * A)%R) by (apply Rmult_le_pos; [apply Rle_0_sqr|exact PA]).
      assert (SQ : ((2 * (x * y) * S) * (2 * (x * y) * S) <= (x * x * B + y * y * A) * (x * x * B + y * y * A))%R).
      { apply Rle_trans with (4 * (x * x * B) * (y * y * A))%R.
        - replace ((2 * (x * y) * S) * (2 * (x * y) * S))%R with ((4 * (x * x) * (y * y)) * (S * S))%R by ring.
          replace (4 * (x * x * B) * (y * y * A))%R with ((4 * (x * x) * (y * y)) * (A * B))%R by ring.
          apply Rmult_le_compat_l; [|exact IH]. assert (0 <= x * x)%R by apply Rle_0_sqr. assert (0 <= y * y)%R by apply Rle_0_sqr. apply Rmult_le_pos; lra.
        - assert (0 <= (x * x * B - y * y * A) * (x * x * B - y * y * A))%R by apply Rle_0_sqr. nra. }
      apply Rnot_lt_le. intros C. apply (Rlt_irrefl ((2 * (x * y) * S) * (2 * (x * y) * S))). eapply Rle_lt_trans; [exact SQ|].
      apply Rmult_le_0_lt_compat; lra. }
    nra.
  Qed.
  Lemma norm_triangle f g : (norm (fun p => f p + g p) <= norm f + norm g)%R.
  Proof.
    pose proof (norm_nonneg f). pose proof (norm_nonneg g). unfold norm at 1. rewrite <- (sqrt_square (norm f + norm g)) by lra. apply sqrt_le_1_alt.
    pose proof (norm_sq f) as Ef. pose proof (norm_sq g) as Eg. pose proof (schwarz f g l) as CS. rewrite <- Ef, <- Eg in CS.
    assert (E : rsum (map (fun p => (f p + g p) * (f p + g p))%R l)
       = (rsum (map (fun p => f p * f p)%R l) + 2 * rsum (map (fun p => f p * g p)%R l) + rsum (map (fun p => g p * g p)%R l))%R).
    { clear. induction l as [|p k IH]; cbn [map rsum]; [ring|]. rewrite IH. ring. }
    rewrite E, <- Ef, <- Eg. set (S := rsum (map (fun p => f p * g p)%R l)) in *.
    assert (S <= norm f * norm g)%R.
    { apply Rnot_lt_le. intros C. apply (Rlt_irrefl (S * S)). eapply Rle_lt_trans; [exact CS|].
      replace (norm f * norm f * (norm g * norm g))%R with ((norm f * norm g) * (norm f * norm g))%R by ring.
      assert (0 <= norm f * norm g)%R by now apply Rmult_le_pos. apply Rmult_le_0_lt_compat; lra. }
    lra.
  Qed.
  Lemma norm_le f g : (forall p, In p l -> (Rabs (f p) <= g p)%R) -> (norm f <= norm g)%R.
  Proof.
    intros H. apply sqrt_le_1_alt. clear - H. induction l as [|p k IH]; cbn [map rsum]; [lra|]. apply Rplus_le_compat.
    - rewrite <- (Rabs_pos_eq (f p * f p)) by apply Rle_0_sqr. rewrite Rabs_mult. specialize (H p (or_introl eq_refl)).
      apply Rmult_le_compat; try exact H; apply Rabs_pos.
    - apply IH. intros q Hq. apply H. now right.
  Qed.
  Lemma norm_ext f g : (forall p, In p l -> f p = g p) -> norm f = norm g.
  Proof. intros H. unfold norm. f_equal. f_equal. apply map_ext_in. intros p Hp. now rewrite (H p Hp). Qed.
  Lemma norm_scale c f : (0 <= c)%R -> norm (fun p => c * f p)%R = (c * norm f)%R.
  Proof.
    intros Hc. unfold norm. replace (rsum (map (fun p => c * f p * (c * f p))%R l)) with ((c * c) * rsum (map (fun p => f p * f p)%R l))%R.
    - rewrite sqrt_mult_alt by apply Rle_0_sqr. now rewrite sqrt_square.
    - clear. induction l as [|p k IH]; cbn [map rsum]; [ring|]. rewrite <- IH. ring.
  Qed.
  Lemma norm_const c : (0 <= c)%R -> norm (fun _ => c) = (c * sqrt (INR (length l)))%R.
  Proof. intros Hc. unfold norm. rewrite rsum_const, Rmult_comm, sqrt_mult_alt by apply Rle_0_sqr. now rewrite sqrt_square. Qed.
  Lemma norm_dist f g : (Rabs (norm f - norm g) <= norm (fun p => f p - g p))%R.
  Proof.
    pose proof (norm_triangle (fun p => f p - g p)%R g) as A. pose proof (norm_triangle (fun p => -1 * (f p - g p))%R f) as B.
    cbv beta in A, B. rewrite (norm_ext (fun p => f p - g p + g p)%R f) in A by (intros; ring).
    rewrite (norm_ext (fun p => -1 * (f p - g p) + f p)%R g) in B by (intros; ring).
    assert (C : norm (fun p => -1 * (f p - g p))%R = norm (fun p => f p - g p)%R).
    { unfold norm. f_equal. f_equal. apply map_ext. intros p. ring. }
    rewrite C in B. apply abs_le. lra.
  Qed.
End Norm.

(** ** The sample variance *)
Lemma on_grid x e : rep x -> (x = 0 \/ bpow radix2 e <= Rabs x)%R -> exists k, x = (IZR k * bpow radix2 (e - 52))%R.
Proof.
  intros R [->|H]; [exists 0; ring|]. destruct (Req_dec x 0) as [->|N]; [exists 0; ring|].
  assert (C : e - 52 <= cexp radix2 fmt x).
  { unfold cexp, FLT_exp. assert (e + 1 <= mag radix2 x) by (apply mag_ge_bpow; now replace (e + 1 - 1) with e by lia). lia. }
  rewrite R. unfold F2R. cbn [Fnum Fexp]. set (m := Ztrunc _). set (c := cexp radix2 fmt x) in *.
  exists (m * 2 ^ (c - (e - 52))). rewrite mult_IZR, (IZR_Zpower radix2) by lia. rewrite Rmult_assoc, <- bpow_plus. do 2 f_equal. lia.
Qed.
Lemma grid_gap a b e : (exists k, a = IZR k * bpow radix2 e)%R -> (exists k, b = IZR k * bpow radix2 e)%R -> (a - b = 0 \/ bpow radix2 e <= Rabs (a - b))%R.
Proof.
  intros [j ->] [k ->]. rewrite <- Rmult_minus_distr_r, <- minus_IZR, Rabs_mult, (Rabs_pos_eq (bpow radix2 e)) by apply bpow_ge_0.
  destruct (Z.eq_dec (j - k) 0) as [->|N]; [left; ring|right]. rewrite <- abs_IZR. rewrite <- (Rmult_1_l (bpow radix2 e)) at 1.
  apply Rmult_le_compat_r; [apply bpow_ge_0|]. apply IZR_le. lia.
Qed.
Lemma coarser a e e' : e' <= e -> (exists k, a = IZR k * bpow radix2 e)%R -> exists k, (a = IZR k * bpow radix2 e')%R.
Proof.
  intros H [k ->]. exists (k * 2 ^ (e - e')). rewrite mult_IZR, (IZR_Zpower radix2) by lia. rewrite Rmult_assoc, <- bpow_plus. do 2 f_equal. lia.
Qed.
Lemma approx_bounds lo k M p : (INR k * eps <= / 2)%R -> approx lo k M p -> (0 <= value (fst p) <= 2 * M)%R
  /\ (value (fst p) = 0 \/ bpow radix2 (lo - 1) <= value (fst p))%R /\ (Rabs (value (fst p) - snd p) <= 2 * INR k * eps * snd p)%R.
Proof.
  intros K [F P L N]. assert (P0 : (0 <= snd p)%R) by lra. pose proof (near_nonneg _ _ _ P0 N). pose proof (near_double _ _ _ P0 K N). pose proof (near_half _ _ _ P0 K N).
  split; [lra|]. split; [|exact (near_abs _ _ _ P0 K N)]. destruct L as [L|L]; [left; rewrite L in *; lra|right].
  replace (lo - 1) with (-1 + lo) by lia. rewrite bpow_plus. change (bpow radix2 (-1)) with (/ 2)%R. lra.
Qed.
Lemma deviation_near (p : spec_float * R) mh m k : (INR k * eps <= / 2)%R -> approx (-200) 4 M2 p -> approx (-240) k M2 (mh, m) ->
  let delta := (value (fst p) - value mh)%R in
  approx (-586) 3 (bpow radix2 406) (nsq (SFsub fprec femax (fst p) mh), (delta * delta)%R).
Proof.
  intros K A B delta. assert (K4 : (INR 4 * eps <= / 2)%R) by (cbn [INR]; unfold eps; lra).
  destruct (approx_bounds _ _ _ _ K4 A) as (P1 & L1 & _). destruct (approx_bounds _ _ _ _ K B) as (P2 & L2 & _). cbn [fst snd] in P2, L2.
  destruct A as [F1 _ _ _], B as [F2 _ _ _]. cbn [fst snd] in *.
  assert (G : (delta = 0 \/ bpow radix2 (-293) <= Rabs delta)%R).
  { apply grid_gap.
    - apply coarser with (-201 - 52); [lia|]. apply on_grid; [now apply finite_rep|]. destruct L1 as [L1|L1]; [now left|right]. rewrite Rabs_pos_eq by lra. exact L1.
    - apply (on_grid _ (-241)); [now apply finite_rep|]. destruct L2 as [L2|L2]; [now left|right]. rewrite Rabs_pos_eq by lra. exact L2. }
  pose proof M2_le as ML. assert (BD : (Rabs delta <= bpow radix2 203)%R).
  { apply Rle_trans with (bpow radix2 1 * bpow radix2 202)%R; [|rewrite <- bpow_plus; apply bpow_le; lia]. change (bpow radix2 1) with 2%R. unfold delta. apply abs_le. lra. }
  destruct (fv_sub (fst p) mh _ _ (fv_self _ F1) (fv_self _ F2)) as [FC EC]; [eapply Rle_trans; [exact BD|apply bpow_le; lia]|]. fold delta in EC.
  set (c := SFsub fprec femax (fst p) mh) in *. pose proof (rel_minus _ _ (finite_rep _ F1) (finite_rep _ F2)) as RM. fold delta in RM. rewrite <- EC in RM.
  assert (NC : near 1 (Rabs (value c)) (Rabs delta)).
  { apply near_rel; [apply Rabs_pos|]. rewrite Rabs_Rabsolu. eapply Rle_trans; [|exact RM]. apply Rabs_triang_inv2. }
  pose proof (near_mul 1 1 _ _ _ _ (Rabs_pos delta) (Rabs_pos delta) NC NC) as N2. rewrite <- !Rabs_mult in N2.
  assert (S1 : (0 <= delta * delta)%R) by apply Rle_0_sqr. assert (S2 : (0 <= value c * value c)%R) by apply Rle_0_sqr.
  rewrite (Rabs_pos_eq _ S1), (Rabs_pos_eq _ S2) in N2. change (1 + 1)%nat with 2%nat in N2.
  assert (U : (delta * delta <= bpow radix2 406)%R).
  { rewrite <- (Rabs_pos_eq _ S1), Rabs_mult. change 406 with (203 + 203). rewrite bpow_plus. apply Rmult_le_compat; try apply Rabs_pos; exact BD. }
  assert (L : (delta * delta = 0 \/ bpow radix2 (-586) <= delta * delta)%R).
  { destruct G as [G|G]; [left; rewrite G; ring|right]. rewrite <- (Rabs_pos_eq _ S1), Rabs_mult. change (-586) with (-293 + -293). rewrite bpow_plus.
    apply Rmult_le_compat; try apply bpow_ge_0; exact G. }
  assert (K2 : (INR 2 * eps <= / 2)%R) by (cbn [INR]; unfold eps; lra).
  pose proof (near_double _ _ _ S1 K2 N2) as D. pose proof (near_half _ _ _ S1 K2 N2) as V.
  destruct (fv_mul c c _ _ (fv_self _ FC) (fv_self _ FC)) as [FM EM].
  { rewrite Rabs_pos_eq by exact S2. apply Rle_trans with (bpow radix2 1 * bpow radix2 406)%R; [change (bpow radix2 1) with 2%R; lra|]. rewrite <- bpow_plus. apply bpow_le. lia. }
  change (nsq c) with (SFmul fprec femax c c). constructor; cbn [fst snd]; [exact FM|lra|exact L|]. rewrite EM. change 3%nat with (1 + 2)%nat.
  apply near_trans with (value c * value c)%R; [exact S1| |exact N2]. apply near_rnd; [exact S2|]. destruct L as [L|L].
  - left. rewrite L in *. lra.
  - right. apply Rle_trans with (bpow radix2 (-1) * bpow radix2 (-586))%R; [rewrite <- bpow_plus; apply bpow_le; lia|]. change (bpow radix2 (-1)) with (/ 2)%R. lra.
Qed.
Lemma approx_div lo a b k M x r y s : (INR k * eps <= / 2)%R -> -1000 <= lo - b -> (M * bpow radix2 (- a) <= bpow radix2 990)%R ->
  approx lo k M (x, r) -> finite_double y -> value y = s -> (bpow radix2 a <= s <= bpow radix2 b)%R ->
  approx (lo - b) (S k) (M * bpow radix2 (- a)) (SFdiv fprec femax x y, (r / s)%R).
Proof.
  intros K Hlo MB [F P L N] Fy Ey Hs. cbn [fst snd] in *. pose proof (bpow_gt_0 radix2 a). assert (P0 : (0 <= r)%R) by lra.
  assert (IS : (bpow radix2 (- b) <= / s <= bpow radix2 (- a))%R). { rewrite !bpow_opp. split; apply Rinv_le_contravar; lra. }
  pose proof (bpow_gt_0 radix2 (- b)). pose proof (near_nonneg _ _ _ P0 N). pose proof (near_double _ _ _ P0 K N). pose proof (near_half _ _ _ P0 K N).
  assert (U : (r / s <= M * bpow radix2 (- a))%R) by (apply Rmult_le_compat; lra).
  assert (NS : near k (value x / s) (r / s)) by (apply near_scale; [lra|exact N]).
  assert (Q0 : (0 <= r / s)%R) by (apply Rmult_le_pos; lra). assert (Q1 : (0 <= value x / s)%R) by (apply Rmult_le_pos; lra).
  pose proof (near_double _ _ _ Q0 K NS) as D. pose proof (near_half _ _ _ Q0 K NS) as V.
  assert (L' : (r / s = 0 \/ bpow radix2 (lo - b) <= r / s)%R).
  { destruct L as [->|L]; [left; unfold Rdiv; ring|right]. replace (lo - b) with (lo + - b) by lia. rewrite bpow_plus. apply Rmult_le_compat; try apply bpow_ge_0; [exact L|lra]. }
  destruct (fv_div x y _ _ (fv_self _ F) (conj Fy Ey)) as [FQ EQ]; [lra| |].
  { rewrite Rabs_pos_eq by exact Q1. apply Rle_trans with (bpow radix2 1 * bpow radix2 990)%R; [change (bpow radix2 1) with 2%R; lra|]. rewrite <- bpow_plus. apply bpow_le. lia. }
  constructor; cbn [fst snd]; [exact FQ|lra|exact L'|]. rewrite EQ. change (S k) with (1 + k)%nat. apply near_trans with (value x / s)%R; [exact Q0| |exact NS].
  apply near_rnd; [exact Q1|]. destruct L' as [L'|L'].
  - left. rewrite L' in *. lra.
  - right. apply Rle_trans with (bpow radix2 (-1) * bpow radix2 (lo - b))%R; [rewrite <- bpow_plus; apply bpow_le; lia|]. change (bpow radix2 (-1)) with (/ 2)%R. lra.
Qed.
Lemma near_sqrt k a r : (0 <= r)%R -> near k a r -> near k (sqrt a) (sqrt r).
Proof.
  intros H N. pose proof (near_nonneg _ _ _ H N) as P. destruct N as [A B]. pose proof (low_pow k) as [L0 L1]. pose proof (high_pow k) as H1.
  pose proof (sqrt_pos r) as SR. pose proof (sqrt_sqrt r H) as SS. split.
  - rewrite <- (sqrt_square ((1 - eps) ^ k * sqrt r)) by (apply Rmult_le_pos; lra). apply sqrt_le_1_alt. eapply Rle_trans; [|exact A].
    replace ((1 - eps) ^ k * sqrt r * ((1 - eps) ^ k * sqrt r))%R with ((1 - eps) ^ k * ((1 - eps) ^ k * (sqrt r * sqrt r)))%R by ring. rewrite SS.
    rewrite <- (Rmult_1_l ((1 - eps) ^ k * r)) at 2. apply Rmult_le_compat_r; [apply Rmult_le_pos; lra|exact L1].
  - rewrite <- (sqrt_square ((1 + eps) ^ k * sqrt r)) by (apply Rmult_le_pos; lra). apply sqrt_le_1_alt. eapply Rle_trans; [exact B|].
    replace ((1 + eps) ^ k * sqrt r * ((1 + eps) ^ k * sqrt r))%R with ((1 + eps) ^ k * ((1 + eps) ^ k * (sqrt r * sqrt r)))%R by ring. rewrite SS.
    rewrite <- (Rmult_1_l ((1 + eps) ^ k * r)) at 1. apply Rmult_le_compat_r; [apply Rmult_le_pos; lra|exact H1].
Qed.
Lemma mean_le_norm (ps : list (spec_float * R)) : ps <> [] -> (0 <= average (map snd ps))%R ->
  (average (map snd ps) * sqrt (INR (length ps)) <= norm ps snd)%R
  /\ (norm ps (fun p => snd p - average (map snd ps)) <= norm ps snd)%R.
Proof.
  intros NE P. set (m := average (map snd ps)) in *.
  assert (N1 : (1 <= INR (length ps))%R). { change 1%R with (INR 1). apply le_INR. destruct ps; [congruence|cbn; lia]. }
  assert (EM : (rsum (map snd ps) = INR (length ps) * m)%R). { unfold m, average. rewrite map_length. field. lra. }
  pose proof (rsum_sq_dev (map snd ps) m) as E. rewrite !map_map, map_length, EM in E.
  assert (D : (0 <= rsum (map (fun p => (snd p - m) * (snd p - m)) ps))%R) by exact (squares_nonneg (fun p : spec_float * R => snd p - m)%R ps).
  split.
  - rewrite <- (sqrt_square m) by exact P. rewrite <- sqrt_mult_alt by apply Rle_0_sqr. apply sqrt_le_1_alt. lra.
  - apply sqrt_le_1_alt. rewrite E. assert (0 <= m * m)%R by apply Rle_0_sqr. nra.
Qed.
Lemma variance_near (ps : list (spec_float * R)) no : (2 <= length ps)%nat -> Z.of_nat (length ps) <= 2 ^ 40 -> Forall (approx (-200) 4 M2) ps ->
  finite_double no -> (powerRZ 2 (-100) <= value no <= powerRZ 2 100)%R ->
  let v := SFdiv fprec femax (nvar (map fst ps)) no in
  finite_double v /\ (0 <= value v)%R /\
  (Rabs (sqrt (value v) - sqrt (sample_variance (map snd ps) / value no))
     <= (3 * INR (length ps) + 19) * / 2 ^ 52 * sqrt (rsum (map (fun x => x * x) (map snd ps)) / (INR (length ps) - 1) / value no))%R.
Proof.
  intros N2 Hn F Fno Hno v. rewrite <- !(bpow_powerRZ radix2) in Hno. set (n := length ps) in *. set (l := map snd ps) in *.
  assert (Hn' : (INR n <= 1099511627776)%R). { rewrite INR_IZR_INZ. change 1099511627776%R with (IZR (2 ^ 40)). now apply IZR_le. }
  assert (Hn2 : (2 <= INR n)%R). { change 2%R with (INR 2). now apply le_INR. }
  assert (NE : ps <> []) by (intros Z; unfold n in N2; rewrite Z in N2; cbn in N2; lia).
  pose proof M2_pos as MP. pose proof M2_le as ML.
  assert (A2 : approx (-240) (S (n + 4)) M2 (nmean (map fst ps), average l)).
  { apply (nmean_near (-200)); try assumption; [lia|cbn [INR]; lra|]. eapply Rle_trans; [exact ML|apply bpow_le; lia]. }
  set (mh := nmean (map fst ps)) in *. set (m := average l) in *.
  assert (IK : forall c, (c <= 100)%nat -> (INR (n + c) * eps <= / 2)%R).
  { intros c Hc. apply small_index. rewrite plus_INR. apply le_INR in Hc. rewrite (INR_IZR_INZ 100) in Hc. cbn in Hc. lra. }
  replace (S (n + 4)) with (n + 5)%nat in A2 by lia.
  pose (delta := fun p : spec_float * R => (value (fst p) - value mh)%R).
  pose (ps2 := map (fun p : spec_float * R => (nsq (SFsub fprec femax (fst p) mh), (delta p * delta p)%R)) ps).
  assert (F2 : Forall (approx (-586) 3 (bpow radix2 406)) ps2).
  { unfold ps2. apply Forall_map. eapply Forall_impl; [|exact F]. intros p A. exact (deviation_near p mh m (n + 5) (IK 5%nat ltac:(lia)) A A2). }
  assert (E2f : map fst ps2 = map (fun x => nsq (nsub x mh)) (map fst ps)) by (unfold ps2; rewrite !map_map; reflexivity).
  assert (E2s : map snd ps2 = map (fun p => delta p * delta p)%R ps) by (unfold ps2; rewrite !map_map; reflexivity).
  assert (L2 : length ps2 = n) by apply map_length. pose proof (bpow_ge_0 radix2 406) as B406.
  assert (B40 : bpow radix2 40 = 1099511627776%R) by reflexivity.
  assert (SB : (INR n * bpow radix2 406 <= bpow radix2 446)%R). { change 446 with (40 + 406). rewrite bpow_plus. apply Rmult_le_compat_r; [exact B406|rewrite B40; exact Hn']. }
  set (T := rsum (map (fun p => delta p * delta p)%R ps)).
  destruct (sum_near (-586) 3 _ B406 n _ (nsum (map fst ps2)) (eq_rect _ (fun k => sum_of k _ _) (nsum_sum (map fst ps2)) n (eq_trans (map_length fst ps2) L2)) ps2 eq_refl F2) as [Fs Ns].
  { exact (IK 3%nat ltac:(lia)). }
  { rewrite L2. apply Rle_trans with (bpow radix2 1 * bpow radix2 446)%R; [change (bpow radix2 1) with 2%R; lra|]. rewrite <- bpow_plus. apply bpow_le. lia. }
  rewrite E2s in Ns. fold T in Ns.
  assert (AS : approx (-586) (n + 3) (bpow radix2 446) (nsum (map fst ps2), T)).
  { destruct (approx_range _ _ _ _ B406 F2) as [R1 R2]. pose proof (approx_low _ _ _ _ F2) as R3. rewrite E2s in *. rewrite L2 in R2. fold T in R1, R2, R3.
    constructor; cbn [fst snd]; [exact Fs|lra|exact R3|exact Ns]. }
  destruct (ofZ_small (Z.of_nat n - 1)) as [FZ EZ]; [lia|]. rewrite minus_IZR, <- INR_IZR_INZ in EZ.
  assert (AV : approx (-586 - 40) (S (n + 3)) (bpow radix2 446 * bpow radix2 (- 0)) (nvar (map fst ps), (T / (INR n - 1))%R)).
  { unfold nvar. rewrite map_length. fold n. fold mh. change (fun x : spec_float => nsq (x - mh)%num) with (fun x => nsq (nsub x mh)). rewrite <- E2f.
    apply approx_div; [exact (IK 3%nat ltac:(lia))|lia| |exact AS|exact FZ|exact EZ|change (bpow radix2 0) with 1%R; rewrite B40; lra].
    rewrite <- bpow_plus. apply bpow_le. lia. }
  replace (S (n + 3)) with (n + 4)%nat in AV by lia.
  assert (AW : approx (-586 - 40 - 100) (S (n + 4)) (bpow radix2 446 * bpow radix2 (- 0) * bpow radix2 (- -100)) (v, (T / (INR n - 1) / value no)%R)).
  { apply approx_div; [exact (IK 4%nat ltac:(lia))|lia| |exact AV|exact Fno|reflexivity|exact Hno]. rewrite <- !bpow_plus. apply bpow_le. lia. }
  replace (S (n + 4)) with (n + 5)%nat in AW by lia. destruct AW as [FV PV _ NV]. cbn [fst snd] in *.
  assert (PT : (0 <= T / (INR n - 1) / value no)%R) by lra.
  split; [exact FV|]. split; [exact (near_nonneg _ _ _ PT NV)|].
  (* in terms of norms *)
  assert (Pno : (0 < value no)%R) by (pose proof (bpow_gt_0 radix2 (-100)); lra).
  set (c := (/ (INR n - 1) * / value no)%R). assert (Pc : (0 <= c)%R) by (apply Rmult_le_pos; left; apply Rinv_0_lt_compat; lra).
  assert (SC : forall f : spec_float * R -> R, sqrt (rsum (map (fun p => f p * f p)%R ps) / (INR n - 1) / value no) = (norm ps f * sqrt c)%R).
  { intros f. unfold norm. rewrite <- sqrt_mult_alt by apply squares_nonneg. f_equal. unfold c, Rdiv. ring. }
  pose proof (near_sqrt _ _ _ PT NV) as NS. unfold T in NS. rewrite SC in NS.
  assert (EX : sqrt (sample_variance l / value no) = (norm ps (fun p => snd p - m) * sqrt c)%R).
  { rewrite <- SC. unfold sample_variance. fold m. unfold l. rewrite map_map, map_length. reflexivity. }
  assert (EQ : sqrt (rsum (map (fun x => x * x)%R l) / (INR n - 1) / value no) = (norm ps snd * sqrt c)%R).
  { rewrite <- SC. unfold l. rewrite map_map. reflexivity. }
  rewrite EX, EQ. pose proof (sqrt_pos c) as Sc.
  destruct (approx_bounds _ _ _ _ (IK 5%nat ltac:(lia)) A2) as (_ & _ & MB). cbn [fst snd] in MB.
  assert (Pm : (0 <= m)%R) by (destruct A2 as [_ A2 _ _]; cbn [snd] in A2; lra).
  pose proof (pos_INR n) as Pn. assert (INn : INR (n + 5) = (INR n + 5)%R) by (rewrite plus_INR; cbn [INR]; ring). rewrite INn in MB.
  pose proof eps_range as [E0 E1]. destruct (mean_le_norm ps NE Pm) as [Q1 Q2]. fold l in Q1, Q2. fold m in Q1, Q2. fold n in Q1.
  assert (DE : (Rabs (norm ps delta - norm ps (fun p => snd p - m)) <= (8 * eps + 2 * (INR n + 5) * eps) * norm ps snd)%R).
  { eapply Rle_trans; [apply norm_dist|]. eapply Rle_trans; [apply (norm_le _ _ (fun p => 8 * eps * snd p + 2 * (INR n + 5) * eps * m)%R)|].
    - intros p Hp. rewrite Forall_forall in F. specialize (F p Hp). assert (K4 : (INR 4 * eps <= / 2)%R) by (cbn [INR]; unfold eps; lra).
      destruct (approx_bounds _ _ _ _ K4 F) as (_ & _ & XB). cbn [INR] in XB.
      replace (delta p - (snd p - m))%R with ((value (fst p) - snd p) + - (value mh - m))%R by (unfold delta; ring).
      eapply Rle_trans; [apply Rabs_triang|]. rewrite Rabs_Ropp. lra.
    - eapply Rle_trans; [apply norm_triangle|]. rewrite norm_scale by lra. rewrite norm_const by (apply Rmult_le_pos; nra). fold n.
      assert (0 <= 2 * (INR n + 5) * eps)%R by nra.
      rewrite Rmult_assoc with (r1 := (2 * (INR n + 5) * eps)%R). rewrite Rmult_plus_distr_r. apply Rplus_le_compat_l. now apply Rmult_le_compat_l. }
  pose proof (norm_nonneg ps (fun p : spec_float * R => snd p - m)%R) as G1. pose proof (norm_nonneg ps delta) as G2. pose proof (norm_nonneg ps snd) as G3.
  assert (P1 : (0 <= norm ps delta * sqrt c)%R) by now apply Rmult_le_pos.
  pose proof (near_abs _ _ _ P1 (IK 5%nat ltac:(lia)) NS) as SB2. rewrite INn in SB2.
  assert (KS : ((8 * eps + 2 * (INR n + 5) * eps) <= 1)%R) by (unfold eps; lra).
  assert (DB : (norm ps delta <= 2 * norm ps snd)%R). { apply abs_le in DE. nra. }
  set (A := norm ps delta) in *. set (B := norm ps (fun p => snd p - m)%R) in *. set (Q := norm ps snd) in *. set (w := sqrt c) in *.
  replace (sqrt (value v) - B * w)%R with ((sqrt (value v) - A * w) + (A - B) * w)%R by ring.
  eapply Rle_trans; [apply Rabs_triang|]. rewrite Rabs_mult, (Rabs_pos_eq w) by exact Sc.
  assert (EP : (/ 2 ^ 52 = 2 * eps)%R) by (unfold eps; cbn; lra). rewrite EP.
  assert (T1 : (2 * (INR n + 5) * eps * (A * w) <= 2 * (INR n + 5) * eps * (2 * Q * w))%R).
  { apply Rmult_le_compat_l; [nra|]. now apply Rmult_le_compat_r. }
  assert (T2 : (Rabs (A - B) * w <= (8 * eps + 2 * (INR n + 5) * eps) * Q * w)%R) by now apply Rmult_le_compat_r.
  assert (0 <= eps * (Q * w))%R by (apply Rmult_le_pos; [lra|now apply Rmult_le_pos]). set (z := (eps * (Q * w))%R) in *.
  replace (2 * (INR n + 5) * eps * (2 * Q * w))%R with (4 * (INR n + 5) * z)%R in T1 by (unfold z; ring).
  replace ((8 * eps + 2 * (INR n + 5) * eps) * Q * w)%R with ((8 + 2 * (INR n + 5)) * z)%R in T2 by (unfold z; ring).
  replace ((3 * INR n + 19) * (2 * eps) * (Q * w))%R with ((6 * INR n + 38) * z)%R by (unfold z; ring). nra.
Qed.

(** ** What the loop stores for each interval *)
Section Loop.
  Context {A : Type} {NA : Num A} {G Seed RS : Type} (X : Ext A G Seed RS).
  Record stored (axes : list axis) (n_o : list A) (used : list (Arr A)) (b : Boot A) : Prop := {
    st_n : length (b_n b) = length (b_v b);
    st_g : length (b_ngp b) = length (b_v b);
    st_at : forall j, (j < length (b_v b))%nat -> exists d no, nth_error used j = Some d /\ nth_error n_o j = Some no /\ (1 < length (entries d))%nat
      /\ nth_error (b_n b) j = Some (nmean (lengths2 axes d)) /\ nth_error (b_v b) j = Some (ndiv (nvar (lengths2 axes d)) no)
      /\ nth_error (b_ngp b) j = Some (ngp_calculation (lengths2 axes d)) }.
  Lemma nth_error_snoc {T} (l : list T) x : nth_error (l ++ [x])%list (length l) = Some x.
  Proof. rewrite nth_error_app2, Nat.sub_diag by lia. reflexivity. Qed.
  Lemma msd_loop_stored u n_o sl axes : (forall v : V3 A, apply_slice sl (components v) = Ok (map (part v) axes)) -> u_block u = false ->
    forall ds pre b g b' g', b_slice b = sl -> (length (b_v b) <= length pre)%nat -> stored axes n_o (pre ++ ds)%list b ->
    boot_loop X u (fun _ q => Ok (d_squared q)) (fun no _ => no) n_o (length pre) ds b g = Ok (b', g') ->
    stored axes n_o (pre ++ ds)%list b'.
  Proof.
    intros HS HB. induction ds as [|d ds IH]; intros pre b g b' g' Sl Hl St H; cbn [boot_loop] in H.
    - injection H as <- _. exact St.
    - inv_bind H p E. destruct p as [b1 g1]. unfold boot_step in E. rewrite Sl, (disp_slice_parts _ _ d HS) in E.
      cbn beta iota delta [bind] in E. rewrite d_squared_parts in E.
      assert (LL : length (lengths2 axes d) = length (entries d)) by apply map_length. rewrite LL in E.
      replace (pre ++ d :: ds)%list with ((pre ++ [d]) ++ ds)%list in * by now rewrite <- app_assoc.
      replace (S (length pre)) with (length (pre ++ [d])) in H by (rewrite app_length; cbn; lia).
      destruct (length (entries d) <=? 1)%nat eqn:EL.
      + injection E as <- <-. refine (IH _ _ _ _ _ Sl _ St H). rewrite app_length. lia.
      + apply Nat.leb_gt in EL. rewrite HB in E. inv_bind E p E1. destruct p as [bo g2]. inv_bind E p E2. destruct p as [n v]. inv_bind E2 no E3. injection E2 as <- <-.
        inv_bind E vi E4. inv_bind E dt E5. injection E as <- <-.
        rewrite py_index_nat in E4. destruct (nth_error (b_v b ++ _)%list (length pre)) eqn:E6; [|discriminate].
        assert (EP : length pre = length (b_v b)).
        { assert (HH : nth_error (b_v b ++ [ndiv (nvar (lengths2 axes d)) no])%list (length pre) <> None) by congruence.
          apply nth_error_Some in HH. rewrite app_length in HH. cbn in HH. lia. }
        rewrite py_index_nat in E3. destruct (nth_error n_o (length pre)) eqn:E7; [|discriminate]. injection E3 as ->.
        apply IH in H; [exact H|exact Sl| |].
        * cbn [push_results b_v]. rewrite !app_length. cbn. lia.
        * destruct St as [S1 S2 S3]. constructor; cbn [push_results b_v b_n b_ngp].
          -- rewrite !app_length. cbn. lia.
          -- rewrite !app_length. cbn. lia.
          -- intros j Hj. rewrite app_length in Hj. cbn in Hj. destruct (Nat.eq_dec j (length (b_v b))) as [->|NJ].
             ++ exists d, no. rewrite <- EP. split; [rewrite nth_error_app1 by (rewrite app_length; cbn; lia); apply nth_error_snoc|].
                split; [exact E7|]. split; [exact EL|]. rewrite EP. rewrite <- S1 at 1. split; [apply nth_error_snoc|]. split; [apply nth_error_snoc|]. rewrite <- S2. apply nth_error_snoc.
             ++ destruct (S3 j) as (d' & no' & H1 & H2 & H3 & H4 & H5 & H6); [lia|]. exists d', no'. rewrite !nth_error_app1 with (l := b_n b), !nth_error_app1 with (l := b_v b), !nth_error_app1 with (l := b_ngp b) by lia. auto 10.
  Qed.
  Lemma msd_stored u dts disps n_o g b g' : 0 < u_sub_sample_dt u -> u_block u = false ->
    msd_bootstrap X u dts disps n_o g = Ok (b, g') ->
    exists axes used, names (pystr_text (u_dimension u)) axes /\ (length axes <= 3)%nat /\ sub_sample (Z.to_nat (u_sub_sample_dt u)) disps used
      /\ stored axes n_o used b.
  Proof.
    intros Hk HB H. unfold msd_bootstrap in H. inv_bind H b0 E. inv_bind H p E1. destruct p as [b1 g1]. injection H as <- _.
    unfold bootstrap_init in E. inv_bind E ds D1. inv_bind E ts D2. inv_bind E d0 D3. inv_bind E sl D4. injection E as <-.
    destruct (dimension_parts (A := A) _ _ D4) as (axes & N & L & S). exists axes, ds. split; [exact N|]. split; [exact L|]. split; [now apply stride_sub|].
    cbn [b_displacements] in E1. apply (msd_loop_stored u n_o sl axes S HB ds []) in E1; [|reflexivity|apply Nat.le_refl|].
    - destruct E1 as [S1 S2 S3]. constructor; [exact S1|exact S2|exact S3].
    - constructor; [reflexivity|reflexivity|]. intros j Hj. cbn in Hj. lia.
  Qed.
End Loop.

Lemma sub_sample_at {T} (P : T -> Prop) k l l' j x : sub_sample k l l' -> Forall P l -> nth_error l' j = Some x -> P x.
Proof. intros S H E. apply (forall_sub_sample _ _ _ _ S) in H. rewrite Forall_forall in H. apply H. eapply nth_error_In; exact E. Qed.
Lemma C80_proof {G Seed RS} (X : Ext spec_float G Seed RS) u dts disps n_o g b g' : 0 < u_sub_sample_dt u -> u_block u = false ->
  Forall tame_displacements disps -> Forall (fun d => Z.of_nat (length (entries d)) <= 2 ^ 40) disps ->
  Forall (fun no => finite_double no /\ (powerRZ 2 (-100) <= value no <= powerRZ 2 100)%R) n_o ->
  msd_bootstrap X u dts disps n_o g = Ok (b, g') ->
  exists axes used, names (pystr_text (u_dimension u)) axes /\ sub_sample (Z.to_nat (u_sub_sample_dt u)) disps used
    /\ length (b_v b) = length (b_n b) /\ length (b_ngp b) = length (b_n b)
    /\ forall j v a, nth_error (b_v b) j = Some v -> nth_error (b_ngp b) j = Some a ->
       exists d no, nth_error used j = Some d /\ nth_error n_o j = Some no
       /\ let N := INR (length (entries d)) in let x := map (sqlen axes) (entries (values d)) in
          (finite_double v /\ 0 <= value v
           /\ Rabs (sqrt (value v) - sqrt (sample_variance x / value no))
               <= (3 * N + 19) * / 2 ^ 52 * sqrt (rsum (map (fun r => r * r) x) / (N - 1) / value no)
           /\ (average x <> 0 -> finite_double a /\ Rabs (value a - non_gaussian x) <= (5 * N + 38) * / 2 ^ 52 * (non_gaussian x + 1)))%R.
Proof.
  intros Hk HB HT HN HO H. destruct (msd_stored X u dts disps n_o g b g' Hk HB H) as (axes & used & N & L & S & [S1 S2 S3]).
  exists axes, used. split; [exact N|]. split; [exact S|]. split; [now rewrite S1|]. split; [congruence|]. intros j v a Hv Ha.
  destruct (S3 j) as (d & no & E1 & E2 & E3 & _ & E5 & E6); [apply nth_error_Some; congruence|]. exists d, no. split; [exact E1|]. split; [exact E2|].
  rewrite E5 in Hv. injection Hv as <-. rewrite E6 in Ha. injection Ha as <-. cbv zeta.
  pose proof (sub_sample_at _ _ _ _ _ _ S HT E1) as T. pose proof (sub_sample_at _ _ _ _ _ _ S HN E1) as HNd. cbv beta in HNd.
  rewrite Forall_forall in HO. destruct (HO no (nth_error_In _ _ E2)) as [Fno Hno].
  destruct (square_pairs axes d L T) as (ps & P1 & P2 & P3 & P4). rewrite P1, P2, <- P4. rewrite <- P4 in *.
  destruct (variance_near ps no) as (V1 & V2 & V3); try assumption. split; [exact V1|]. split; [exact V2|]. split; [exact V3|].
  intros NZ. apply ngp_near; try assumption. intros Z. rewrite Z in E3. cbn in E3. lia.
Qed.
Lemma tame_int z : Z.abs z <= 8 -> tame (SFofZ z).
Proof.
  intros H. destruct (ofZ_small z) as [F E]; [lia|]. split; [exact F|]. rewrite E. destruct (Z.eq_dec z 0) as [->|N]; [now left|right].
  rewrite <- !(bpow_powerRZ radix2), <- abs_IZR. split.
  - apply Rle_trans with 1%R; [change 1%R with (bpow radix2 0); apply bpow_le; lia|]. apply IZR_le. lia.
  - apply Rle_trans with (IZR 8); [now apply IZR_le|]. change (IZR 8) with (bpow radix2 3). apply bpow_le. lia.
Qed.
Lemma rounding_demo_tame : tame_displacements rounding_demo.
Proof. unfold tame_displacements, rounding_demo. cbn [a_rows]. repeat first [apply Forall_nil|apply Forall_cons]; intros []; apply tame_int; cbn; lia. Qed.
Lemma C80_example_proof {G Seed RS} (X : Ext spec_float G Seed RS) (g : G) :
  exists b, msd_bootstrap X (mkBootParams 1 false false 0 0 (PyStr "xz") (SFofZ 0)) [SFofZ 1] [rounding_demo] [SFofZ 4] g = Ok (b, g)
    /\ b_v b = [SFdiv 53 1024 (SFofZ 49) (SFofZ 12)] /\ b_ngp b = [SFsub 53 1024 (SFdiv 53 1024 (SFdiv 53 1024 (SFofZ 390) (SFofZ 4)) (SFdiv 53 1024 (SFofZ 405) (SFofZ 4))) (SFofZ 1)].
Proof. eexists. split; [reflexivity|]. split; vm_compute; reflexivity. Qed.
