(** * ProofsChain: C88, from stored positions to reported mean squared displacements in double precision *)
From Verif Require Import Base ModelParser ModelDiffusion Spec SpecParser SpecStats SpecDouble SpecUnwrap SpecRun SpecRound SpecChain Lemmas ProofsDisp ProofsParser ProofsWindows ProofsTraj ProofsFloat ProofsUnwrap ProofsBoot ProofsStats ProofsCollective ProofsRound.
From Coq Require Import Reals Lra Lia Psatz Permutation.
From Coq.Floats Require Import SpecFloat.
From Flocq Require Import Core.
Open Scope Z_scope.

#[local] Instance prec_pos : Prec_gt_0 fprec := eq_refl.

(** ** Mean squared displacements, with underflow *)
Definition below (e : Z) (x : spec_float) : Prop := finite_double x /\ (Rabs (value x) <= bpow radix2 e)%R.
Lemma rep_low r : rep r -> (0 <= r)%R -> (r = 0 \/ bpow radix2 (-1074) <= r)%R.
Proof.
  intros H P. destruct (Req_dec r 0) as [Z|Z]; [now left|right]. 
  apply FLT_format_generic in H; [|typeclasses eauto]. destruct H as [f E1 _ E3]. rewrite E1. 
  assert (0 < F2R f)%R by (rewrite <- E1; lra). destruct f as [m e]. cbn [Fnum Fexp] in *. apply gt_0_F2R in H.
  unfold F2R. cbn [Fnum Fexp]. apply Rle_trans with (bpow radix2 e); [apply bpow_le; exact E3|]. rewrite <- (Rmult_1_l (bpow radix2 e)) at 1.
  apply Rmult_le_compat_r; [apply bpow_ge_0|]. apply IZR_le. lia.
Qed.
Lemma rsum_map_nonneg {T} (f : T -> R) l : (forall t, 0 <= f t)%R -> (0 <= rsum (map f l))%R.
Proof. intros H. apply rsum_nonneg. apply Forall_map, Forall_forall. intros t _. apply H. Qed.
Definition tiny : R := (eps * bpow radix2 (-1022))%R.
Lemma tiny_pos : (0 < tiny)%R.
Proof. unfold tiny. apply Rmult_lt_0_compat; [apply eps_range|apply bpow_gt_0]. Qed.
Lemma err_any r : (0 <= r)%R -> (Rabs (rnd r - r) <= eps * r + tiny)%R.
Proof.
  intros H. pose proof tiny_pos. destruct eps_range. destruct (Rle_or_lt (bpow radix2 (-1022)) r) as [L|L].
  - pose proof (err_le r r L ltac:(rewrite Rabs_pos_eq; lra)). lra.
  - pose proof (err_le r (bpow radix2 (-1022)) ltac:(lra) ltac:(rewrite Rabs_pos_eq; lra)). unfold tiny in *. assert (0 <= eps * r)%R by (apply Rmult_le_pos; lra). lra.
Qed.
Lemma square_any x : below 330 x -> approx (-1074) 0 (bpow radix2 660) (SFmul fprec femax x x, value (SFmul fprec femax x x))
  /\ (Rabs (value (SFmul fprec femax x x) - value x * value x) <= eps * (value x * value x) + tiny)%R.
Proof.
  intros [F H]. assert (P : (0 <= value x * value x)%R) by apply Rle_0_sqr.
  assert (U : (value x * value x <= bpow radix2 660)%R).
  { rewrite <- (Rabs_pos_eq (value x * value x)), Rabs_mult by exact P. change 660 with (330 + 330). rewrite bpow_plus. apply Rmult_le_compat; try apply Rabs_pos; exact H. }
  destruct (fv_mul x x _ _ (fv_self _ F) (fv_self _ F)) as [F' E].
  { rewrite Rabs_pos_eq by exact P. eapply Rle_trans; [exact U|]. apply bpow_le. lia. }
  assert (R0 : (0 <= value (SFmul fprec femax x x) <= bpow radix2 660)%R).
  { rewrite E. split.
    - rewrite <- rnd0. apply round_le; [typeclasses eauto..|exact P].
    - eapply Rle_trans; [apply Rle_abs|]. apply rnd_bpow; [lia|]. rewrite Rabs_pos_eq by exact P. exact U. }
  split.
  - constructor; cbn [fst snd]; [exact F'|exact R0|apply rep_low; [now apply finite_rep|lra]|apply near_refl; lra].
  - rewrite E. now apply err_any.
Qed.
Lemma rsum_close {T} (f g : T -> R) e l : Forall (fun t => Rabs (f t - g t) <= eps * g t + e)%R l ->
  (Rabs (rsum (map f l) - rsum (map g l)) <= eps * rsum (map g l) + INR (length l) * e)%R.
Proof.
  induction 1 as [|t l H _ IH]; cbn [map rsum length]; [rewrite Rminus_0_r, Rabs_R0; cbn; lra|]. rewrite S_INR.
  apply abs_le in H, IH. apply abs_le. lra.
Qed.
Lemma computed_square_any axes v x : (length axes <= 3)%nat -> (forall i, below 330 (part v i)) -> computed_square axes v x ->
  exists r, approx (-1074) 3 (3 * bpow radix2 660) (x, r) /\ (Rabs (r - sqlen axes (values3 v)) <= eps * sqlen axes (values3 v) + 3 * tiny)%R.
Proof.
  intros L H C. pose (ps := map (fun a => (SFmul fprec femax (part v a) (part v a), value (SFmul fprec femax (part v a) (part v a)))) axes).
  assert (Hps : Forall (approx (-1074) 0 (bpow radix2 660)) ps).
  { unfold ps. apply Forall_forall. intros p Hp. apply in_map_iff in Hp as (a & <- & _). apply square_any, H. }
  assert (LP : (INR (length axes) <= 3)%R). { change 3%R with (IZR (Z.of_nat 3)). rewrite <- INR_IZR_INZ. now apply le_INR. }
  assert (LP' : length ps = length axes) by apply map_length.
  pose proof (bpow_ge_0 radix2 660) as B0.
  exists (rsum (map snd ps)). split.
  - destruct (sum_near (-1074) 0 (bpow radix2 660) B0 3 _ x C ps) as [F N].
    + unfold ps. rewrite map_map. reflexivity.
    + exact Hps.
    + apply tiny_index. cbn. lra.
    + rewrite LP'. apply Rle_trans with (bpow radix2 3 * bpow radix2 660)%R; [|rewrite <- bpow_plus; apply bpow_le; lia].
      apply Rmult_le_compat_r; [exact B0|]. change (bpow radix2 3) with 8%R. lra.
    + destruct (approx_range _ _ _ _ B0 Hps) as [A1 A2]. rewrite LP' in A2. constructor; cbn [fst snd]; [exact F| |exact (approx_low _ _ _ _ Hps)|exact N]. split; [exact A1|].
      eapply Rle_trans; [exact A2|]. now apply Rmult_le_compat_r.
  - unfold ps, sqlen. rewrite map_map. cbn [snd]. pose proof tiny_pos.
    assert (E : map (fun a => (coord (values3 v) a * coord (values3 v) a)%R) axes = map (fun a => (value (part v a) * value (part v a))%R) axes).
    { apply map_ext. intros a. now rewrite coord_values. }
    rewrite E. eapply Rle_trans; [apply (rsum_close _ (fun a => (value (part v a) * value (part v a))%R) tiny)|].
    + apply Forall_forall. intros a _. apply square_any, H.
    + apply Rplus_le_compat_l. apply Rmult_le_compat_r; lra.
Qed.
Lemma mean_any axes (d : Arr spec_float) : (length axes <= 3)%nat -> Forall (Forall (fun v => forall i, below 330 (part v i))) (a_rows d) ->
  entries d <> [] -> Z.of_nat (length (entries d)) <= 2 ^ 50 ->
  finite_double (nmean (lengths2 axes d)) /\ (0 <= value (nmean (lengths2 axes d)))%R
  /\ (Rabs (value (nmean (lengths2 axes d)) - msd_of axes (values d)) <= (2 * INR (length (entries d)) + 16) * eps * msd_of axes (values d) + 8 * tiny)%R.
Proof.
  intros L MD NE Hn.
  assert (MV : Forall (fun v => forall i, below 330 (part v i)) (entries d)). { unfold entries. now apply Forall_concat. }
  set (M := (3 * bpow radix2 660)%R). assert (HM : (0 <= M)%R) by (unfold M; pose proof (bpow_ge_0 radix2 660); lra).
  assert (EV : entries (values d) = map values3 (entries d)). { unfold entries, values. cbn [a_rows]. symmetry. apply concat_map. }
  pose (q := fun v => sq_norm (map (part v) axes) : spec_float).
  assert (HQ : forall v, computed_square axes v (q v)).
  { intros v. unfold computed_square, q, sq_norm. rewrite map_map. eapply sum_weaken; [apply nsum_sum|]. rewrite map_length. exact L. }
  assert (HP : exists ps, map q (entries d) = map fst ps /\ Forall (approx (-1074) 3 M) ps
     /\ Forall2 (fun v p => Rabs (snd p - sqlen axes (values3 v)) <= eps * sqlen axes (values3 v) + 3 * tiny)%R (entries d) ps).
  { clear NE Hn EV MD. induction MV as [|v vs M1 _ IH]; [exists []; repeat split; constructor|].
    destruct IH as (ps & E & F & G). destruct (computed_square_any axes v (q v) L M1 (HQ v)) as (r & A & B). exists ((q v, r) :: ps).
    cbn [map fst snd]. rewrite E. split; [reflexivity|]. split; constructor; assumption. }
  destruct HP as (ps & E1 & F & G).
  assert (LP : length ps = length (entries d)) by (clear - G; induction G; cbn; congruence).
  unfold nmean. fold q in E1. change (lengths2 axes d) with (map q (entries d)). rewrite map_length.
  set (n := length (entries d)) in *. set (s := nsum (map q (entries d))).
  assert (HS : sum_of n (map q (entries d)) s). { pose proof (nsum_sum (map q (entries d))) as W. now rewrite map_length in W. }
  assert (Hn' : (INR n <= bpow radix2 50)%R). { rewrite INR_IZR_INZ. change (bpow radix2 50) with (IZR (2 ^ 50)). now apply IZR_le. }
  assert (Hn2 : (INR n <= 1125899906842624)%R). { exact Hn'. }
  assert (N1 : (1 <= INR n)%R). { change 1%R with (INR 1). apply le_INR. unfold n. destruct (entries d); [congruence|cbn; lia]. }
  destruct (sum_near (-1074) 3 M HM n _ s HS ps E1 F) as [Fs Ns].
  - apply tiny_index. rewrite plus_INR. cbn [INR]. lra.
  - rewrite LP. apply Rle_trans with (bpow radix2 3 * bpow radix2 50 * bpow radix2 660)%R; [|rewrite <- !bpow_plus; apply bpow_le; lia].
    unfold M. rewrite <- Rmult_assoc. apply Rmult_le_compat_r; [apply bpow_ge_0|]. change (bpow radix2 3) with 8%R. lra.
  - destruct (approx_range _ _ _ _ HM F) as [A1 A2]. assert (K3 : (INR (n + 3) * eps <= / 2)%R) by (apply tiny_index; rewrite plus_INR; cbn [INR]; lra).
    pose proof (near_double _ _ _ A1 K3 Ns) as DB. pose proof (near_nonneg _ _ _ A1 Ns) as P0.
    pose proof (near_abs _ _ _ A1 K3 Ns) as NA. rewrite plus_INR in NA. cbn [INR] in NA.
    destruct (ofZ_small (Z.of_nat n)) as [FZ EZ]; [lia|]. rewrite <- INR_IZR_INZ in EZ.
    assert (IN : (0 < / INR n <= 1)%R). { split; [apply Rinv_0_lt_compat; lra|]. rewrite <- Rinv_1. apply Rinv_le_contravar; lra. }
    assert (Q0 : (0 <= value s / INR n)%R) by (apply Rmult_le_pos; lra).
    assert (SB : (value s <= bpow radix2 1000)%R).
    { eapply Rle_trans; [exact DB|]. apply Rle_trans with (bpow radix2 3 * bpow radix2 50 * bpow radix2 660)%R; [|rewrite <- !bpow_plus; apply bpow_le; lia].
      apply Rle_trans with (2 * (INR n * M))%R; [rewrite LP in A2; lra|]. unfold M. change (bpow radix2 3) with 8%R.
      pose proof (bpow_ge_0 radix2 660). replace (2 * (INR n * (3 * bpow radix2 660)))%R with (6 * INR n * bpow radix2 660)%R by ring. apply Rmult_le_compat_r; lra. }
    destruct (fv_div s (SFofZ (Z.of_nat n)) _ _ (fv_self _ Fs) (conj FZ EZ)) as [Fq Eq]; [lra| |].
    { rewrite Rabs_pos_eq by exact Q0. apply Rle_trans with (value s); [|exact SB]. unfold Rdiv. rewrite <- (Rmult_1_r (value s)) at 2. apply Rmult_le_compat_l; lra. }
    set (msd := msd_of axes (values d)). set (S := rsum (map (fun v => sqlen axes (values3 v)) (entries d))).
    assert (EM : msd = (S * / INR n)%R). { unfold msd, msd_of, average. rewrite EV, map_map, map_length. reflexivity. }
    assert (PSum : (Rabs (rsum (map snd ps) - S) <= eps * S + INR n * (3 * tiny))%R).
    { unfold S, n. clear - G. induction G as [|v p vs ps H _ IH]; cbn [map rsum length]; [rewrite Rminus_0_r, Rabs_R0; cbn; lra|]. rewrite S_INR.
      apply abs_le in H, IH. apply abs_le. lra. }
    change (SFdiv fprec femax s (SFofZ (Z.of_nat n))) with (ndiv s (nofnat n) : spec_float) in Fq, Eq.
    split; [exact Fq|]. rewrite Eq. split; [rewrite <- rnd0; apply round_le; [typeclasses eauto..|exact Q0]|].
    pose proof (err_any _ Q0) as RE. destruct eps_range as [e0 e1]. pose proof tiny_pos as t0.
    set (P := rsum (map snd ps)) in *.
    assert (S0 : (0 <= S)%R). { unfold S. apply rsum_map_nonneg. intros v. unfold sqlen. apply rsum_map_nonneg. intros a. apply Rle_0_sqr. }
    (* divide everything by n *)
    assert (Ps : (Rabs (P * / INR n - msd) <= eps * msd + 3 * tiny)%R).
    { rewrite EM. replace (P * / INR n - S * / INR n)%R with ((P - S) * / INR n)%R by ring. rewrite Rabs_mult, (Rabs_pos_eq (/ INR n)) by lra.
      apply Rle_trans with ((eps * S + INR n * (3 * tiny)) * / INR n)%R; [apply Rmult_le_compat_r; lra|]. right. field. lra. }
    assert (Ss : (Rabs (value s / INR n - P * / INR n) <= 2 * (INR n + 3) * eps * (P * / INR n))%R).
    { unfold Rdiv. replace (value s * / INR n - P * / INR n)%R with ((value s - P) * / INR n)%R by ring. rewrite Rabs_mult, (Rabs_pos_eq (/ INR n)) by lra.
      replace (2 * (INR n + 3) * eps * (P * / INR n))%R with (2 * (INR n + 3) * eps * P * / INR n)%R by ring. apply Rmult_le_compat_r; [lra|].
      eapply Rle_trans; [exact NA|]. right. ring. }
    set (p := (P * / INR n)%R) in *. set (z := (value s / INR n)%R) in *.
    assert (m0 : (0 <= msd)%R) by (rewrite EM; apply Rmult_le_pos; lra).
    assert (p0 : (0 <= p)%R) by (unfold p; apply Rmult_le_pos; lra).
    assert (z2 : (z <= 2 * p)%R). { unfold z, p, Rdiv. rewrite <- Rmult_assoc. apply Rmult_le_compat_r; lra. }
    assert (k0 : ((INR n + 3) * eps <= / 4)%R) by (unfold eps; lra).
    clearbody p z msd. clear - RE Ps Ss e0 e1 t0 m0 p0 z2 k0 N1. set (N := INR n) in *.
    apply abs_le in RE, Ps, Ss. set (k := ((N + 3) * eps)%R) in *.
    assert (E8 : (eps <= / 1000)%R) by (unfold eps; lra).
    assert (pm : (p <= msd + eps * msd + 3 * tiny)%R) by lra.
    assert (kp : (k * p <= k * msd + k * (eps * msd) + k * (3 * tiny))%R). { replace (k * msd + k * (eps * msd) + k * (3 * tiny))%R with (k * (msd + eps * msd + 3 * tiny))%R by ring. apply Rmult_le_compat_l; [unfold k; apply Rmult_le_pos; lra|exact pm]. }
    assert (em : (0 <= eps * msd)%R) by (apply Rmult_le_pos; lra).
    assert (ke : (k * (eps * msd) <= / 4 * (eps * msd))%R) by (apply Rmult_le_compat_r; lra).
    assert (kt : (k * (3 * tiny) <= / 4 * (3 * tiny))%R) by (apply Rmult_le_compat_r; lra).
    assert (ez : (eps * z <= 2 * (eps * p))%R). { replace (2 * (eps * p))%R with (eps * (2 * p))%R by ring. apply Rmult_le_compat_l; lra. }
    assert (ep : (eps * p <= eps * msd + / 1000 * (eps * msd) + / 1000 * (3 * tiny))%R).
    { apply Rle_trans with (eps * (msd + eps * msd + 3 * tiny))%R; [apply Rmult_le_compat_l; lra|]. assert (eps * (eps * msd) <= / 1000 * (eps * msd))%R by (apply Rmult_le_compat_r; lra). assert (eps * (3 * tiny) <= / 1000 * (3 * tiny))%R by (apply Rmult_le_compat_r; lra). lra. }
    replace (2 * (N + 3) * eps * p)%R with (2 * (k * p))%R in Ss by (unfold k; ring).
    replace ((2 * N + 16) * eps * msd)%R with (2 * (k * msd) + 10 * (eps * msd))%R by (unfold k; ring).
    apply abs_le. lra.
Qed.

(** ** Sums and means of doubles of either sign *)
Lemma nsum_snoc (l : list spec_float) x : nsum (l ++ [x])%list = nadd (nsum l) x.
Proof. unfold nsum. now rewrite fold_left_app. Qed.
Lemma sum_abs M l : (bpow radix2 (-1022) <= M)%R -> (4194304 * M <= bpow radix2 1000)%R -> (INR (length l) <= 1048576)%R ->
  Forall (fun x => finite_double x /\ (Rabs (value x) <= M)%R) l ->
  finite_double (nsum l) /\ (Rabs (value (nsum l) - rsum (map value l)) <= 2 * (INR (length l) * INR (length l)) * (eps * M))%R
  /\ (Rabs (rsum (map value l)) <= INR (length l) * M)%R.
Proof.
  intros HM HB. assert (M0 : (0 < M)%R) by (pose proof (bpow_gt_0 radix2 (-1022)); lra). destruct eps_range as [e0 _].
  induction l as [|x l IH] using rev_ind; intros Hn H.
  - cbn. split; [apply zero_fv|]. rewrite Rminus_0_r, Rabs_R0. lra.
  - apply Forall_app in H as [H1 H2]. apply Forall_inv in H2 as [Fx Bx]. rewrite app_length, plus_INR in *. cbn [length INR] in *.
    destruct IH as (F & E & B); [lra|exact H1|]. rewrite nsum_snoc, map_app, rsum_app. cbn [map rsum]. rewrite Rplus_0_r.
    set (n := INR (length l)) in *. assert (n0 : (0 <= n)%R) by apply pos_INR.
    assert (eM : (0 < eps * M)%R) by (now apply Rmult_lt_0_compat).
    assert (ne : (2 * (n * n) * (eps * M) <= n * M)%R).
    { replace (2 * (n * n) * (eps * M))%R with ((2 * n * eps) * (n * M))%R by ring. rewrite <- (Rmult_1_l (n * M)) at 2. apply Rmult_le_compat_r; [apply Rmult_le_pos; lra|]. unfold eps. lra. }
    apply abs_le in E, B, Bx.
    assert (SB : (Rabs (value (nsum l) + value x) <= 2 * (n + 1) * M)%R).
    { apply abs_le. replace (2 * (n + 1) * M)%R with (2 * (n * M) + 2 * M)%R by ring. lra. }
    destruct (fv_add (nsum l) x _ _ (fv_self _ F) (fv_self _ Fx)) as [F' E'].
    { eapply Rle_trans; [exact SB|]. eapply Rle_trans; [|exact HB]. apply Rmult_le_compat_r; lra. }
    change (SFadd fprec femax (nsum l) x) with (nadd (nsum l) x) in F', E'. split; [exact F'|].
    assert (RE : (Rabs (rnd (value (nsum l) + value x) - (value (nsum l) + value x)) <= eps * (2 * (n + 1) * M))%R).
    { apply err_le; [|exact SB]. eapply Rle_trans; [exact HM|]. rewrite <- (Rmult_1_l M) at 1. apply Rmult_le_compat_r; lra. }
    rewrite E'. apply abs_le in RE. replace (eps * (2 * (n + 1) * M))%R with (2 * (n * (eps * M)) + 2 * (eps * M))%R in RE by ring.
    replace (2 * ((n + 1) * (n + 1)) * (eps * M))%R with (2 * (n * n) * (eps * M) + 4 * (n * (eps * M)) + 2 * (eps * M))%R by ring.
    assert (0 <= n * (eps * M))%R by (apply Rmult_le_pos; lra). replace ((n + 1) * M)%R with (n * M + M)%R by ring.
    split; apply abs_le; lra.
Qed.
Lemma mean_abs M l : l <> [] -> (bpow radix2 (-1022) <= M)%R -> (4194304 * M <= bpow radix2 1000)%R -> (INR (length l) <= 1048576)%R ->
  Forall (fun x => finite_double x /\ (Rabs (value x) <= M)%R) l ->
  finite_double (nmean l) /\ (Rabs (value (nmean l) - average (map value l)) <= (2 * INR (length l) + 2) * (eps * M))%R.
Proof.
  intros NE HM HB Hn H. destruct (sum_abs M l HM HB Hn H) as (F & E & B). destruct eps_range as [e0 _].
  assert (M0 : (0 < M)%R) by (pose proof (bpow_gt_0 radix2 (-1022)); lra). assert (eM : (0 < eps * M)%R) by (now apply Rmult_lt_0_compat).
  set (n := INR (length l)) in *. assert (N1 : (1 <= n)%R). { unfold n. change 1%R with (INR 1). apply le_INR. destruct l; [congruence|cbn; lia]. }
  assert (IN : (0 < / n)%R) by (apply Rinv_0_lt_compat; lra).
  destruct (ofZ_small (Z.of_nat (length l))) as [FZ EZ].
  { apply lt_IZR. rewrite abs_IZR, <- INR_IZR_INZ. fold n. rewrite Rabs_pos_eq by lra. apply Rle_lt_trans with 1048576%R; [exact Hn|]. change (IZR (2 ^ 53)) with 9007199254740992%R. lra. }
  rewrite <- INR_IZR_INZ in EZ. fold n in EZ.
  set (s := value (nsum l)) in *. set (r := rsum (map value l)) in *.
  assert (D : (Rabs (s * / n - r * / n) <= 2 * n * (eps * M))%R).
  { replace (s * / n - r * / n)%R with ((s - r) * / n)%R by ring. rewrite Rabs_mult, (Rabs_pos_eq (/ n)) by lra.
    replace (2 * n * (eps * M))%R with (2 * (n * n) * (eps * M) * / n)%R by (field; lra). apply Rmult_le_compat_r; lra. }
  assert (RB : (Rabs (r * / n) <= M)%R).
  { rewrite Rabs_mult, (Rabs_pos_eq (/ n)) by lra. replace M with (n * M * / n)%R at 1 by (field; lra). apply Rmult_le_compat_r; lra. }
  assert (ne : (2 * n * (eps * M) <= M)%R).
  { replace (2 * n * (eps * M))%R with ((2 * n * eps) * M)%R by ring. rewrite <- (Rmult_1_l M) at 2. apply Rmult_le_compat_r; [lra|]. unfold eps. lra. }
  apply abs_le in D, RB. assert (SB : (Rabs (s / n) <= 2 * M)%R) by (apply abs_le; unfold Rdiv; lra).
  destruct (fv_div (nsum l) (SFofZ (Z.of_nat (length l))) _ _ (fv_self _ F) (conj FZ EZ)) as [F' E']; [lra| |].
  { fold s. eapply Rle_trans; [exact SB|]. lra. }
  change (SFdiv fprec femax (nsum l) (SFofZ (Z.of_nat (length l)))) with (nmean l) in F', E'. split; [exact F'|].
  rewrite E'. fold s. assert (RE : (Rabs (rnd (s / n) - s / n) <= eps * (2 * M))%R) by (apply err_le; [lra|exact SB]).
  apply abs_le in RE. unfold average. rewrite map_length. fold r n. unfold Rdiv in *. apply abs_le.
  replace ((2 * n + 2) * (eps * M))%R with (2 * n * (eps * M) + eps * (2 * M))%R by ring. lra.
Qed.

(** ** The parser at any number type *)
Section Generic.
  Context {A : Type} {NA : Num A}.
  Definition gobs (x : nat -> V3 A) (n o : nat) : V3 A := match o with O => x (n - 1)%nat | S j => vsub (x (j + n)%nat) (x j) end.
  Definition gwindow (N T : nat) (x : nat -> nat -> V3 A) (idx : list Z) (n : nat) : Arr A :=
    mkArr (T - n + 1) (map (fun i => tab (T - n + 1) (gobs (x (site N i)) n)) idx).
  Definition gdrift (N : nat) (drift : list Z) (y : nat -> nat -> V3 A) (a t : nat) : V3 A :=
    match drift with [] => y a t | _ => vsub (y a t) (vmean (map (fun f => y (site N f) t) drift)) end.
  Lemma gtable (d : Arr A) N T : a_obs d = T -> shape (a_rows d) N T -> d = table N T (fun a t => nth t (nth a (a_rows d) []) v0).
  Proof.
    intros E [L F]. destruct d as [obs rows]. cbn [a_obs a_rows] in *. subst obs. unfold table. f_equal. unfold tab. rewrite <- L.
    rewrite <- (map_nth_seq [] rows) at 1. apply map_seq_ext. intros a Ha. rewrite Forall_forall in F.
    rewrite <- (F (nth a rows [])) at 1 by (apply nth_In; exact Ha). symmetry. apply map_nth_seq.
  Qed.
  Lemma gdrift_table N T drift y dc : correct_drift drift (table N T y) = Ok dc -> Forall (valid_site N) drift -> dc = table N T (gdrift N drift y).
  Proof.
    unfold correct_drift. intros H V. destruct drift as [|z l]; [injection H as <-; reflexivity|]. cbn [table a_rows a_obs] in H.
    rewrite gather_tab in H by exact V. cbn beta iota delta [bind] in H. injection H as <-. unfold table. f_equal. rewrite tab_map. apply tab_ext. intros a Ha.
    change (map ?f (seq 0 T)) with (tab T f). rewrite zip_with_tab. apply tab_ext. intros t Ht. unfold gdrift. f_equal. f_equal. rewrite map_map. refine (map_ext (fun f => nth t (tab T (y (site N f))) v0) (fun f => y (site N f) t) _ (z :: l)). intros f.
    now apply tab_nth.
  Qed.
  Lemma grow T (x : nat -> V3 A) n : (0 < n <= T)%nat -> multi_origin_row (Z.of_nat n) (tab T x) = Ok (tab (T - n + 1) (gobs x n)).
  Proof.
    intros H. unfold multi_origin_row.
    rewrite py_index_tab by (unfold valid_site; lia).
    replace (site T (Z.of_nat n - 1)) with (n - 1)%nat
      by (unfold site; destruct (Z.of_nat n - 1 <? 0) eqn:E; [apply Z.ltb_lt in E; lia|lia]).
    cbn beta iota delta [bind]. rewrite py_from_tab, py_to_opp_tab by lia. rewrite broadcast2_tab. cbn beta iota delta [bind].
    f_equal. rewrite Nat.add_1_r, tab_S. cbn [gobs]. f_equal.
    apply tab_ext. intros i Hi. cbn [gobs]. f_equal. f_equal. lia.
  Qed.
  Lemma gorigin N T (x : nat -> nat -> V3 A) idx n : (0 < n <= T)%nat ->
    multi_origin (Z.of_nat n) (map (fun i => tab T (x (site N i))) idx) T = Ok (gwindow N T x idx n).
  Proof.
    intros H. unfold multi_origin. rewrite seq_tab.
    rewrite py_from_tab, py_to_opp_tab by lia. rewrite broadcast2_tab. cbn beta iota delta [bind].
    rewrite py_index_tab by (unfold valid_site; lia). cbn beta iota delta [bind].
    rewrite mapM_map.
    rewrite (mapM_total _ (fun i => tab (T - n + 1) (gobs (x (site N i)) n))).
    - cbn beta iota delta [bind]. rewrite tab_length. unfold gwindow. f_equal. f_equal. lia.
    - intros i _. now apply grow.
  Qed.
  Lemma gloop N T (x : nat -> nat -> V3 A) idx last tis : forall i r, Forall (fun n => (0 < n <= T)%nat) tis ->
    disps_loop "multi-origin" (map (fun i => tab T (x (site N i))) idx) T last i (map Z.of_nat tis) = Ok r ->
    fst r = map (gwindow N T x idx) (filter (enough (length idx) T) tis).
  Proof.
    induction tis as [|n tis IH]; intros i r H E; cbn [map disps_loop filter] in *; [injection E as <-; reflexivity|].
    inversion H as [|? ? Hn Ht]; subst.
    unfold window in E. cbn [String.eqb Ascii.eqb Bool.eqb] in E. rewrite gorigin in E by exact Hn. cbn beta iota delta [bind] in E.
    cbn [a_obs gwindow] in E. rewrite stride_count_nat in E by lia. cbn beta iota delta [bind] in E. inv_bind E tl E1. apply IH in E1; [|exact Ht].
    cbn [a_rows gwindow] in E. rewrite map_length in E.
    destruct (enough (length idx) T n) eqn:En; unfold enough in En.
    - apply Nat.ltb_lt in En.
      destruct (Z.of_nat (length idx) * Z.of_nat (kept (T - n + 1) n) <=? 1) eqn:E2; [apply Z.leb_le in E2; nia|].
      injection E as <-. cbn [fst map]. now rewrite E1.
    - apply Nat.ltb_ge in En.
      destruct (Z.of_nat (length idx) * Z.of_nat (kept (T - n + 1) n) <=? 1) eqn:E2; [|apply Z.leb_gt in E2; nia]. injection E as <-. exact E1.
  Qed.
  Lemma gparser gs N T y idx drift ts ss (o : Options A) p ns : parser_init gs (table N T y) idx drift ts ss o = Ok p ->
    o_sampling o = "multi-origin"%string -> Forall (valid_site N) idx -> Forall (valid_site N) drift ->
    p_intervals p = map Z.of_nat ns -> Forall (fun n => (0 < n <= T)%nat) ns ->
    p_disp_3d p = map (gwindow N T (gdrift N drift y) idx) (filter (enough (length idx) T) ns).
  Proof.
    intros H HS Vi Vd Ei Hn. unfold parser_init in H. inv_bind H dc E. apply gdrift_table in E; [|exact Vd]. subst dc.
    inv_bind H q E1. inv_bind H mi E2. destruct (_ <=? mi) in H; [discriminate|]. inv_bind H tis E3. inv_bind H r E4. injection H as <-. cbn [p_intervals p_disp_3d] in *.
    subst tis. rewrite HS in E4. unfold get_disps in E4. destruct ns as [|n ns].
    - cbn [map] in E4. destruct (nltb _ _) in E4; [discriminate|]. injection E4 as <-. reflexivity.
    - cbn [map] in E4. cbn [table a_rows a_obs] in E4. rewrite gather_tab in E4 by exact Vi. cbn beta iota delta [bind] in E4. destruct (nltb _ _) in E4; [discriminate|].
      inv_bind E4 r1 E5. injection E4 as <-. cbn [fst snd]. change (Z.of_nat n :: map Z.of_nat ns) with (map Z.of_nat (n :: ns)) in E5. apply gloop in E5; [exact E5|exact Hn].
  Qed.
End Generic.

(** ** Errors of drift correction and windows *)
Lemma average_close {T} (f g : T -> R) e l : l <> [] -> (forall x, In x l -> (Rabs (f x - g x) <= e)%R) ->
  (Rabs (average (map f l) - average (map g l)) <= e)%R.
Proof.
  intros NE H. rewrite <- average_minus. unfold average. rewrite map_length.
  assert (N1 : (1 <= INR (length l))%R) by (change 1%R with (INR 1); apply le_INR; destruct l; [congruence|cbn; lia]).
  assert (B : (Rabs (rsum (map (fun x => f x - g x) l)) <= INR (length l) * e)%R).
  { clear NE N1. induction l as [|x l IH]; [cbn; rewrite Rabs_R0; lra|]. cbn [map rsum length]. rewrite S_INR.
    eapply Rle_trans; [apply Rabs_triang|]. pose proof (H x (or_introl eq_refl)). assert (Rabs (rsum (map (fun x => f x - g x) l)) <= INR (length l) * e)%R by (apply IH; intros; apply H; now right). lra. }
  unfold Rdiv. rewrite Rabs_mult, (Rabs_pos_eq (/ _)) by (left; apply Rinv_0_lt_compat; lra).
  apply Rmult_le_reg_r with (INR (length l)); [lra|]. rewrite Rmult_assoc, Rinv_l, Rmult_1_r by lra. lra.
Qed.
Lemma part_vmean (l : list (V3 spec_float)) i : part (vmean l) i = nmean (map (fun v => part v i) l).
Proof. now destruct i. Qed.
Lemma part_values v i : part (values3 v) i = value (part v i).
Proof. now destruct i. Qed.
Lemma part_moved_rel side x fw o m a i : part (moved_rel side x fw o m a) i
  = match fw with [] => moved side x o m a i | _ => (moved side x o m a i - average (map (fun f => moved side x o m f i) fw))%R end.
Proof. now destruct i. Qed.
Lemma moved_split side x o m a i : moved side x o m a i = (moved side x 0 (o + m) a i - moved side x 0 o a i)%R.
Proof. unfold moved. cbn [Nat.add]. ring. Qed.
Lemma moved_rel_split side x fw o m a i : part (moved_rel side x fw o m a) i = (part (moved_rel side x fw 0 (o + m) a) i - part (moved_rel side x fw 0 o a) i)%R.
Proof.
  rewrite !part_moved_rel. destruct fw as [|f l]; [apply moved_split|]. rewrite (moved_split side x o m a i).
  rewrite (map_ext (fun f => moved side x o m f i) (fun f => moved side x 0 (o + m) f i - moved side x 0 o f i)%R) by (intros; apply moved_split).
  rewrite average_minus. ring.
Qed.

Lemma list_empty {T} (l : list T) : l = [] \/ l <> [].
Proof. destruct l; [now left|right; discriminate]. Qed.
Lemma gdrift_ne N drift (y : nat -> nat -> V3 spec_float) a t : drift <> [] -> gdrift N drift y a t = vsub (y a t) (vmean (map (fun f => y (site N f) t) drift)).
Proof. destruct drift; [congruence|reflexivity]. Qed.
Lemma part_moved_rel_ne side x drift (h : Z -> nat) o m a i : drift <> [] ->
  part (moved_rel side x (map h drift) o m a) i = (moved side x o m a i - average (map (fun f => moved side x o m (h f) i) drift))%R.
Proof. intros NE. rewrite part_moved_rel, map_map. destruct drift; [congruence|reflexivity]. Qed.

Section Errors.
  Context (side : V3 spec_float) (n natoms : nat) (x : nat -> nat -> V3 R) (Y : nat -> nat -> V3 spec_float) (drift : list Z).
  Let L i := value (part side i).
  Let S' := values3 side.
  Let fw := map (site natoms) drift.
  Let F := INR (length drift).
  Hypothesis Hs : forall i, usual_length (part side i).
  Hypothesis Hx : forall f a i, (f < n)%nat -> (a < natoms)%nat -> (Rabs (part (x (S f) a) i - part (x f a) i) <= / 2)%R.
  Hypothesis HY : forall a t i, (a < natoms)%nat -> (t < n)%nat -> finite_double (part (Y a t) i)
    /\ (Rabs (value (part (Y a t) i) - moved S' x 0 (S t) a i) <= 16 * (INR (S t) * INR (S t)) * (eps * L i))%R.
  Hypothesis Hn : (INR n <= 1048576)%R.
  Hypothesis HF : (F <= 1048576)%R.
  Hypothesis Hd : Forall (valid_site natoms) drift.
  Lemma L_len i : len (L i). Proof. apply usual_len, Hs. Qed.
  Lemma moved_le o m a i : (o + m <= n)%nat -> (a < natoms)%nat -> (Rabs (moved S' x o m a i) <= INR m * (/ 2 * L i))%R.
  Proof.
    intros H Ha. pose proof (len_pos _ (L_len i)) as P. unfold moved, S'. rewrite part_values. fold (L i). rewrite Rabs_mult, (Rabs_pos_eq (L i)) by lra. rewrite <- Rmult_assoc.
    apply Rmult_le_compat_r; [lra|]. induction m as [|m IH].
    - rewrite Nat.add_0_r, Rminus_diag_eq by reflexivity. rewrite Rabs_R0. cbn. lra.
    - rewrite S_INR. replace (o + S m)%nat with (S (o + m)) by lia. specialize (IH ltac:(lia)). specialize (Hx (o + m)%nat a i ltac:(lia) Ha).
      apply abs_le in IH, Hx. apply abs_le. lra.
  Qed.
  Lemma S_bound t : (t < n)%nat -> (1 <= INR (S t) <= 1048576)%R.
  Proof. intros H. split; [rewrite S_INR; pose proof (pos_INR t); lra|]. eapply Rle_trans; [apply le_INR|exact Hn]. lia. Qed.
  Lemma Y_bound a t i : (a < natoms)%nat -> (t < n)%nat -> (Rabs (value (part (Y a t) i)) <= INR (S t) * L i)%R.
  Proof.
    intros Ha Ht. destruct (HY a t i Ha Ht) as [_ E]. pose proof (moved_le 0 (S t) a i Ht Ha) as M. pose proof (len_pos _ (L_len i)) as P. destruct (S_bound t Ht) as [s1 s2].
    set (s := INR (S t)) in *. apply abs_le in E, M.
    assert (B : (16 * (s * s) * (eps * L i) <= / 2 * (s * L i))%R).
    { replace (16 * (s * s) * (eps * L i))%R with ((16 * s * eps) * (s * L i))%R by ring. apply Rmult_le_compat_r; [apply Rmult_le_pos; lra|]. unfold eps. lra. }
    replace (s * (/ 2 * L i))%R with (/ 2 * (s * L i))%R in M by ring. apply abs_le. lra.
  Qed.
  Lemma sL_big t i : (t < n)%nat -> (bpow radix2 (-1022) <= INR (S t) * L i)%R /\ (4194304 * (INR (S t) * L i) <= bpow radix2 1000)%R.
  Proof.
    intros Ht. destruct (S_bound t Ht) as [s1 s2]. split; [apply len_big; [apply L_len|exact s1]|].
    pose proof (L_len i) as [_ U]. pose proof (len_pos _ (L_len i)) as P. apply Rle_trans with (bpow radix2 22 * (bpow radix2 20 * bpow radix2 300))%R; [|rewrite <- !bpow_plus; apply bpow_le; lia].
    change (bpow radix2 22) with 4194304%R. apply Rmult_le_compat_l; [lra|]. change (bpow radix2 20) with 1048576%R. apply Rmult_le_compat; lra.
  Qed.
  Lemma drift_close a t i : (a < natoms)%nat -> (t < n)%nat ->
    finite_double (part (gdrift natoms drift Y a t) i)
    /\ (Rabs (value (part (gdrift natoms drift Y a t) i) - part (moved_rel S' x fw 0 (S t) a) i) <= (32 * (INR (S t) * INR (S t)) + (2 * F + 5) * INR (S t)) * (eps * L i))%R
    /\ (Rabs (value (part (gdrift natoms drift Y a t) i)) <= 3 * (INR (S t) * L i))%R.
  Proof.
    intros Ha Ht. destruct (HY a t i Ha Ht) as [Fy Ey]. pose proof (Y_bound a t i Ha Ht) as By. destruct (S_bound t Ht) as [s1 s2]. destruct (sL_big t i Ht) as [B1 B2].
    pose proof (len_pos _ (L_len i)) as P. destruct eps_range as [e0 e1]. assert (eL : (0 < eps * L i)%R) by (now apply Rmult_lt_0_compat).
    assert (F0 : (0 <= F)%R) by apply pos_INR. set (s := INR (S t)) in *.
    assert (s0 : (0 < s * L i)%R) by (apply Rmult_lt_0_compat; lra).
    assert (ss0 : (0 <= s * s * (eps * L i))%R) by (apply Rmult_le_pos; [nra|lra]).
    assert (se0 : (0 <= s * (eps * L i))%R) by (apply Rmult_le_pos; lra).
    assert (fs0 : (0 <= F * (s * (eps * L i)))%R) by (apply Rmult_le_pos; lra).
    replace ((32 * (s * s) + (2 * F + 5) * s) * (eps * L i))%R with (32 * (s * s * (eps * L i)) + 2 * (F * (s * (eps * L i))) + 5 * (s * (eps * L i)))%R by ring.
    replace (16 * (s * s) * (eps * L i))%R with (16 * (s * s * (eps * L i)))%R in Ey by ring.
    destruct (list_empty drift) as [E0|NE].
    - rewrite part_moved_rel. unfold fw. rewrite E0. cbn [map gdrift]. split; [exact Fy|]. split; [|lra]. apply abs_le in Ey. apply abs_le. lra.
    - rewrite (part_moved_rel_ne S' x drift (site natoms) 0 (S t) a i NE : part (moved_rel S' x fw 0 (S t) a) i = _), (gdrift_ne natoms drift Y a t NE). rewrite part_sub, part_vmean, map_map.
      set (g := nmean (map (fun f => part (Y (site natoms f) t) i) drift) : spec_float).
      assert (Vs : forall f, In f drift -> (site natoms f < natoms)%nat).
      { intros f If. rewrite Forall_forall in Hd. specialize (Hd f If). unfold valid_site in Hd. unfold site. destruct (f <? 0) eqn:Q; [apply Z.ltb_lt in Q|apply Z.ltb_ge in Q]; lia. }
      destruct (mean_abs (s * L i) (map (fun f => part (Y (site natoms f) t) i) drift)) as [Fg Eg].
      { intros Q. apply map_eq_nil in Q. exact (NE Q). } { exact B1. } { exact B2. } { rewrite map_length. exact HF. }
      { apply Forall_map, Forall_forall. intros f If. split; [apply HY|apply Y_bound]; auto. }
      fold g in Fg, Eg. rewrite map_length, map_map in Eg. fold F in Eg.
      assert (AC : (Rabs (average (map (fun f => value (part (Y (site natoms f) t) i)) drift) - average (map (fun f => moved S' x 0 (S t) (site natoms f) i) drift)) <= 16 * (s * s * (eps * L i)))%R).
      { apply average_close; [exact NE|]. intros f If. destruct (HY (site natoms f) t i (Vs f If) Ht) as [_ E]. fold s in E. replace (16 * (s * s * (eps * L i)))%R with (16 * (s * s) * (eps * L i))%R by ring. exact E. }
      assert (AB : (Rabs (average (map (fun f => value (part (Y (site natoms f) t) i)) drift) - average (map (fun _ => 0) drift)) <= s * L i)%R).
      { apply average_close; [exact NE|]. intros f If. rewrite Rminus_0_r. apply Y_bound; auto. }
      rewrite average_const in AB by exact NE.
      set (av := average (map (fun f => value (part (Y (site natoms f) t) i)) drift)) in *. set (am := average (map (fun f => moved S' x 0 (S t) (site natoms f) i) drift)) in *.
      replace ((2 * F + 2) * (eps * (s * L i)))%R with (2 * (F * (s * (eps * L i))) + 2 * (s * (eps * L i)))%R in Eg by ring.
      assert (FE : (2 * (F * (s * (eps * L i))) + 2 * (s * (eps * L i)) <= / 1000 * (s * L i))%R).
      { replace (2 * (F * (s * (eps * L i))) + 2 * (s * (eps * L i)))%R with ((2 * F + 2) * eps * (s * L i))%R by ring. apply Rmult_le_compat_r; [lra|]. unfold eps. lra. }
      apply abs_le in Ey, By, Eg, AC, AB.
      assert (SB : (Rabs (value (part (Y a t) i) - value g) <= 21/10 * (s * L i))%R) by (apply abs_le; lra).
      destruct (fv_sub (part (Y a t) i) g _ _ (fv_self _ Fy) (fv_self _ Fg)) as [Fz Ez].
      { eapply Rle_trans; [exact SB|]. lra. }
      assert (RE : (Rabs (rnd (value (part (Y a t) i) - value g) - (value (part (Y a t) i) - value g)) <= eps * (21/10 * (s * L i)))%R) by (apply err_le; [lra|exact SB]).
      apply abs_le in RE, SB. replace (eps * (21/10 * (s * L i)))%R with (21/10 * (s * (eps * L i)))%R in RE by ring.
      assert (SE : (s * (eps * L i) <= / 1000 * (s * L i))%R). { replace (s * (eps * L i))%R with (eps * (s * L i))%R by ring. apply Rmult_le_compat_r; [lra|]. unfold eps. lra. }
      change (part (Y a t) i) with (part (Y a t) i) in Fz. split; [exact Fz|]. rewrite Ez. split; apply abs_le; lra.
  Qed.
  Definition total_error : R := (INR n * (16 * INR n + F + 6) * / 2 ^ 51)%R.
  Lemma window_close a m o i : (a < natoms)%nat -> (0 < m)%nat -> (o + m <= n)%nat ->
    below 330 (part (gobs (gdrift natoms drift Y a) m o) i)
    /\ (Rabs (value (part (gobs (gdrift natoms drift Y a) m o) i) - part (moved_rel S' x fw o m a) i) <= total_error * L i)%R.
  Proof.
    intros Ha Hm Ho. pose proof (len_pos _ (L_len i)) as P. destruct eps_range as [e0 e1]. assert (eL : (0 < eps * L i)%R) by (now apply Rmult_lt_0_compat).
    assert (F0 : (0 <= F)%R) by apply pos_INR. set (N := INR n) in *.
    assert (N1 : (1 <= N)%R). { unfold N. change 1%R with (INR 1). apply le_INR. lia. }
    assert (TE : (total_error * L i = (64 * (N * N) + 4 * (F * N) + 24 * N) * (eps * L i))%R).
    { unfold total_error, eps. fold N. cbn [pow]. field. }
    assert (CL : forall t, (t < n)%nat -> ((32 * (INR (S t) * INR (S t)) + (2 * F + 5) * INR (S t)) * (eps * L i) <= (32 * (N * N) + 2 * (F * N) + 5 * N) * (eps * L i))%R /\ (3 * (INR (S t) * L i) <= 3 * (N * L i))%R).
    { intros t Ht. destruct (S_bound t Ht) as [s1 _]. assert (sN : (INR (S t) <= N)%R) by (apply le_INR; lia). set (s := INR (S t)) in *. split.
      - apply Rmult_le_compat_r; [lra|]. assert (s * s <= N * N)%R by (apply Rmult_le_compat; lra). assert (F * s <= F * N)%R by (apply Rmult_le_compat_l; lra). lra.
      - assert (s * L i <= N * L i)%R by (apply Rmult_le_compat_r; lra). lra. }
    assert (NL : (8 * (N * L i) <= bpow radix2 330)%R).
    { pose proof (L_len i) as [_ U]. apply Rle_trans with (bpow radix2 3 * (bpow radix2 20 * bpow radix2 300))%R; [|rewrite <- !bpow_plus; apply bpow_le; lia].
      change (bpow radix2 3) with 8%R. apply Rmult_le_compat_l; [lra|]. change (bpow radix2 20) with 1048576%R. apply Rmult_le_compat; lra. }
    assert (NL0 : (0 < N * L i)%R) by (apply Rmult_lt_0_compat; lra).
    assert (NNe : (0 <= N * (eps * L i))%R) by (apply Rmult_le_pos; lra).
    assert (NN2 : (0 <= N * N * (eps * L i))%R) by (apply Rmult_le_pos; [nra|lra]).
    assert (FN : (0 <= F * N * (eps * L i))%R) by (apply Rmult_le_pos; [nra|lra]).
    rewrite TE. replace ((64 * (N * N) + 4 * (F * N) + 24 * N) * (eps * L i))%R with (64 * (N * N * (eps * L i)) + 4 * (F * N * (eps * L i)) + 24 * (N * (eps * L i)))%R by ring.
    assert (CC : ((32 * (N * N) + 2 * (F * N) + 5 * N) * (eps * L i) = 32 * (N * N * (eps * L i)) + 2 * (F * N * (eps * L i)) + 5 * (N * (eps * L i)))%R) by ring.
    destruct o as [|j]; cbn [gobs].
    - destruct (drift_close a (m - 1) i Ha ltac:(lia)) as (Fz & Ez & Bz). destruct (CL (m - 1)%nat ltac:(lia)) as [C1 C2]. replace (S (m - 1)) with m in * by lia.
      apply abs_le in Ez, Bz. split.
      + split; [exact Fz|]. apply abs_le. lra.
      + apply abs_le. lra.
    - rewrite moved_rel_split, part_sub.
      destruct (drift_close a (j + m) i Ha ltac:(lia)) as (Fz & Ez & Bz). destruct (CL (j + m)%nat ltac:(lia)) as [C1 C2].
      destruct (drift_close a j i Ha ltac:(lia)) as (Fw & Ew & Bw). destruct (CL j ltac:(lia)) as [D1 D2].
      change (S j + m)%nat with (S (j + m)). apply abs_le in Ez, Bz, Ew, Bw.
      set (z := part (gdrift natoms drift Y a (j + m)) i) in *. set (w := part (gdrift natoms drift Y a j) i) in *.
      assert (SB : (Rabs (value z - value w) <= 6 * (N * L i))%R) by (apply abs_le; lra).
      destruct (fv_sub z w _ _ (fv_self _ Fz) (fv_self _ Fw)) as [Fr Er].
      { eapply Rle_trans; [exact SB|]. apply Rle_trans with (bpow radix2 330); [lra|]. apply bpow_le. lia. }
      assert (RE : (Rabs (rnd (value z - value w) - (value z - value w)) <= eps * (6 * (N * L i)))%R).
      { apply err_le; [|exact SB]. rewrite <- Rmult_assoc. apply len_big; [apply L_len|lra]. }
      apply abs_le in RE, SB. replace (eps * (6 * (N * L i)))%R with (6 * (N * (eps * L i)))%R in RE by ring.
      assert (SE : (N * (eps * L i) <= / 1000 * (N * L i))%R). { replace (N * (eps * L i))%R with (eps * (N * L i))%R by ring. apply Rmult_le_compat_r; [lra|]. unfold eps. lra. }
      split.
      + split; [exact Fr|]. rewrite Er. apply abs_le. lra.
      + rewrite Er. apply abs_le. lra.
  Qed.
End Errors.

(** ** Root mean squares *)
Section Minkowski.
  Context {T : Type}.
  Implicit Types u v : T -> R.
  Definition ssq u l : R := rsum (map (fun t => u t * u t)%R l).
  Lemma ssq_nonneg u l : (0 <= ssq u l)%R.
  Proof. unfold ssq. apply rsum_map_nonneg. intros t. apply Rle_0_sqr. Qed.
  Lemma dot_map u v l : dot (map u l) (map v l) = rsum (map (fun t => u t * v t)%R l).
  Proof. unfold dot. induction l as [|t l IH]; [reflexivity|]. cbn [map combine rsum fst snd]. now rewrite IH. Qed.
  Lemma cross_le u v l : (rsum (map (fun t => u t * v t) l) <= sqrt (ssq u l) * sqrt (ssq v l))%R.
  Proof.
    rewrite <- sqrt_mult by apply ssq_nonneg. apply Rle_trans with (Rabs (rsum (map (fun t => u t * v t)%R l))); [apply Rle_abs|]. rewrite <- sqrt_Rsqr_abs. apply sqrt_le_1_alt.
    rewrite <- dot_map. unfold Rsqr. eapply Rle_trans; [apply cauchy; now rewrite !map_length|]. unfold ssq. rewrite !map_map. apply Rle_refl.
  Qed.
  Lemma minkowski u v l : (sqrt (ssq u l) <= sqrt (ssq v l) + sqrt (ssq (fun t => u t - v t)%R l))%R.
  Proof.
    pose proof (sqrt_pos (ssq v l)) as P1. pose proof (sqrt_pos (ssq (fun t => u t - v t)%R l)) as P2.
    rewrite <- (sqrt_Rsqr (sqrt (ssq v l) + sqrt (ssq (fun t => u t - v t)%R l))) by lra. apply sqrt_le_1_alt. unfold Rsqr.
    pose proof (sqrt_sqrt _ (ssq_nonneg v l)) as Q1. pose proof (sqrt_sqrt _ (ssq_nonneg (fun t => u t - v t)%R l)) as Q2. pose proof (cross_le v (fun t => u t - v t)%R l) as C.
    assert (E : ssq u l = (ssq v l + 2 * rsum (map (fun t => v t * (u t - v t)) l) + ssq (fun t => u t - v t) l)%R).
    { unfold ssq. clear. induction l as [|t l IH]; cbn [map rsum]; [lra|]. rewrite IH. ring. }
    rewrite E. revert P1 P2 Q1 Q2 C. generalize (sqrt (ssq v l)) (sqrt (ssq (fun t => u t - v t)%R l)). intros; nra.
  Qed.
  Lemma ssq_sym u v l : ssq (fun t => u t - v t)%R l = ssq (fun t => v t - u t)%R l.
  Proof. unfold ssq. f_equal. apply map_ext. intros t. ring. Qed.
  Lemma minkowski_abs u v l : (Rabs (sqrt (ssq u l) - sqrt (ssq v l)) <= sqrt (ssq (fun t => u t - v t)%R l))%R.
  Proof. pose proof (minkowski u v l). pose proof (minkowski v u l) as M. rewrite (ssq_sym v u l) in M. apply abs_le. lra. Qed.
End Minkowski.
Lemma ssq_concat {T} (u : T -> R) ls : ssq u (List.concat ls) = rsum (map (ssq u) ls).
Proof.
  induction ls as [|l ls IH]; [reflexivity|]. cbn [List.concat map rsum]. rewrite <- IH. unfold ssq. now rewrite map_app, rsum_app.
Qed.
Lemma rms_close {T} axes (f g : T -> V3 R) (w : V3 R) c l : l <> [] -> (0 <= c)%R ->
  (forall t i, In t l -> (Rabs (part (f t) i - part (g t) i) <= c * part w i)%R) ->
  (Rabs (sqrt (average (map (fun t => sqlen axes (f t)) l)) - sqrt (average (map (fun t => sqlen axes (g t)) l))) <= c * sqrt (sqlen axes w))%R.
Proof.
  intros NE C0 H.
  assert (N1 : (1 <= INR (length l))%R) by (change 1%R with (INR 1); apply le_INR; destruct l; [congruence|cbn; lia]). set (N := INR (length l)) in *.
  assert (IN : (0 < / N)%R) by (apply Rinv_0_lt_compat; lra).
  pose (J := List.concat (map (fun t => map (pair t) axes) l)).
  assert (EJ : forall h : T -> V3 R, rsum (map (fun t => sqlen axes (h t)) l) = ssq (fun j => part (h (fst j)) (snd j)) J).
  { intros h. unfold J. rewrite ssq_concat, map_map. f_equal. apply map_ext. intros t. unfold sqlen, ssq. rewrite map_map. reflexivity. }
  assert (EA : forall h : T -> V3 R, sqrt (average (map (fun t => sqlen axes (h t)) l)) = (sqrt (ssq (fun j => part (h (fst j)) (snd j)) J) * sqrt (/ N))%R).
  { intros h. unfold average. rewrite map_length. fold N. unfold Rdiv. rewrite EJ. apply sqrt_mult; [apply ssq_nonneg|lra]. }
  rewrite !EA, <- Rmult_minus_distr_r, Rabs_mult, (Rabs_pos_eq (sqrt (/ N))) by apply sqrt_pos.
  eapply Rle_trans; [apply Rmult_le_compat_r; [apply sqrt_pos|apply minkowski_abs]|].
  rewrite <- sqrt_mult by (try apply ssq_nonneg; lra). rewrite <- (sqrt_square c) at 1 by exact C0.
  assert (W0 : (0 <= sqlen axes w)%R) by (unfold sqlen; apply rsum_map_nonneg; intros a; apply Rle_0_sqr).
  rewrite <- sqrt_mult by (try apply Rle_0_sqr; exact W0). apply sqrt_le_1_alt.
  assert (B : (ssq (fun j => part (f (fst j)) (snd j) - part (g (fst j)) (snd j)) J <= N * (c * c * sqlen axes w))%R).
  { unfold J. rewrite ssq_concat, map_map. unfold N. clear - H. induction l as [|t l IH]; [cbn; lra|]. cbn [map rsum length]. rewrite S_INR.
    assert (A : (ssq (fun j => part (f (fst j)) (snd j) - part (g (fst j)) (snd j)) (map (pair t) axes) <= c * c * sqlen axes w)%R).
    { unfold ssq, sqlen. rewrite map_map. cbn [fst snd]. rewrite <- rsum_map_scal. apply rsum_map_le. intros a _. pose proof (H t a (or_introl eq_refl)) as Q.
      replace (coord w a) with (part w a) by now destruct a. replace (c * c * (part w a * part w a))%R with ((c * part w a) * (c * part w a))%R by ring.
      set (e := (part (f t) a - part (g t) a)%R) in *. rewrite <- (Rabs_pos_eq (e * e)) by apply Rle_0_sqr. rewrite Rabs_mult. apply Rmult_le_compat; try apply Rabs_pos; exact Q. }
    assert (IH' := IH (fun t' i Ht => H t' i (or_intror Ht))). lra. }
  apply Rmult_le_reg_r with N; [lra|]. rewrite Rmult_assoc, Rinv_l, Rmult_1_r by lra. lra.
Qed.
Lemma root_close p q k eta : (0 <= p)%R -> (0 <= q)%R -> (0 <= k)%R -> (0 <= eta)%R -> (Rabs (p * p - q * q) <= k * (q * q) + eta * eta -> Rabs (p - q) <= k * q + eta)%R.
Proof.
  intros P Q K E H. apply Rnot_lt_le. intros C. set (d := Rabs (p - q)) in *. assert (D : (d <= p + q)%R) by (unfold d; apply abs_le; lra).
  replace (p * p - q * q)%R with ((p - q) * (p + q))%R in H by ring. rewrite Rabs_mult, (Rabs_pos_eq (p + q)) in H by lra. fold d in H.
  assert (0 <= k * q)%R by (now apply Rmult_le_pos). assert ((k * q + eta) * (p + q) < d * (p + q))%R by (apply Rmult_lt_compat_r; lra). nra.
Qed.

(** ** The whole chain *)
Section Chain.
  Context (side : V3 spec_float) (n natoms : nat) (x : nat -> nat -> V3 R) (Y : nat -> nat -> V3 spec_float) (drift idx : list Z).
  Let S' := values3 side.
  Hypothesis Hs : forall i, usual_length (part side i).
  Hypothesis Hx : forall f a i, (f < n)%nat -> (a < natoms)%nat -> (Rabs (part (x (S f) a) i - part (x f a) i) <= / 2)%R.
  Hypothesis HY : forall a t i, (a < natoms)%nat -> (t < n)%nat -> finite_double (part (Y a t) i)
    /\ (Rabs (value (part (Y a t) i) - moved S' x 0 (S t) a i) <= 16 * (INR (S t) * INR (S t)) * (eps * value (part side i)))%R.
  Hypothesis Hn : (INR n <= 1048576)%R.
  Hypothesis HF : (INR (length drift) <= 1048576)%R.
  Hypothesis Hd : Forall (valid_site natoms) drift.
  Hypothesis Hi : Forall (valid_site natoms) idx.
  Hypothesis HN : Z.of_nat (length idx * n) <= 2 ^ 50.
  Hypothesis NI : idx <> [].
  Lemma site_lt i : valid_site natoms i -> (site natoms i < natoms)%nat.
  Proof. intros V. unfold valid_site in V. unfold site. destruct (i <? 0) eqn:Q; [apply Z.ltb_lt in Q|apply Z.ltb_ge in Q]; lia. Qed.
  Lemma grid_length {T U} (l : list T) K (h : T -> nat -> U) : length (List.concat (map (fun i => tab K (h i)) l)) = (length l * K)%nat.
  Proof. induction l as [|i l IH]; [reflexivity|]. cbn [map List.concat]. rewrite app_length, IH, tab_length. reflexivity. Qed.
  Lemma grid_map {T U V} (l : list T) K (h : T -> nat -> U) (f : U -> V) : map f (List.concat (map (fun i => tab K (h i)) l)) = List.concat (map (fun i => tab K (fun o => f (h i o))) l).
  Proof. rewrite concat_map, map_map. f_equal. apply map_ext. intros i. now rewrite tab_map. Qed.
  Lemma chain_one axes m : axes <> [] -> (length axes <= 3)%nat -> (0 < m <= n)%nat ->
    rms_accurate (length idx * (n - m + 1)) (2 * chain_error n (length drift) * sqrt (sqlen axes S'))
      (nmean (lengths2 axes (gwindow natoms n (gdrift natoms drift Y) idx m)))
      (exact_msd axes S' x (map (site natoms) drift) (map (site natoms) idx) n m).
  Proof.
    intros NA LA Hm. set (K := (n - m + 1)%nat). set (d := gwindow natoms n (gdrift natoms drift Y) idx m).
    assert (LE : length (entries d) = (length idx * K)%nat) by (unfold d, entries, gwindow; cbn [a_rows]; apply grid_length).
    assert (LI : (0 < length idx)%nat) by (destruct idx; [congruence|cbn; lia]).
    assert (KP : (0 < length idx * K)%nat) by (apply Nat.mul_pos_pos; unfold K; lia).
    assert (WC : forall i o, In i idx -> (o < K)%nat -> forall c, below 330 (part (gobs (gdrift natoms drift Y (site natoms i)) m o) c)
       /\ (Rabs (value (part (gobs (gdrift natoms drift Y (site natoms i)) m o) c) - part (moved_rel S' x (map (site natoms) drift) o m (site natoms i)) c) <= chain_error n (length drift) * value (part side c))%R).
    { intros i o Ii Ho c. rewrite Forall_forall in Hi. apply (window_close side n natoms x Y drift Hs Hx HY Hn HF Hd); [apply site_lt, Hi, Ii|lia|unfold K in Ho; lia]. }
    destruct (mean_any axes d LA) as (Fm & Pm & Em).
    { unfold d, gwindow. cbn [a_rows]. apply Forall_map, Forall_forall. intros i Ii. apply Forall_forall. intros v Iv. unfold tab in Iv. apply in_map_iff in Iv as (o & <- & Io). apply in_seq in Io. intros c. apply WC; [exact Ii|unfold K; lia]. }
    { intros Q. rewrite Q in LE. cbn in LE. lia. }
    { rewrite LE. assert (length idx * K <= length idx * n)%nat by (apply Nat.mul_le_mono_l; unfold K; lia). lia. }
    split; [exact Fm|]. split; [exact Pm|]. rewrite LE in Em.
    pose (J := List.concat (map (fun i => tab K (fun o => (site natoms i, o))) idx)).
    assert (RC : (Rabs (sqrt (msd_of axes (values d)) - sqrt (exact_msd axes S' x (map (site natoms) drift) (map (site natoms) idx) n m)) <= chain_error n (length drift) * sqrt (sqlen axes S'))%R).
    { assert (E1 : msd_of axes (values d) = average (map (fun j => sqlen axes (values3 (gobs (gdrift natoms drift Y (fst j)) m (snd j)))) J)).
      { unfold msd_of. f_equal. unfold J, d, entries, values, gwindow. cbn [a_rows]. rewrite !map_map, grid_map. cbn [fst snd]. rewrite concat_map, map_map. f_equal. apply map_ext. intros i. rewrite !tab_map. reflexivity. }
      assert (E2 : exact_msd axes S' x (map (site natoms) drift) (map (site natoms) idx) n m = average (map (fun j => sqlen axes (moved_rel S' x (map (site natoms) drift) (snd j) m (fst j))) J)).
      { unfold exact_msd. f_equal. unfold J. rewrite grid_map, map_map. reflexivity. }
      rewrite E1, E2. apply (rms_close axes (fun j => values3 (gobs (gdrift natoms drift Y (fst j)) m (snd j))) (fun j => moved_rel S' x (map (site natoms) drift) (snd j) m (fst j)) S').
      - intros Q. apply (f_equal (@length _)) in Q. unfold J in Q. rewrite grid_length in Q. cbn in Q. lia.
      - unfold chain_error. pose proof (pos_INR n). pose proof (pos_INR (length drift)). apply Rmult_le_pos; [apply Rmult_le_pos; lra|]. apply Rlt_le, Rinv_0_lt_compat, pow_lt. lra.
      - intros j c Ij. unfold J in Ij. apply in_concat in Ij as (r & Ir & Ij). apply in_map_iff in Ir as (i & <- & Ii). unfold tab in Ij. apply in_map_iff in Ij as (o & <- & Io). apply in_seq in Io. cbn [fst snd].
        unfold S' at 2. rewrite !part_values. apply WC; [exact Ii|lia]. }
    set (ex := exact_msd axes S' x (map (site natoms) drift) (map (site natoms) idx) n m) in *. set (ms := msd_of axes (values d)) in *. set (r := nmean (lengths2 axes d) : spec_float) in *.
    assert (MS0 : (0 <= ms)%R).
    { unfold ms, msd_of, average. apply Rmult_le_pos; [apply rsum_map_nonneg; intros v; unfold sqlen; apply rsum_map_nonneg; intros a; apply Rle_0_sqr|].
      rewrite map_length. assert (EV : entries (values d) = map values3 (entries d)) by (unfold entries, values; cbn [a_rows]; symmetry; apply concat_map).
      rewrite EV, map_length, LE. left. apply Rinv_0_lt_compat, lt_0_INR. exact KP. }
    set (NO := INR (length idx * K)) in *.
    assert (NB : (0 <= NO <= 1125899906842624)%R).
    { split; [apply pos_INR|]. unfold NO. rewrite INR_IZR_INZ. apply IZR_le. assert (length idx * K <= length idx * n)%nat by (apply Nat.mul_le_mono_l; unfold K; lia). assert (P50 : 2 ^ 50 = 1125899906842624) by reflexivity. lia. }
    assert (K0 : (0 <= (2 * NO + 16) * eps <= / 2)%R) by (unfold eps; split; [apply Rmult_le_pos|]; lra).
    assert (EK : ((2 * NO + 16) * eps = (NO + 8) * / 2 ^ 52)%R) by (unfold eps; cbn [pow]; field).
    set (k := ((2 * NO + 16) * eps)%R) in *.
    set (l := sqrt (sqlen axes S')) in *.
    assert (El : (bpow radix2 (-300) <= l)%R).
    { destruct axes as [|c axes']; [congruence|]. destruct (L_len side Hs c) as [Lb Lu]. cbv beta in Lb, Lu. 
      apply Rle_trans with (value (part side c)); [exact Lb|]. pose proof (bpow_ge_0 radix2 (-300)). rewrite <- (sqrt_square (value (part side c))) by lra. unfold l. apply sqrt_le_1_alt.
      unfold sqlen. cbn [map rsum]. replace (coord S' c) with (value (part side c)) by (unfold S'; now destruct c).
      assert (0 <= rsum (map (fun a => coord S' a * coord S' a) axes'))%R by (apply rsum_map_nonneg; intros a; apply Rle_0_sqr). lra. }
    set (e := chain_error n (length drift)) in *.
    assert (Ee : (bpow radix2 (-47) <= e)%R).
    { unfold e, chain_error. change (bpow radix2 (-47)) with (/ 140737488355328)%R. assert (N1 : (1 <= INR n)%R) by (change 1%R with (INR 1); apply le_INR; lia). pose proof (pos_INR (length drift)) as F0.
      assert (1 * (16 * 1 + 0 + 6) <= INR n * (16 * INR n + INR (length drift) + 6))%R by (apply Rmult_le_compat; lra). cbn [pow]. lra. }
    assert (ETA : (8 * tiny = bpow radix2 (-536) * bpow radix2 (-536))%R).
    { unfold tiny. replace eps with (bpow radix2 (-53)) by reflexivity. change 8%R with (bpow radix2 3). rewrite <- !bpow_plus. reflexivity. }
    rewrite ETA in Em.
    assert (RT : (Rabs (sqrt (value r) - sqrt ms) <= k * sqrt ms + bpow radix2 (-536))%R).
    { apply root_close; try apply sqrt_pos; [lra|apply bpow_ge_0|]. rewrite !sqrt_sqrt by assumption. exact Em. }
    assert (ETB : (bpow radix2 (-536) <= / 2 * (e * l))%R).
    { apply Rle_trans with (/ 2 * (bpow radix2 (-47) * bpow radix2 (-300)))%R.
      - change (/ 2)%R with (bpow radix2 (-1)). rewrite <- !bpow_plus. apply bpow_le. lia.
      - apply Rmult_le_compat_l; [lra|]. apply Rmult_le_compat; try apply bpow_ge_0; assumption. }
    rewrite <- EK. apply abs_le in RC, RT.
    assert (KM : (k * sqrt ms <= k * sqrt ex + / 2 * (e * l))%R).
    { apply Rle_trans with (k * (sqrt ex + e * l))%R; [apply Rmult_le_compat_l; lra|]. rewrite Rmult_plus_distr_l. apply Rplus_le_compat_l. apply Rmult_le_compat_r; [|lra].
      pose proof (bpow_ge_0 radix2 (-47)). pose proof (bpow_ge_0 radix2 (-300)). apply Rmult_le_pos; lra. }
    replace (2 * e * l)%R with (e * l + e * l)%R by ring. apply abs_le. lra.
  Qed.
End Chain.

Lemma sub_sample_of_map {T U} (f : T -> U) k (l : list T) used : 0 < k -> sub_sample (Z.to_nat k) (map f l) used ->
  exists used', sub_sample (Z.to_nat k) l used' /\ used = map f used'.
Proof.
  intros Hk H. assert (E : exists u, py_stride k l = Ok u).
  { unfold py_stride. destruct (k =? 0) eqn:E0; [apply Z.eqb_eq in E0; lia|]. destruct (0 <? k) eqn:E1; [eauto|apply Z.ltb_ge in E1; lia]. }
  destruct E as [u E]. apply stride_sub in E; [|exact Hk]. exists u. split; [exact E|]. apply list_ext. intros i. rewrite H, !nth_error_map, E. reflexivity.
Qed.
Lemma C88_proof {G Seed RS} (X : Ext spec_float G Seed RS) (side : V3 spec_float) (n natoms : nat) (c : nat -> nat -> V3 spec_float) (x : nat -> nat -> V3 R)
    gs idx drift ts ss (o : Options spec_float) d p u g b g' :
  (forall i, usual_length (part side i)) ->
  (forall f a i, (f <= n)%nat -> (a < natoms)%nat -> finite_double (part (c f a) i) /\ (Rabs (value (part (c f a) i)) <= 2)%R /\ is_integer (value (part (c f a) i) - part (x f a) i)) ->
  (forall f a i, (f < n)%nat -> (a < natoms)%nat -> (Rabs (part (x (S f) a) i - part (x f a) i) <= / 2 - / 2 ^ 47)%R) ->
  Z.of_nat n <= 2 ^ 20 -> Z.of_nat (length drift) <= 2 ^ 20 -> Z.of_nat (length idx * n) <= 2 ^ 50 ->
  Forall (valid_site natoms) idx -> Forall (valid_site natoms) drift ->
  get_disp (tab (S n) (fun f => tab natoms (c f))) (tab (S n) (fun _ => box side)) = Ok d ->
  parser_init gs d idx drift ts ss o = Ok p -> o_sampling o = "multi-origin"%string -> Forall (fun m => 0 < m <= Z.of_nat n) (p_intervals p) ->
  0 < u_sub_sample_dt u -> u_block u = false -> msd_bootstrap X u (p_delta_t p) (p_disp_3d p) (p_n_o p) g = Ok (b, g') ->
  exists axes used, names (pystr_text (u_dimension u)) axes
    /\ sub_sample (Z.to_nat (u_sub_sample_dt u)) (filter (fun m => enough (length idx) n (Z.to_nat m)) (p_intervals p)) used
    /\ Forall2 (fun m r => rms_accurate (length idx * (n - Z.to_nat m + 1)) (2 * chain_error n (length drift) * sqrt (sqlen axes (values3 side))) r
          (exact_msd axes (values3 side) x (map (site natoms) drift) (map (site natoms) idx) n (Z.to_nat m))) used (b_n b).
Proof.
  intros Hs Hc Hx Hn HF HN Vi Vd Hg Hp HS HI Hk HB Hm.
  destruct (C74_proof side n natoms c x Hs Hc Hx Hn) as (d' & Hg' & Eo & Sh & HE). rewrite Hg in Hg'. injection Hg' as <-.
  rewrite (gtable d natoms n Eo Sh) in Hp. set (Y := fun a t => nth t (nth a (a_rows d) []) v0) in *.
  pose (ns := map Z.to_nat (p_intervals p)).
  assert (EI : p_intervals p = map Z.of_nat ns).
  { unfold ns. rewrite map_map. rewrite <- (map_id (p_intervals p)) at 1. apply map_ext_in. intros m Im. rewrite Forall_forall in HI. specialize (HI m Im). lia. }
  assert (HNs : Forall (fun m => (0 < m <= n)%nat) ns).
  { unfold ns. apply Forall_map. eapply Forall_impl; [|exact HI]. cbn. intros m Hm'. lia. }
  pose proof (gparser gs natoms n Y idx drift ts ss o p ns Hp HS Vi Vd EI HNs) as ED. rewrite ED in Hm.
  destruct (msd_means X u _ _ _ g b g' Hk HB Hm) as (axes & used & N & LA & SS & EB).
  apply sub_sample_of_map in SS as (used' & SS & ->); [|exact Hk].
  assert (FU : Forall (fun m => (0 < m <= n)%nat /\ enough (length idx) n m = true) used').
  { apply (forall_sub_sample _ _ _ _ SS). apply Forall_forall. intros m Im. apply filter_In in Im as [Im En]. rewrite Forall_forall in HNs. auto. }
  exists axes, (map Z.of_nat used'). split; [exact N|]. split.
  { intros i. rewrite nth_error_map, SS. rewrite <- nth_error_map. f_equal. unfold ns.
    clear - HI. induction (p_intervals p) as [|m ms IH]; [reflexivity|]. inversion HI; subst. cbn [map filter]. destruct (enough (length idx) n (Z.to_nat m)); cbn [map]; rewrite IH by assumption; [|reflexivity]. f_equal. lia. }
  assert (EF : filter several (map (gwindow natoms n (gdrift natoms drift Y) idx) used') = map (gwindow natoms n (gdrift natoms drift Y) idx) used').
  { clear - FU. induction FU as [|m ms [Hm En] _ IH]; [reflexivity|]. cbn [map filter]. rewrite IH. unfold several, entries. cbn [gwindow a_rows]. rewrite grid_length.
    unfold enough in En. apply Nat.ltb_lt in En. assert (kept (n - m + 1) m <= n - m + 1)%nat.
    { unfold kept. apply Nat.div_le_upper_bound; [lia|]. nia. }
    destruct (length idx * (n - m + 1) <=? 1)%nat eqn:Q; [apply Nat.leb_le in Q|reflexivity]. nia. }
  rewrite EB, EF, map_map.
  assert (NA : axes <> []) by apply N.
  assert (Bn : (INR n <= 1048576)%R). { rewrite INR_IZR_INZ. apply IZR_le. exact Hn. }
  assert (BF : (INR (length drift) <= 1048576)%R). { rewrite INR_IZR_INZ. apply IZR_le. exact HF. }
  assert (HYp : forall a t i, (a < natoms)%nat -> (t < n)%nat -> finite_double (part (Y a t) i)
    /\ (Rabs (value (part (Y a t) i) - moved (values3 side) x 0 (S t) a i) <= 16 * (INR (S t) * INR (S t)) * (eps * value (part side i)))%R).
  { intros a t i Ha Ht. destruct Sh as [SL SF].
    assert (AE : arr_entry d a t = Some (Y a t)).
    { unfold arr_entry, entry, Y. rewrite (nth_error_nth' (a_rows d) [] (n := a)) by lia. rewrite Forall_forall in SF. apply nth_error_nth'. rewrite SF; [exact Ht|]. apply nth_In. lia. }
    destruct (HE a t (Y a t) i AE) as [Fy Ey]. split; [exact Fy|]. unfold moved. rewrite part_values. cbn [Nat.add].
    replace (16 * (INR (S t) * INR (S t)) * (eps * value (part side i)))%R with (INR (S t) ^ 2 * / 2 ^ 49 * value (part side i))%R; [exact Ey|]. unfold eps. cbn [pow]. field. }
  assert (Hx' : forall f a i, (f < n)%nat -> (a < natoms)%nat -> (Rabs (part (x (S f) a) i - part (x f a) i) <= / 2)%R).
  { intros f a i Hf Ha. eapply Rle_trans; [now apply Hx|]. assert (0 < / 2 ^ 47)%R by (apply Rinv_0_lt_compat, pow_lt; lra). lra. }
  clear - FU NA LA Hs Hx' HYp Bn BF Vd Vi HN. induction FU as [|m ms [Hm En] _ IH]; cbn [map]; constructor; [|exact IH]. rewrite !Nat2Z.id.
  apply chain_one; try assumption. intros ->. unfold enough in En. cbn in En. discriminate.
Qed.

(** ** A case *)
(** Atom 0 hops by a quarter of a cell per frame across the boundary, atom 1 stays. *)
Definition hopping (f a : nat) : V3 spec_float :=
  mkV (match a, f with O, O => eighths 7 | O, S O => eighths 1 | O, _ => eighths 3 | _, _ => S754_zero false end) (eighths 3) (S754_zero false).
Definition hopped (f a : nat) : V3 R :=
  mkV (match a, f with O, O => 7 / 8 | O, S O => 9 / 8 | O, _ => 11 / 8 | _, _ => 0 end)%R (3 / 8)%R 0%R.
Definition chain_opts : Options spec_float := mkOptions None None 100 "linear" "multi-origin" (SFofZ 8) 8.
Lemma hopping_ok f a i : (f <= 2)%nat -> finite_double (part (hopping f a) i) /\ (Rabs (value (part (hopping f a) i)) <= 2)%R
     /\ is_integer (value (part (hopping f a) i) - part (hopped f a) i).
Proof.
  intros Hf. destruct eighth7 as [F7 V7], eighth1 as [F1 V1], eighth3 as [F3 V3], zero_fv as [F0 V0].
  destruct i; cbn [part hopping hopped vx vy vz].
  - destruct a as [|a]; [destruct f as [|[|f]]|].
    + rewrite V7. split; [exact F7|]. split; [apply abs_le; lra|]. exists 0. lra.
    + rewrite V1. split; [exact F1|]. split; [apply abs_le; lra|]. exists (-1). lra.
    + rewrite V3. split; [exact F3|]. split; [apply abs_le; lra|]. exists (-1). lra.
    + rewrite V0. split; [exact F0|]. split; [apply abs_le; lra|]. exists 0. lra.
  - rewrite V3. split; [exact F3|]. split; [apply abs_le; lra|]. exists 0. lra.
  - rewrite V0. split; [exact F0|]. split; [apply abs_le; lra|]. exists 0. lra.
Qed.
Lemma hopped_steps f a i : (f < 2)%nat -> (Rabs (part (hopped (S f) a) i - part (hopped f a) i) <= / 2 - / 2 ^ 47)%R.
Proof.
  intros Hf. destruct i, a as [|a], f as [|[|f]]; try lia; cbn [part hopped vx vy vz];
    rewrite ?Rminus_diag_eq, ?Rabs_R0 by reflexivity; try lra; rewrite Rabs_pos_eq; lra.
Qed.
Lemma C88_example_proof {G Seed RS} (X : Ext spec_float G Seed RS) (g : G) :
  (forall f a i, (f <= 2)%nat -> finite_double (part (hopping f a) i) /\ (Rabs (value (part (hopping f a) i)) <= 2)%R
     /\ is_integer (value (part (hopping f a) i) - part (hopped f a) i))
  /\ (forall f a i, (f < 2)%nat -> (Rabs (part (hopped (S f) a) i - part (hopped f a) i) <= / 2 - / 2 ^ 47)%R)
  /\ exists d p b, get_disp (tab 3 (fun f => tab 2 (hopping f))) (tab 3 (fun _ => box ten3)) = Ok d
    /\ parser_init (fun _ _ _ => Raise ValueError) d [0] [1] (SFofZ 1) 1 chain_opts = Ok p /\ p_intervals p = [1; 2]
    /\ msd_bootstrap X (mkBootParams 1 false false 0 0 (PyStr "xyz") (SFofZ 0)) (p_delta_t p) (p_disp_3d p) (p_n_o p) g = Ok (b, g)
    /\ map value (b_n b) = [25 / 4]%R
    /\ exact_msd all_axes (values3 ten3) hopped [1%nat] [0%nat] 2 1 = (25 / 4)%R.
Proof.
  split; [intros; now apply hopping_ok|]. split; [intros; now apply hopped_steps|].
  do 3 eexists. split; [vm_compute; reflexivity|]. split; [vm_compute; reflexivity|]. split; [reflexivity|]. split; [reflexivity|]. split.
  - match goal with |- map value ?l = _ => let v := eval vm_compute in l in change l with v end. cbn [map value]. f_equal. rewrite powers. cbn. lra.
  - unfold exact_msd, moved_rel, moved, all_axes, sqlen, average, values3, ten3. destruct ten_value as [_ V].
    cbn [map tab seq Nat.sub Nat.add List.concat app length rsum coord vx vy vz part hopped]. rewrite V. cbn. field.
Qed.
Lemma C88_mean_proof axes (d : Arr spec_float) : (length axes <= 3)%nat ->
  Forall (Forall (fun v => forall i, finite_double (part v i) /\ (Rabs (value (part v i)) <= powerRZ 2 330)%R)) (a_rows d) ->
  entries d <> [] -> Z.of_nat (length (entries d)) <= 2 ^ 50 ->
  finite_double (nmean (lengths2 axes d)) /\ (0 <= value (nmean (lengths2 axes d)))%R
  /\ (Rabs (value (nmean (lengths2 axes d)) - msd_of axes (values d)) <= (INR (length (entries d)) + 8) * / 2 ^ 52 * msd_of axes (values d) + powerRZ 2 (-1072))%R.
Proof.
  intros LA H NE HN. destruct (mean_any axes d LA) as (F & P & E); [|exact NE|exact HN|].
  - eapply Forall_impl; [|exact H]. intros row. apply Forall_impl. intros v Hv i. unfold below. rewrite bpow_powerRZ. apply Hv.
  - split; [exact F|]. split; [exact P|]. rewrite <- (bpow_powerRZ radix2).
    assert (ETA : (8 * tiny = bpow radix2 (-1072))%R).
    { unfold tiny. replace eps with (bpow radix2 (-53)) by reflexivity. change 8%R with (bpow radix2 3). rewrite <- !bpow_plus. reflexivity. }
    rewrite <- ETA. replace ((INR (length (entries d)) + 8) * / 2 ^ 52)%R with ((2 * INR (length (entries d)) + 16) * eps)%R; [exact E|]. unfold eps. cbn [pow]. field.
Qed.
