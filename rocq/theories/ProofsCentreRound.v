(** * ProofsCentreRound: C127, centres of molecules in double precision *)
From Verif Require Import Base ModelParser Spec SpecStats SpecDouble SpecUnwrap SpecRound SpecParser SpecMol Lemmas ProofsDisp ProofsFloat ProofsUnwrap ProofsMol SpecCentreRound.
From Verif Require ProofsRound ProofsSpread.
From Coq Require Import Reals Lra Lia Psatz.
From Coq.Floats Require Import SpecFloat.
From Flocq Require Import Core.
From Flocq.Prop Require Import Sterbenz.
Import ProofsRound.
Open Scope Z_scope.

#[local] Instance prec_pos : Prec_gt_0 fprec := eq_refl.

(** ** Remainders *)
Lemma sf_mod1 x v : fv x v -> (Rabs v <= 1000)%R -> exists y, nmod1 x = y /\ fv y (rnd (v - IZR (Zfloor v))).
Proof.
  intros [F V] B. eexists. split; [reflexivity|]. unfold nmod1. cbn [nsub nofZ nfloor NumSF]. rewrite (floor_value x F), V.
  assert (K : Z.abs (Zfloor v) < 2 ^ 53).
  { apply abs_le in B. assert (Zfloor v <= 1000) by (apply le_IZR; eapply Rle_trans; [apply Zfloor_lb|]; lra).
    assert (-1000 <= Zfloor v) by (apply Zfloor_lub; lra). lia. }
  destruct (ofZ_small _ K) as [FK EK]. apply fv_sub; [now split|now split|].
  apply small_bound. pose proof (Zfloor_lb v). pose proof (Zfloor_ub v). apply abs_le. lra.
Qed.
Lemma frac_rep v : rep v -> (0 <= v <= 1000)%R -> rep (v - IZR (Zfloor v)).
Proof.
  intros Rv B. pose proof (Zfloor_lb v) as L. pose proof (Zfloor_ub v) as U.
  assert (P : 0 <= Zfloor v) by (apply Zfloor_lub; lra).
  assert (Q : Zfloor v <= 1000) by (apply le_IZR; lra).
  destruct (Z.eq_dec (Zfloor v) 0) as [E|E]; [rewrite E, Rminus_0_r; exact Rv|].
  assert (1 <= IZR (Zfloor v))%R by (apply IZR_le; lia).
  apply sterbenz; [typeclasses eauto|typeclasses eauto|exact Rv|apply rep_Z; lia|]. lra.
Qed.
Lemma sf_frac x v : fv x v -> (0 <= v <= 1000)%R -> exists y, nmod1 x = y /\ fv y (v - IZR (Zfloor v)).
Proof.
  intros H B. destruct (sf_mod1 x v H) as (y & E & F); [apply abs_le; lra|]. exists y. split; [exact E|].
  rewrite rnd_rep in F; [exact F|]. apply frac_rep; [|exact B]. destruct H as [H <-]. now apply finite_rep.
Qed.

(** ** The atoms relative to the first guess *)
Lemma err1 r m : (1 <= m)%R -> (Rabs r <= m)%R -> (Rabs (rnd r - r) <= eps * m)%R.
Proof. intros H. apply err_le. now apply one_big. Qed.
Lemma guess_shift c : finite_double c -> (0 <= value c <= 1)%R -> exists sh,
  fv (nadd c (nhalf : spec_float)) sh /\ (Rabs (sh - (value c + / 2)) <= 2 * eps)%R.
Proof.
  intros F B. exists (rnd (value c + / 2)). split.
  - apply fv_add; [now apply fv_self|apply half_fv|]. apply small_bound, abs_le. lra.
  - replace (2 * eps)%R with (eps * 2)%R by ring. apply err1; [lra|]. apply abs_le. lra.
Qed.
(** [t] is the atom's true position relative to the guess. *)
Lemma one_atom x c sh (t : R) (j : Z) : in_reach x -> (0 <= c <= 1)%R ->
  forall s, fv s sh -> (Rabs (sh - (c + / 2)) <= 2 * eps)%R -> (Rabs t <= 1 / 2 - 1 / 1000)%R -> (value x - c = t + IZR j)%R ->
  exists y v, nmod1 (nsub x s) = y /\ fv y v /\ (Rabs (v - (t + / 2)) <= 7 * eps)%R /\ (/ 2048 <= v <= 1)%R.
Proof.
  intros [Fx Bx] Hc s Hs Es Ht Ex. pose proof eps_small as (E0 & E1). apply abs_le in Bx. apply abs_le in Es. apply abs_le in Ht.
  assert (H1 : fv (nsub x s) (rnd (value x - sh))).
  { apply fv_sub; [now apply fv_self|exact Hs|]. apply small_bound, abs_le. lra. }
  assert (B1 : (Rabs (rnd (value x - sh) - (value x - sh)) <= eps * 4)%R) by (apply err1; [lra|apply abs_le; lra]).
  apply abs_le in B1. set (d := rnd (value x - sh)) in *.
  assert (Fl : Zfloor d = j - 1). { apply Zfloor_imp. rewrite plus_IZR, minus_IZR. split; lra. }
  destruct (sf_mod1 _ d H1) as (y & Ey & Fy); [apply abs_le; lra|]. rewrite Fl in Fy.
  assert (B2 : (Rabs (rnd (d - IZR (j - 1)) - (d - IZR (j - 1))) <= eps * 1)%R) by (apply err1; [lra|rewrite minus_IZR; apply abs_le; lra]).
  exists y, (rnd (d - IZR (j - 1))). split; [exact Ey|]. split; [exact Fy|]. apply abs_le in B2. rewrite minus_IZR in *.
  split; [apply abs_le; lra|lra].
Qed.

(** ** Averages *)
Definition fraction (x : spec_float) : Prop := finite_double x /\ (/ 2048 <= value x <= 1)%R.
Lemma few n : Z.of_nat n <= 2 ^ 40 -> (INR n <= 1099511627776)%R.
Proof. intros H. rewrite INR_IZR_INZ. change 1099511627776%R with (IZR (2 ^ 40)). now apply IZR_le. Qed.
Lemma some n : (0 < n)%nat -> (1 <= INR n)%R.
Proof. intros H. change 1%R with (INR 1). now apply le_INR. Qed.
Lemma bp (x : R) e : (1 <= x <= 2 ^ 50)%R -> (bpow radix2 e <= x * bpow radix2 e <= bpow radix2 (50 + e))%R.
Proof.
  intros H. pose proof (bpow_ge_0 radix2 e). rewrite bpow_plus. replace (bpow radix2 50) with (2 ^ 50)%R by (cbn; lra). split; [nra|].
  apply Rmult_le_compat_r; lra.
Qed.
Lemma plain_near l : l <> [] -> Z.of_nat (length l) <= 2 ^ 40 -> Forall fraction l ->
  exists y, nmean l = y /\ finite_double y /\ near (3 * length l + 2) (value y) (rsum (map value l) / INR (length l)).
Proof.
  intros NE HL HF. eexists. split; [reflexivity|]. set (n := length l) in *. pose proof (few n HL) as N1.
  assert (N2 : (1 <= INR n)%R) by (apply some; unfold n; destruct l; [easy|cbn; lia]).
  pose (ps := map (fun x => (x, value x)) l).
  assert (E1 : map fst ps = l) by (unfold ps; rewrite map_map; apply map_id).
  assert (E2 : map snd ps = map value l) by (unfold ps; rewrite map_map; reflexivity).
  assert (HP : Forall (approx (-11) 0 1) ps).
  { unfold ps. apply Forall_map. eapply Forall_impl; [|exact HF]. intros x [F B]. constructor; cbn [fst snd]; [exact F|lra| |apply near_refl; lra].
    right. change (bpow radix2 (-11)) with (/ 2048)%R. lra. }
  assert (LP : length ps = n) by (unfold ps; apply map_length).
  destruct (sum_near (-11) 0 1 Rle_0_1 n l (nsum l) (nsum_sum l) ps (eq_sym E1) HP) as [Fs Ns].
  { rewrite Nat.add_0_r. apply tiny_index. lra. }
  { rewrite LP. eapply Rle_trans; [|apply (bpow_le radix2 50 1000); lia]. change (bpow radix2 50) with 1125899906842624%R. lra. }
  rewrite E2, Nat.add_0_r in Ns.
  assert (SL : (INR n * / 2048 <= rsum (map value l) <= INR n)%R).
  { unfold n. clear - HF. induction HF as [|x l [_ B] _ IH]; [cbn; lra|]. cbn [length map rsum]. rewrite S_INR. lra. }
  assert (NK : (INR n * eps <= / 2)%R) by (apply tiny_index; lra).
  assert (P0 : (0 <= rsum (map value l))%R) by lra.
  pose proof (near_double _ _ _ P0 NK Ns) as DB.
  assert (VL : (/ 4096 <= value (nsum l))%R).
  { destruct Ns as [Ns _]. pose proof (low_bound n) as LB. assert (/ 2 <= (1 - eps) ^ n)%R by lra.
    eapply Rle_trans; [|exact Ns]. apply Rle_trans with (/ 2 * / 2048)%R; [lra|]. apply Rmult_le_compat; lra. }
  destruct (ofZ_small (Z.of_nat n)) as [FZ EZ]; [lia|]. rewrite <- INR_IZR_INZ in EZ.
  assert (IN : (0 < / INR n <= 1)%R). { split; [apply Rinv_0_lt_compat; lra|]. rewrite <- Rinv_1. apply Rinv_le_contravar; lra. }
  assert (Q0 : (0 <= value (nsum l) / INR n <= value (nsum l))%R).
  { split; [apply Rmult_le_pos; lra|]. rewrite <- (Rmult_1_r (value (nsum l))) at 2. apply Rmult_le_compat_l; lra. }
  destruct (fv_div (nsum l) (SFofZ (Z.of_nat n)) _ _ (fv_self _ Fs) (conj FZ EZ)) as [Fq Eq]; [lra|apply small_bound, abs_le; lra|].
  split; [exact Fq|]. unfold nmean, nofnat. cbn [ndiv nofZ NumSF]. fold n. rewrite Eq.
  assert (M0 : (0 <= rsum (map value l) / INR n)%R) by (apply Rmult_le_pos; lra).
  apply near_le with (1 + n)%nat; [lia|exact M0|].
  apply near_trans with (value (nsum l) / INR n)%R; [exact M0| |apply near_scale; [lra|exact Ns]].
  apply near_rnd; [lra|]. right. apply Rle_trans with (bpow radix2 (-60)); [apply bpow_le; lia|].
  apply Rle_trans with (/ 4096 * / 1099511627776)%R; [change (bpow radix2 (-60)) with (/ 1152921504606846976)%R; lra|].
  apply Rmult_le_compat; try lra. apply Rinv_le_contravar; lra.
Qed.
Lemma masses_near ws : ws <> [] -> Z.of_nat (length ws) <= 2 ^ 40 -> Forall usual_length ws ->
  finite_double (nsum ws) /\ near (length ws) (value (nsum ws)) (rsum (map value ws)) /\ (0 < rsum (map value ws))%R.
Proof.
  intros NE HL HF. set (n := length ws) in *. pose proof (few n HL) as N1.
  pose (ps := map (fun x => (x, value x)) ws).
  assert (E1 : map fst ps = ws) by (unfold ps; rewrite map_map; apply map_id).
  assert (E2 : map snd ps = map value ws) by (unfold ps; rewrite map_map; reflexivity).
  assert (HV : Forall (fun x => finite_double x /\ len (value x)) ws).
  { eapply Forall_impl; [|exact HF]. intros x H. destruct (usual_len x H) as [L F]. now split. }
  assert (HP : Forall (approx (-300) 0 (bpow radix2 300)) ps).
  { unfold ps. apply Forall_map. eapply Forall_impl; [|exact HV]. intros x [F B]. pose proof (len_pos _ B) as P. destruct B.
    constructor; cbn [fst snd]; [exact F|lra|now right|apply near_refl; lra]. }
  assert (LP : length ps = n) by (unfold ps; apply map_length).
  destruct (sum_near (-300) 0 _ (bpow_ge_0 radix2 300) n ws (nsum ws) (nsum_sum ws) ps (eq_sym E1) HP) as [Fs Ns].
  { rewrite Nat.add_0_r. apply tiny_index. lra. }
  { rewrite LP. apply Rle_trans with (bpow radix2 50 * bpow radix2 300)%R; [|rewrite <- bpow_plus; apply bpow_le; lia].
    apply Rmult_le_compat_r; [apply bpow_ge_0|]. change (bpow radix2 50) with 1125899906842624%R. lra. }
  rewrite E2, Nat.add_0_r in Ns. split; [exact Fs|]. split; [exact Ns|].
  destruct ws as [|x ws]; [easy|]. inversion HV as [|? ? [_ B] HV']; subst. cbn [map rsum]. pose proof (len_pos _ B).
  assert (0 <= rsum (map value ws))%R; [|lra]. clear - HV'. induction HV' as [|y l [_ B] _ IH]; cbn [map rsum]; [lra|]. pose proof (len_pos _ B). lra.
Qed.
Lemma products_near ws : forall l, length ws = length l -> Forall usual_length ws -> Forall fraction l ->
  exists ps, zip_with nmul ws l = map fst ps /\ map snd ps = map (fun p => fst p * snd p)%R (combine (map value ws) (map value l))
    /\ length ps = length ws /\ Forall (approx (-311) 1 (bpow radix2 300)) ps.
Proof.
  induction ws as [|w ws IH]; intros [|x l] H HW HF; try discriminate; [exists []; repeat split; constructor|].
  injection H as H. inversion HW as [|? ? W HW']; inversion HF as [|? ? [Fx Bx] HF']; subst. destruct (IH l H HW' HF') as (ps & E1 & E2 & E3 & E4).
  destruct (usual_len w W) as [L Fw]. pose proof (len_pos _ L) as P. destruct L as [L1 L2].
  assert (B1 : (0 <= value w * value x <= bpow radix2 300)%R).
  { split; [apply Rmult_le_pos; lra|]. rewrite <- (Rmult_1_r (bpow radix2 300)). apply Rmult_le_compat; lra. }
  assert (B2 : (bpow radix2 (-311) <= value w * value x)%R).
  { change (-311) with (-300 + -11). rewrite bpow_plus. change (bpow radix2 (-11)) with (/ 2048)%R. apply Rmult_le_compat; try lra. apply bpow_ge_0. }
  destruct (fv_mul w x _ _ (fv_self _ Fw) (fv_self _ Fx)) as [Fm Em].
  { rewrite Rabs_pos_eq by lra. eapply Rle_trans; [apply B1|]. apply bpow_le. lia. }
  exists ((SFmul fprec femax w x, value w * value x)%R :: ps). unfold zip_with in *. cbn [combine map fst snd length].
  change (nmul w x) with (SFmul fprec femax w x). rewrite E1, E2, E3. repeat split. constructor; [|exact E4].
  constructor; cbn [fst snd]; [exact Fm|exact B1|now right|]. rewrite Em. apply near_rnd; [lra|]. right. eapply Rle_trans; [|exact B2]. apply bpow_le. lia.
Qed.
Lemma between_weights (ws : list spec_float) : forall l, length ws = length l -> Forall usual_length ws -> Forall fraction l ->
  (/ 2048 * rsum (map value ws) <= rsum (map (fun p => fst p * snd p)%R (combine (map value ws) (map value l))) <= rsum (map value ws))%R.
Proof.
  induction ws as [|w ws IH]; intros [|x l] H HW HF; try discriminate; [cbn; lra|].
  injection H as H. inversion HW as [|? ? W HW']; inversion HF as [|? ? [Fx Bx] HF']; subst. specialize (IH l H HW' HF').
  destruct (usual_len w W) as [L Fw]. pose proof (len_pos _ L) as P. cbn [map combine rsum fst snd]. nra.
Qed.
Lemma heavy_near ws l : l <> [] -> Z.of_nat (length l) <= 2 ^ 40 -> length ws = length l -> Forall usual_length ws -> Forall fraction l ->
  exists y, np_average (Some ws) l = Ok y /\ finite_double y
    /\ near (3 * length l + 2) (value y) (rsum (map (fun p => fst p * snd p)%R (combine (map value ws) (map value l))) / rsum (map value ws)).
Proof.
  intros NE HL EL HW HF. set (n := length l) in *. pose proof (few n HL) as N1.
  destruct (masses_near ws) as (Fw & Nw & Pw); [destruct ws; [destruct l; [easy|discriminate]|discriminate]|now rewrite EL|exact HW|].
  rewrite EL in Nw. destruct (products_near ws l EL HW HF) as (ps & E1 & E2 & E3 & HP).
  destruct (sum_near (-311) 1 _ (bpow_ge_0 radix2 300) _ _ _ (nsum_sum (zip_with nmul ws l)) ps E1 HP) as [Fs Ns].
  { rewrite E1, map_length, E3, EL. apply tiny_index. rewrite plus_INR. cbn [INR]. lra. }
  { rewrite E3, EL. apply Rle_trans with (bpow radix2 50 * bpow radix2 300)%R; [|rewrite <- bpow_plus; apply bpow_le; lia].
    apply Rmult_le_compat_r; [apply bpow_ge_0|]. change (bpow radix2 50) with 1125899906842624%R. lra. }
  replace (length (zip_with nmul ws l)) with n in Ns by (rewrite E1, map_length, E3, EL; reflexivity). rewrite E2 in Ns.
  pose proof (between_weights ws l EL HW HF) as BW. set (P := rsum (map _ (combine _ _))) in *. set (W := rsum (map value ws)) in *.
  assert (P0 : (0 <= P)%R) by lra. pose proof (ProofsSpread.near_pos _ _ _ Pw Nw) as VW.
  pose proof (ProofsSpread.near_div _ _ _ _ _ _ P0 Pw Ns Nw) as ND. replace (n + 1 + 2 * n)%nat with (3 * n + 1)%nat in ND by lia.
  assert (KI : (INR (3 * n + 1) * eps <= / 2)%R).
  { apply ProofsSpread.small_index. rewrite plus_INR, mult_INR. cbn [INR]. lra. }
  assert (RB : (/ 2048 <= P / W <= 1)%R).
  { split; apply Rmult_le_reg_r with W; try exact Pw; unfold Rdiv; rewrite ?Rmult_assoc, Rinv_l, ?Rmult_1_r; lra. }
  assert (R0 : (0 <= P / W)%R) by lra. pose proof (near_double _ _ _ R0 KI ND) as DB. pose proof (ProofsSpread.near_half _ _ _ R0 KI ND) as HB.
  destruct (fv_div (nsum (zip_with nmul ws l)) (nsum ws) _ _ (fv_self _ Fs) (fv_self _ Fw)) as [Fq Eq]; [lra|apply small_bound, abs_le; lra|].
  exists (SFdiv fprec femax (nsum (zip_with nmul ws l)) (nsum ws)). split; [|split; [exact Fq|]].
  - cbn [np_average]. rewrite neqb_nonzero by (try exact Fw; lra). reflexivity.
  - rewrite Eq. replace (3 * n + 2)%nat with (1 + (3 * n + 1))%nat by lia. eapply near_trans; [lra| |exact ND].
    apply near_rnd; [lra|]. right. apply Rle_trans with (bpow radix2 (-60)); [apply bpow_le; lia|]. change (bpow radix2 (-60)) with (/ 1152921504606846976)%R. lra.
Qed.
Lemma masses_length w n : usual_masses w n -> length (weights_of (mass_values w) n) = n.
Proof. destruct w as [ws|]; cbn; [intros [H _]; now rewrite map_length|intros _; apply repeat_length]. Qed.
Lemma average_near w l : l <> [] -> Z.of_nat (length l) <= 2 ^ 40 -> usual_masses w (length l) -> Forall fraction l ->
  let ws := weights_of (mass_values w) (length l) in
  exists y, np_average w l = Ok y /\ finite_double y /\ near (3 * length l + 2) (value y) (centre_of_mass ws (map value l)).
Proof.
  intros NE HL HM HF ws. unfold centre_of_mass, weighted. destruct w as [m|]; cbn [mass_values option_map weights_of usual_masses] in *.
  - destruct HM as [EL HW]. exact (heavy_near m l NE HL EL HW HF).
  - destruct (plain_near l NE HL HF) as (y & E & F & N). exists y. split; [cbn [np_average]; now rewrite E|]. split; [exact F|].
    pose proof (weighted_ones (fun x => x) (map value l)) as WO. rewrite map_length, map_id in WO. unfold weighted in WO. unfold ws.
    rewrite WO, rsum_repeat_1. exact N.
Qed.
Lemma masses_positive w n : (0 < n)%nat -> usual_masses w n -> Forall (fun x => 0 < x)%R (weights_of (mass_values w) n) /\ (0 < rsum (weights_of (mass_values w) n))%R.
Proof.
  intros N H. assert (P : Forall (fun x => 0 < x)%R (weights_of (mass_values w) n)).
  { destruct w as [ws|]; cbn in *.
    - destruct H as [_ H]. apply Forall_map. eapply Forall_impl; [|exact H]. intros x X. destruct (usual_len x X) as [L _]. now apply len_pos.
    - apply Forall_forall. intros x X. apply repeat_spec in X. subst. lra. }
  split; [exact P|]. pose proof (masses_length w n H) as L. destruct P as [|x l Hx Hl]; [cbn in L; lia|]. cbn [rsum].
  assert (0 <= rsum l)%R; [|lra]. clear - Hl. induction Hl; cbn [rsum]; lra.
Qed.

(** ** One axis of one molecule *)
Lemma weighted_close ws : forall a b e, Forall (fun w => 0 < w)%R ws -> Forall2 (fun x y => Rabs (x - y) <= e)%R a b -> (0 <= e)%R ->
  (Rabs (weighted (fun x => x) ws a - weighted (fun x => x) ws b) <= e * rsum ws)%R.
Proof.
  unfold weighted. induction ws as [|w ws IH]; intros a b e HW HF He; [cbn; apply abs_le; lra|].
  inversion HW as [|? ? W HW']; subst. assert (S0 : (0 <= rsum ws)%R) by (clear - HW'; induction HW'; cbn [rsum]; lra).
  destruct HF as [|x y a b C HF]; [cbn; apply abs_le; nra|]. specialize (IH a b e HW' HF He). apply abs_le in IH. apply abs_le in C.
  cbn [combine map rsum fst snd]. apply abs_le. nra.
Qed.
Lemma centre_close ws a b e : Forall (fun w => 0 < w)%R ws -> (0 < rsum ws)%R -> Forall2 (fun x y => Rabs (x - y) <= e)%R a b -> (0 <= e)%R ->
  (Rabs (centre_of_mass ws a - centre_of_mass ws b) <= e)%R.
Proof.
  intros HW P HF He. pose proof (weighted_close ws a b e HW HF He) as H. apply abs_le in H. unfold centre_of_mass.
  apply abs_le. rewrite <- Rdiv_minus_distr. split; apply Rmult_le_reg_r with (rsum ws); try exact P; unfold Rdiv; rewrite Rmult_assoc, Rinv_l; lra.
Qed.
Lemma centre_shift ws u t : length ws = length u -> rsum ws <> 0%R -> centre_of_mass ws (map (fun x => x + t)%R u) = (centre_of_mass ws u + t)%R.
Proof.
  intros L N. unfold centre_of_mass. rewrite weighted_map, weighted_plus, (weighted_const t) by exact L. field. exact N.
Qed.
Lemma fractions c sh s sf (k : Z) u : (0 <= c <= 1)%R -> fv sf sh -> (Rabs (sh - (c + / 2)) <= 2 * eps)%R ->
  Forall in_reach s -> images u (map value s) -> Forall (fun x => Rabs (x - (c + IZR k)) <= 1 / 2 - 1 / 1000)%R u ->
  Forall fraction (map (fun x => nmod1 (nsub x sf)) s)
  /\ Forall2 (fun x y => Rabs (x - y) <= 7 * eps)%R (map value (map (fun x => nmod1 (nsub x sf)) s)) (map (fun x => x + (/ 2 - c - IZR k))%R u).
Proof.
  intros Hc Hs Es HR HI HB. unfold images in HI. revert u HI HB. induction HR as [|x s Rx HR IH]; intros u HI HB.
  { inversion HI; subst. split; constructor. }
  inversion HI as [|z ? u' ? [j Ej] HI']; subst. inversion HB as [|? ? Bz HB']; subst. destruct (IH u' HI' HB') as [I1 I2].
  destruct (one_atom x c sh (z - c - IZR k) (j + k) Rx Hc sf Hs Es) as (y & v & Ey & [Fy Vy] & B1 & B2).
  { replace (z - c - IZR k)%R with (z - (c + IZR k))%R by ring. exact Bz. }
  { rewrite Ej, plus_IZR. ring. }
  cbn [map]. rewrite Ey. split; constructor; try assumption.
  - split; [exact Fy|]. rewrite Vy. exact B2.
  - rewrite Vy. replace (v - (z + (/ 2 - c - IZR k)))%R with (v - (z - c - IZR k + / 2))%R by ring. exact B1.
Qed.
Lemma weighted_between ws : forall fs, Forall (fun w => 0 < w)%R ws -> Forall fraction fs -> length ws = length fs ->
  (0 <= weighted (fun x => x) ws (map value fs) <= rsum ws)%R.
Proof.
  unfold weighted. intros fs PW. revert fs. induction PW as [|w ws W _ IH]; intros [|x fs] HF L; try discriminate; [cbn; lra|].
  injection L as L. inversion HF as [|? ? [_ B] HF']; subst. specialize (IH fs HF' L). cbn [map combine rsum fst snd]. nra.
Qed.
Lemma centre_core c w s u : s <> [] -> Z.of_nat (length s) <= 2 ^ 40 -> usual_masses w (length s) -> Forall in_reach s -> images u (map value s) -> amid c u ->
  exists y, pseudo_com c w s = Ok y /\ nearly_wraps (length s) y (centre_of_mass (weights_of (mass_values w) (length s)) u).
Proof.
  intros NE HL HM HR HI (Fc & Bc & k & HB). set (n := length s) in *. set (ws := weights_of (mass_values w) n).
  assert (N0 : (0 < n)%nat) by (unfold n; destruct s; [easy|cbn; lia]). destruct (masses_positive w n N0 HM) as [PW PS]. fold ws in PW, PS.
  pose proof (masses_length w n HM) as LW. fold ws in LW. assert (LU : length u = n) by (unfold n; rewrite <- (map_length value s); now apply images_length).
  destruct (guess_shift c Fc Bc) as (sh & Fsh & Esh). set (sf := nadd c nhalf) in *.
  destruct (fractions (value c) sh s sf k u Bc Fsh Esh HR HI HB) as [HF H2]. set (fs := map (fun x => nmod1 (nsub x sf)) s) in *.
  assert (LF : length fs = n) by (unfold fs; now rewrite map_length).
  destruct (average_near w fs) as (m & Em & Fm & Nm); [intros E; rewrite E in LF; cbn in LF; lia|now rewrite LF|now rewrite LF|exact HF|].
  rewrite LF in Nm. fold ws in Nm.
  pose proof (centre_close ws _ _ _ PW PS H2 ltac:(unfold eps; lra)) as C1. rewrite centre_shift in C1 by (try lra; congruence).
  set (q := centre_of_mass ws (map value fs)) in *. set (C := centre_of_mass ws u) in *.
  assert (Q1 : (0 <= q <= 1)%R).
  { assert (B : (0 <= weighted (fun x => x) ws (map value fs) <= rsum ws)%R).
    { apply weighted_between; [exact PW|exact HF|congruence]. }
    unfold q, centre_of_mass. split; apply Rmult_le_reg_r with (rsum ws); try exact PS; unfold Rdiv; rewrite Rmult_assoc, Rinv_l; lra. }
  assert (NI : (INR (3 * n + 2) * eps <= / 2)%R).
  { apply ProofsSpread.small_index. rewrite plus_INR, mult_INR. cbn [INR]. pose proof (few n HL). lra. }
  pose proof (near_abs _ _ _ (proj1 Q1) NI Nm) as C2. pose proof (near_nonneg _ _ _ (proj1 Q1) Nm) as M0.
  assert (C3 : (Rabs (value m - q) <= (6 * INR n + 4) * eps)%R).
  { eapply Rle_trans; [exact C2|]. rewrite plus_INR, mult_INR. cbn [INR]. pose proof (pos_INR n). destruct eps_range.
    replace ((6 * INR n + 4) * eps)%R with (2 * ((1 + 1 + 1) * INR n + (1 + 1)) * eps * 1)%R by ring. apply Rmult_le_compat_l; [|lra]. apply Rmult_le_pos; lra. }
  pose proof eps_small as (E0 & E1). pose proof (few n HL) as FN. assert (SB : ((6 * INR n + 4) * eps <= / 100)%R) by (unfold eps; lra).
  apply abs_le in Esh. apply abs_le in C1. apply abs_le in C3.
  assert (HA : fv (nadd m sf) (rnd (value m + sh))).
  { apply fv_add; [now apply fv_self|exact Fsh|]. apply small_bound, abs_le. lra. }
  assert (BA : (Rabs (rnd (value m + sh) - (value m + sh)) <= eps * 3)%R) by (apply err1; [lra|apply abs_le; lra]).
  apply abs_le in BA. set (v := rnd (value m + sh)) in *.
  destruct (sf_frac _ v HA) as (y & Ey & Fy & Vy); [lra|]. exists y. split.
  - unfold pseudo_com. fold sf. fold fs. rewrite Em. cbn [bind]. now rewrite Ey.
  - split; [exact Fy|]. rewrite Vy. pose proof (Zfloor_lb v). pose proof (Zfloor_ub v). split; [lra|]. exists (Zfloor v + k - 1).
    rewrite minus_IZR, plus_IZR. unfold centre_error. replace (/ 2 ^ 52)%R with (2 * eps)%R by (unfold eps; lra). apply abs_le. lra.
Qed.

(** ** The circular mean as a first guess *)
Lemma circular_ok w (s : list R) : weights_ok w (length s) -> circular_mean_R w s = Ok (circle_mean (weights_of w (length s)) s).
Proof.
  intros H. unfold circular_mean_R. rewrite !map_map. rewrite (np_average_ok w (fun x => cos (x * (2 * PI))) s H). cbn [bind].
  rewrite (np_average_ok w (fun x => sin (x * (2 * PI))) s H). cbn [bind]. unfold circle_mean, circle_angle.
  rewrite (weighted_fext (fun x => sin (x * (2 * PI))) (fun x => sin (2 * PI * x))) by (intros; f_equal; ring).
  rewrite (weighted_fext (fun x => cos (x * (2 * PI))) (fun x => cos (2 * PI * x))) by (intros; f_equal; ring).
  reflexivity.
Qed.
Lemma circular_images w (s s' : list R) : images s s' -> circular_mean_R w s' = circular_mean_R w s.
Proof.
  intros I. unfold circular_mean_R. rewrite !map_map.
  rewrite (images_maps (fun x => cos (x * (2 * PI))) s s'); [|intros; rewrite !(Rmult_comm _ (2 * PI)); apply cos_whole|exact I].
  rewrite (images_maps (fun x => sin (x * (2 * PI))) s s'); [|intros; rewrite !(Rmult_comm _ (2 * PI)); apply sin_whole|exact I].
  reflexivity.
Qed.
Lemma circle_near ws u mu : u <> [] -> length ws = length u -> Forall (fun w => 0 < w)%R ws -> (forall x, In x u -> Rabs (x - mu) < 1 / 4)%R ->
  exists k : Z, (Rabs (circle_mean ws u - mu - IZR k) < 1 / 4)%R.
Proof.
  intros NE L P M. generalize PI_RGT_0; intros PI0.
  assert (W : (0 < rsum ws)%R).
  { replace (rsum ws) with (weighted (fun _ => 1%R) ws u) by (rewrite weighted_const by assumption; ring).
    apply weighted_pos; try assumption. apply Forall_forall. intros; lra. }
  assert (Q : (0 < cos (2 * PI * mu) * weighted (fun x => cos (2 * PI * x)) ws u + sin (2 * PI * mu) * weighted (fun x => sin (2 * PI * x)) ws u)%R).
  { rewrite <- !weighted_scale, <- weighted_plus.
    rewrite (weighted_fext _ (fun x => cos (2 * PI * (x - mu)))).
    2:{ intros x. replace (2 * PI * (x - mu))%R with (2 * PI * x - 2 * PI * mu)%R by ring. rewrite cos_minus. ring. }
    apply weighted_pos; try assumption. apply Forall_forall. intros x X. specialize (M x X). apply Rabs_def2 in M.
    apply cos_gt_0; nra. }
  assert (D : has_direction ws u).
  { unfold has_direction. destruct (Req_dec (weighted (fun x => cos (2 * PI * x)) ws u) 0) as [Z1|]; [|now left].
    right. intros Z2. rewrite Z1, Z2 in Q. lra. }
  destruct (circle_polar ws u ltac:(lra) D) as (r & R & PC & PS). set (c := circle_mean ws u) in *.
  assert (Q2 : (0 < cos (2 * PI * c - 2 * PI * mu))%R).
  { rewrite cos_minus. apply Rmult_lt_reg_l with r; [exact R|]. rewrite Rmult_0_r.
    replace (r * (cos (2 * PI * c) * cos (2 * PI * mu) + sin (2 * PI * c) * sin (2 * PI * mu)))%R
      with (cos (2 * PI * mu) * (r * cos (2 * PI * c)) + sin (2 * PI * mu) * (r * sin (2 * PI * c)))%R by ring.
    rewrite <- PC, <- PS. unfold Rdiv. rewrite <- !Rmult_assoc, <- Rmult_plus_distr_r. apply Rmult_lt_0_compat; [exact Q|]. now apply Rinv_0_lt_compat. }
  destruct (cos_pos_range _ Q2) as [k K]. exists k.
  replace (2 * PI * c - 2 * PI * mu - 2 * IZR k * PI)%R with (2 * PI * (c - mu - IZR k))%R in K by ring. apply Rabs_def2 in K. apply Rabs_def1; nra.
Qed.
Lemma compact_middle (u : list R) : u <> [] -> spans_less u -> exists mu, forall x, In x u -> (Rabs (x - mu) <= 1 / 4 - 1 / 200)%R.
Proof.
  intros N C. destruct (extremes u N) as (lo & hi & L & H & B). exists ((lo + hi) / 2)%R. intros x X. specialize (B x X).
  specialize (C hi lo H L). apply abs_le in C. apply abs_le. lra.
Qed.
Lemma fair_amid circ w s u : fair_circ circ -> u <> [] -> usual_masses w (length u) -> images u (map value s) -> spans_less u ->
  exists c, circ w s = Ok c /\ amid c u.
Proof.
  intros FC NE HM HI HC. assert (N0 : (0 < length u)%nat) by (destruct u; [easy|cbn; lia]).
  destruct (masses_positive w _ N0 HM) as [PW PS]. pose proof (masses_length w _ HM) as LW. set (ws := weights_of (mass_values w) (length u)) in *.
  assert (OK : circular_mean_R (mass_values w) (map value s) = Ok (circle_mean ws u)).
  { rewrite (circular_images _ u) by exact HI. apply circular_ok. split; [exact N0|]. split; [exact LW|]. fold ws. lra. }
  destruct (FC w s _ OK) as (c & Ec & Fc & Bc & k & Kc). exists c. split; [exact Ec|]. split; [exact Fc|]. split; [exact Bc|].
  destruct (compact_middle u NE HC) as [mu M].
  destruct (circle_near ws u mu NE LW PW) as [k' K']. { intros x X. specialize (M x X). lra. }
  exists (- k - k'). apply Forall_forall. intros x X. specialize (M x X). rewrite minus_IZR, opp_IZR.
  apply abs_le in M. apply abs_le in Kc. apply Rabs_def2 in K'. apply abs_le. lra.
Qed.
Lemma axis_round circ w s u : fair_circ circ -> s <> [] -> Z.of_nat (length s) <= 2 ^ 40 -> usual_masses w (length s) -> Forall in_reach s ->
  images u (map value s) -> spans_less u ->
  exists y, molecule_axis circ w s = Ok y /\ nearly_wraps (length s) y (centre_of_mass (weights_of (mass_values w) (length s)) u).
Proof.
  intros FC NE HL HM HR HI HC. assert (LU : length u = length s) by (rewrite <- (map_length value s); now apply images_length).
  destruct (fair_amid circ w s u FC) as (c & Ec & Ac); [destruct u; [destruct s; [easy|discriminate]|discriminate]|now rewrite LU|exact HI|exact HC|].
  unfold molecule_axis. rewrite Ec. cbn [bind]. now apply centre_core.
Qed.
