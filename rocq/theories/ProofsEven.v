(** * ProofsEven: evenly spaced intervals in double precision (C113) *)
From Verif Require Import Base Spec SpecParser SpecDouble ModelParser Lemmas ProofsFloat.
From Coq Require Import Reals Lra Lia Psatz.
From Coq.Floats Require Import SpecFloat.
From Flocq Require Import Core.
Open Scope Z_scope.

(** When the step is a whole number nothing is rounded. *)
Lemma lin_whole a b n i k : 0 <= a -> a < b < 2 ^ 24 -> (2 <= n)%nat -> Z.of_nat n < 2 ^ 24 -> (i < n)%nat -> b - a = k * Z.of_nat (n - 1) ->
  let p := linspace_point (SFofZ a) (SFofZ b) n i in finite_double p /\ value p = IZR (a + Z.of_nat i * k).
Proof.
  intros Ha Hb Hn Hn' Hi K. cbn zeta. assert (K0 : 0 < k) by nia.
  destruct (ofZ_small a) as [Fa Ea]; [lia|]. destruct (ofZ_small b) as [Fb Eb]; [lia|].
  assert (BA : (IZR b - IZR a = IZR (b - a))%R) by now rewrite minus_IZR.
  unfold linspace_point. rewrite (proj2 (Nat.ltb_lt 1 n)) by lia. cbn [andb].
  destruct (Nat.eqb_spec i (n - 1)) as [IL|IL].
  { split; [exact Fb|]. rewrite Eb, IL. f_equal. lia. }
  unfold nofnat. numSF.
  assert (D1 : (Rabs (IZR (b - a)) <= 1267650600228229401496703205376)%R) by (rewrite Rabs_pos_eq by (apply IZR_le; lia); apply IZR_le; lia).
  destruct (bounded_finite _ _ (sub_rounds _ _ Fb Fa)) as [Fd Ed].
  { rewrite Ea, Eb, BA. apply small_bound. exact D1. }
  rewrite Ea, Eb, BA, (rnd_rep (IZR (b - a))) in Ed by (apply rep_Z; lia). set (delta := SFsub fprec femax (SFofZ b) (SFofZ a)) in *.
  destruct (ofZ_small (Z.of_nat (n - 1))) as [Fv Ev]; [lia|]. set (div := SFofZ (Z.of_nat (n - 1))) in *.
  assert (V1 : (1 <= IZR (Z.of_nat (n - 1)))%R) by (apply IZR_le; lia).
  assert (Q : (value delta / value div = IZR k)%R). { rewrite Ed, Ev, K, mult_IZR. field. lra. }
  assert (K1 : k < 2 ^ 24) by nia.
  destruct (bounded_finite _ _ (div_rounds _ _ Fd Fv ltac:(rewrite Ev; lra))) as [Fs Es].
  { rewrite Q. apply small_bound. rewrite Rabs_pos_eq by (apply IZR_le; lia). apply IZR_le. lia. }
  rewrite Q, (rnd_rep (IZR k)) in Es by (apply rep_Z; lia). set (step := SFdiv fprec femax delta div) in *.
  rewrite (step_not_zero step Fs) by (rewrite Es; apply IZR_lt; lia).
  destruct (ofZ_small (Z.of_nat i)) as [Fi Ei]; [lia|].
  assert (IK : Z.of_nat i * k < 2 ^ 24) by nia.
  destruct (bounded_finite _ _ (mul_rounds _ _ Fi Fs)) as [Fm Em].
  { rewrite Ei, Es, <- mult_IZR. apply small_bound. rewrite Rabs_pos_eq by (apply IZR_le; lia). apply IZR_le. lia. }
  rewrite Ei, Es, <- mult_IZR, rnd_rep in Em by (apply rep_Z; lia).
  destruct (bounded_finite _ _ (add_rounds _ _ Fm Fa)) as [Fp Epp].
  { rewrite Em, Ea, <- plus_IZR. apply small_bound. rewrite Rabs_pos_eq by (apply IZR_le; lia). apply IZR_le. lia. }
  split; [exact Fp|]. rewrite Epp, Em, Ea, <- plus_IZR, rnd_rep by (apply rep_Z; lia). f_equal. lia.
Qed.
(** Otherwise the floor is the exact one, or one less when the exact position is a whole number. *)
Lemma lin_floor a b n i : 0 <= a -> a < b < 2 ^ 24 -> (2 <= n)%nat -> Z.of_nat n < 2 ^ 24 -> (i < n)%nat ->
  let z := SFfloorZ (linspace_point (SFofZ a) (SFofZ b) n i) in let d := Z.of_nat (n - 1) in let q := Z.of_nat i * (b - a) in
  z = a + q / d \/ (z = a + q / d - 1 /\ q mod d = 0 /\ (b - a) mod d <> 0).
Proof.
  intros Ha Hb Hn Hn' Hi z d q. assert (D0 : 0 < d) by (unfold d; lia).
  destruct (Z.eq_dec ((b - a) mod d) 0) as [M|M].
  - left. pose proof (Z_div_exact_full_2 (b - a) d ltac:(lia) M) as E. set (k := (b - a) / d) in *. destruct (lin_whole a b n i k Ha Hb Hn Hn' Hi) as [F V]; [fold d; lia|].
    unfold z. rewrite (floor_value _ F), V, Zfloor_IZR. unfold q. rewrite E. replace (Z.of_nat i * (d * k)) with (Z.of_nat i * k * d) by ring. rewrite Z.div_mul by lia. reflexivity.
  - destruct (lin_error a b n i Ha Hb Hn Hn' Hi) as (F & E & _). fold d in E. unfold z. rewrite (floor_value _ F). set (p := value _) in *. clearbody p. clear F z.
    replace (IZR a + IZR (Z.of_nat i) * (IZR (b - a) / IZR d))%R with (IZR a + IZR q / IZR d)%R in E by (unfold q; rewrite mult_IZR; unfold Rdiv; ring).
    assert (D1 : (1 <= IZR d < 16777216)%R) by (split; [apply IZR_le|apply IZR_lt]; unfold d; lia).
    assert (DI : (/ 16777216 < / IZR d)%R) by (apply Rinv_lt_contravar; lra).
    pose proof (Z.div_mod q d ltac:(lia)) as QD. pose proof (Z.mod_pos_bound q d D0) as MB. set (t := q / d) in *. set (m := q mod d) in *. clearbody t m.
    assert (QR : (IZR q / IZR d = IZR t + IZR m / IZR d)%R). { rewrite QD, plus_IZR, mult_IZR. field. lra. }
    rewrite QR in E. apply Rabs_le_inv in E. unfold eta in E.
    assert (MU : (IZR m / IZR d <= 1 - / IZR d)%R).
    { apply Rmult_le_reg_r with (IZR d); [lra|]. unfold Rdiv. rewrite Rmult_minus_distr_r, Rmult_assoc, Rinv_l by lra. assert (IZR m <= IZR d - 1)%R; [|lra]. rewrite <- minus_IZR. apply IZR_le. lia. }
    destruct (Z.eq_dec m 0) as [M0|M0].
    + subst m. unfold Rdiv in E. rewrite Rmult_0_l in E. destruct (Rle_lt_dec (IZR (a + t)) p) as [L|L].
      * left. apply Zfloor_imp. split; [exact L|]. rewrite !plus_IZR. lra.
      * right. split; [|split; [reflexivity|exact M]]. apply Zfloor_imp. replace (a + t - 1 + 1) with (a + t) by lia. split; [rewrite minus_IZR, plus_IZR; lra|exact L].
    + left. apply Zfloor_imp. rewrite !plus_IZR.
      assert (ML : (/ IZR d <= IZR m / IZR d)%R). { unfold Rdiv. rewrite <- (Rmult_1_l (/ IZR d)) at 1. apply Rmult_le_compat_r; [lra|]. apply IZR_le. lia. }
      split; lra.
Qed.
Lemma lin_first a b n : Z.abs a < 2 ^ 50 -> Z.abs b < 2 ^ 50 -> (2 <= n)%nat -> Z.of_nat n < 2 ^ 50 -> SFfloorZ (linspace_point (SFofZ a) (SFofZ b) n 0) = a.
Proof.
  intros Ha Hb Hn Hn'. destruct (ofZ_small a) as [Fa Ea]; [lia|]. destruct (ofZ_small b) as [Fb Eb]; [lia|].
  assert (BA : (IZR b - IZR a = IZR (b - a))%R) by now rewrite minus_IZR.
  assert (LB : forall z, Z.abs z < 2 ^ 60 -> (Rabs (IZR z) <= 1267650600228229401496703205376)%R) by (intros z Hz; rewrite <- abs_IZR; apply IZR_le; lia).
  unfold linspace_point. rewrite (proj2 (Nat.ltb_lt 1 n)) by lia. cbn [andb]. destruct (Nat.eqb_spec 0 (n - 1)) as [IL|IL]; [lia|].
  unfold nofnat. numSF. change (Z.of_nat 0) with 0.
  destruct (bounded_finite _ _ (sub_rounds _ _ Fb Fa)) as [Fd Ed].
  { rewrite Ea, Eb, BA. apply small_bound, LB. lia. }
  rewrite Ea, Eb, BA, (rnd_rep (IZR (b - a))) in Ed by (apply rep_Z; lia). set (delta := SFsub fprec femax (SFofZ b) (SFofZ a)) in *.
  destruct (ofZ_small (Z.of_nat (n - 1))) as [Fv Ev]; [lia|]. set (div := SFofZ (Z.of_nat (n - 1))) in *.
  assert (V1 : (1 <= IZR (Z.of_nat (n - 1)))%R) by (apply IZR_le; lia).
  assert (VI : (0 < / IZR (Z.of_nat (n - 1)) <= 1)%R). { split; [apply Rinv_0_lt_compat; lra|]. rewrite <- Rinv_1. apply Rinv_le; lra. }
  destruct (bounded_finite _ _ (div_rounds _ _ Fd Fv ltac:(rewrite Ev; lra))) as [Fs Es].
  { rewrite Ed, Ev. apply small_bound. unfold Rdiv. rewrite Rabs_mult, (Rabs_pos_eq (/ _)) by lra. pose proof (LB (b - a) ltac:(lia)). pose proof (Rabs_pos (IZR (b - a))). nra. }
  destruct (ofZ_small 0) as [F0 E0]; [lia|].
  assert (Y : forall y, finite_double y -> value y = 0%R -> SFfloorZ (SFadd fprec femax y (SFofZ a)) = a).
  { intros y Fy Ey. destruct (bounded_finite _ _ (add_rounds _ _ Fy Fa)) as [Fp Ep].
    { rewrite Ey, Ea, Rplus_0_l. apply small_bound, LB. lia. }
    rewrite (floor_value _ Fp), Ep, Ey, Ea, Rplus_0_l, rnd_rep, Zfloor_IZR by (apply rep_Z; lia). reflexivity. }
  assert (Z0 : (Rabs 0 <= bpow radix2 1000)%R) by (rewrite Rabs_R0; apply bpow_ge_0).
  destruct (neqb _ _).
  - destruct (bounded_finite _ _ (div_rounds _ _ F0 Fv ltac:(rewrite Ev; lra))) as [Fq Eq].
    { rewrite E0. unfold Rdiv. rewrite Rmult_0_l. exact Z0. }
    rewrite E0 in Eq. unfold Rdiv in Eq. rewrite Rmult_0_l, rnd_0 in Eq.
    destruct (bounded_finite _ _ (mul_rounds _ _ Fq Fd)) as [Fy Ey].
    { rewrite Eq, Rmult_0_l. exact Z0. }
    apply Y; [exact Fy|]. rewrite Ey, Eq, Rmult_0_l. apply rnd_0.
  - destruct (bounded_finite _ _ (mul_rounds _ _ F0 Fs)) as [Fy Ey].
    { rewrite E0, Rmult_0_l. exact Z0. }
    apply Y; [exact Fy|]. rewrite Ey, E0, Rmult_0_l. apply rnd_0.
Qed.
Lemma last_nth_error {A} (l : list A) d : l <> [] -> nth_error l (length l - 1) = Some (last l d).
Proof.
  intros H. destruct (exists_last H) as (q & z & ->). rewrite last_last, app_length. cbn [length]. rewrite nth_error_app2 by lia. replace (length q + 1 - 1 - length q)%nat with O by lia. reflexivity.
Qed.
Lemma floor_ofZ_small b B : SFfloorZ (SFofZ b) = B -> 1 <= B < 2 ^ 50 -> b = B.
Proof.
  intros H HB. destruct (Z.lt_ge_cases (Z.abs b) (2 ^ 53)) as [L|L].
  - destruct (ofZ_small b L) as [F V]. now rewrite (floor_value _ F), V, Zfloor_IZR in H.
  - exfalso. destruct (ofZ_rounds b) as [_ [[F V]|[[s E] _]]].
    + rewrite (floor_value _ F), V in H. destruct (Z.lt_ge_cases b 0) as [N|N].
      * assert (rnd (IZR b) <= IZR (- 2 ^ 52))%R by (apply rnd_le_rep; [apply rep_Z; lia|apply IZR_le; lia]).
        pose proof (Zfloor_lb (rnd (IZR b))) as Q. rewrite H in Q. assert (IZR B <= IZR (- 2 ^ 52))%R by lra. apply le_IZR in H1. lia.
      * assert (IZR (2 ^ 52) <= rnd (IZR b))%R by (apply rnd_ge_rep; [apply rep_Z; lia|apply IZR_le; lia]).
        apply Zfloor_le in H0. rewrite Zfloor_IZR, H in H0. lia.
    + rewrite E in H. cbn in H. lia.
Qed.
Lemma even_list a b num l : 1 <= a < 2 ^ 24 -> num < 2 ^ 24 -> @linspace_int spec_float _ a b num = Ok l -> 2 <= Z.of_nat (length l) ->
  forall A B, hd_error l = Some A -> last l 0 = B -> 1 <= A <= B -> B < 2 ^ 24 -> forall i z, nth_error l i = Some z ->
   let d := Z.of_nat (length l) - 1 in let q := Z.of_nat i * (B - A) in z = A + q / d \/ (z = A + q / d - 1 /\ q mod d = 0 /\ (B - A) mod d <> 0).
Proof.
  intros Ha Hn H. unfold linspace_int, guard in H. destruct (Z.leb_spec 0 num); [|discriminate]. cbn [bind] in H. injection H as <-.
  unfold linspace. numSF. rewrite map_map, map_length, seq_length. set (n := Z.to_nat num) in *.
  set (f := fun i => SFfloorZ (linspace_point (SFofZ a) (SFofZ b) n i)). intros N2 A B HA HB AB HB2.
  assert (Lf : length (map f (seq 0 n)) = n) by now rewrite map_length, seq_length.
  assert (HA' : f 0%nat = A). { clear -HA N2. destruct n as [|n']; [cbn in N2; lia|]. cbn [seq map hd_error] in HA. now injection HA. }
  assert (HB' : f (n - 1)%nat = B).
  { pose proof (last_nth_error (map f (seq 0 n)) 0) as Q. rewrite Lf, nth_error_lin, HB in Q. rewrite (proj2 (Nat.ltb_lt (n - 1) n)) in Q by lia.
    assert (map f (seq 0 n) <> []) by (intros E; rewrite E in Lf; cbn [length] in Lf; lia). specialize (Q H). now injection Q. }
  assert (HB3 : SFfloorZ (SFofZ b) = B).
  { rewrite <- HB'. unfold f, linspace_point. rewrite (proj2 (Nat.ltb_lt 1 n)), Nat.eqb_refl by lia. reflexivity. }
  assert (EB : b = B) by (apply floor_ofZ_small; [exact HB3|lia]).
  assert (EA : A = a). { rewrite <- HA'. unfold f. apply lin_first; lia. }
  clear HB HB' HB3 HA HA'. rewrite <- EB in *. rewrite EA in *. clear A B EA EB.
  intros i z Hz. rewrite nth_error_lin in Hz. destruct (Nat.ltb_spec i n) as [Li|]; [|discriminate]. injection Hz as <-.
  replace (Z.of_nat n - 1) with (Z.of_nat (n - 1)) by lia. destruct (Z.eq_dec a b) as [E|E].
  - cbv zeta. left. rewrite <- E, Z.sub_diag, Z.mul_0_r, Z.div_0_l by lia. rewrite Z.add_0_r.
    destruct (linspace_double a a num (map f (seq 0 n))) as (_ & FA & _); [lia|lia|lia| |].
    { unfold linspace_int, guard. rewrite (proj2 (Z.leb_le 0 num)) by lia. cbn [bind]. unfold linspace. numSF. rewrite map_map. fold n. unfold f. rewrite <- E. reflexivity. }
    rewrite Forall_forall in FA. assert (a <= f i <= a); [|lia]. apply FA, in_map, in_seq. lia.
  - apply lin_floor; lia.
Qed.

Lemma C113_proof geo disp idx didx ts ss o p (a b : Z) : is_double ts -> (0 < value ts)%R -> 0 < ss ->
  (o_min_dt o = None \/ exists mn, o_min_dt o = Some mn /\ is_double mn /\ (0 <= value mn)%R) -> o_spacing o = "linear"%string ->
  parser_init geo disp idx didx ts ss o = Ok p -> Z.of_nat (a_obs (p_dc p)) < 2 ^ 23 ->
  2 <= Z.of_nat (length (p_intervals p)) -> hd_error (p_intervals p) = Some a -> last (p_intervals p) 0 = b -> 1 <= a <= b -> b < 2 ^ 24 ->
  forall i z, nth_error (p_intervals p) i = Some z -> let d := Z.of_nat (length (p_intervals p)) - 1 in let q := Z.of_nat i * (b - a) in
  z = a + q / d \/ (z = a + q / d - 1 /\ q mod d = 0 /\ (b - a) mod d <> 0).
Proof.
  intros D P Sp Hmn HL HO HT. destruct (init_double geo disp idx didx ts ss o p HO HL) as (mi & b' & E1 & L & E2 & E3).
  set (T := Z.of_nat (a_obs (p_dc p))) in *. set (u := SFmul fprec femax (SFofZ ss) ts) in *.
  destruct (unit_cases ts ss D P Sp) as [[Fu Pu]|[s Eu]]; [fold u in Fu, Pu|].
  - assert (Nu : value u <> 0%R) by lra.
    assert (M0 : 0 <= mi).
    { destruct Hmn as [Hmn|(x & Hmn & Dx & Px)]; rewrite Hmn in E1.
      - apply self_quotient in E1; [lia|assumption|assumption].
      - exact (nonneg_quotient x u mi Dx Px Fu Pu E1). }
    intros N2 HA HB AB B24. refine (even_list _ _ _ _ _ _ E3 N2 a b HA HB AB B24); [destruct (Z.eqb_spec mi 0); lia|destruct (Z.ltb_spec (T - mi + 1) (o_n_steps o)); lia].
  - fold u in Eu. rewrite Eu in E1. destruct Hmn as [Hmn|(x & Hmn & Dx & Px)]; rewrite Hmn in E1; [cbn in E1; discriminate|].
    assert (M0 : 0 <= mi). { assert (mi = 0); [|lia]. destruct x as [s'|s'| |s' m e]; cbn in E1; congruence. }
    intros N2 HA HB AB B24. refine (even_list _ _ _ _ _ _ E3 N2 a b HA HB AB B24); [destruct (Z.eqb_spec mi 0); lia|destruct (Z.ltb_spec (T - mi + 1) (o_n_steps o)); lia].
Qed.
Lemma C113_refuted_proof geo : exists p, parser_init geo (still 136) [0] [] (SFofZ 1) 1 (plain None) = Ok p
  /\ length (p_intervals p) = 100%nat /\ hd_error (p_intervals p) = Some 1 /\ last (p_intervals p) 0 = 136 /\ nth_error (p_intervals p) 11 = Some 15 /\ 1 + 11 * (136 - 1) / (100 - 1) = 16.
Proof. eexists. split; [vm_compute; reflexivity|]. cbn [p_intervals]. repeat split; vm_compute; reflexivity. Qed.
Lemma C113_whole_proof geo disp idx didx ts ss o p (a b k : Z) : is_double ts -> (0 < value ts)%R -> 0 < ss ->
  (o_min_dt o = None \/ exists mn, o_min_dt o = Some mn /\ is_double mn /\ (0 <= value mn)%R) -> o_spacing o = "linear"%string ->
  parser_init geo disp idx didx ts ss o = Ok p -> Z.of_nat (a_obs (p_dc p)) < 2 ^ 23 ->
  2 <= Z.of_nat (length (p_intervals p)) -> hd_error (p_intervals p) = Some a -> last (p_intervals p) 0 = b -> 1 <= a <= b -> b < 2 ^ 24 ->
  b - a = k * (Z.of_nat (length (p_intervals p)) - 1) -> forall i z, nth_error (p_intervals p) i = Some z -> z = a + Z.of_nat i * k.
Proof.
  intros D P S Hm HL HO HT N2 HA HB AB B K i z Hz. destruct (C113_proof _ _ _ _ _ _ _ _ _ _ D P S Hm HL HO HT N2 HA HB AB B i z Hz) as [E|(_ & _ & E)].
  - rewrite E, K. f_equal. rewrite Z.mul_assoc. apply Z.div_mul. lia.
  - exfalso. apply E. rewrite K. apply Z.mod_mul. lia.
Qed.
Lemma C113_frame_proof geo disp idx didx ts ss o p (a b : Z) : is_double ts -> (0 < value ts)%R -> 0 < ss ->
  (o_min_dt o = None \/ exists mn, o_min_dt o = Some mn /\ is_double mn /\ (0 <= value mn)%R) -> o_spacing o = "linear"%string ->
  parser_init geo disp idx didx ts ss o = Ok p -> Z.of_nat (a_obs (p_dc p)) < 2 ^ 23 ->
  2 <= Z.of_nat (length (p_intervals p)) -> hd_error (p_intervals p) = Some a -> last (p_intervals p) 0 = b -> 1 <= a <= b -> b < 2 ^ 24 ->
  forall i z, nth_error (p_intervals p) i = Some z ->
  let position := (IZR a + IZR (Z.of_nat i) * (IZR (b - a) / (IZR (Z.of_nat (length (p_intervals p))) - 1)))%R in (position - 1 <= IZR z <= position)%R.
Proof.
  intros D P S Hm HL HO HT N2 HA HB AB B i z Hz. pose proof (C113_proof _ _ _ _ _ _ _ _ _ _ D P S Hm HL HO HT N2 HA HB AB B i z Hz) as E. cbv zeta in *.
  set (N := Z.of_nat (length (p_intervals p))) in *. replace (IZR N - 1)%R with (IZR (N - 1)) by now rewrite minus_IZR. set (d := N - 1) in *. assert (D1 : (1 <= IZR d)%R) by (apply IZR_le; lia).
  replace (IZR (Z.of_nat i) * (IZR (b - a) / IZR d))%R with (IZR (Z.of_nat i * (b - a)) / IZR d)%R by (rewrite mult_IZR; unfold Rdiv; ring). set (q := Z.of_nat i * (b - a)) in *.
  pose proof (Z.div_mod q d ltac:(lia)) as QD. pose proof (Z.mod_pos_bound q d ltac:(lia)) as MB. set (t := q / d) in *. set (m := q mod d) in *.
  assert (QR : (IZR q / IZR d = IZR t + IZR m / IZR d)%R). { rewrite QD, plus_IZR, mult_IZR. field. lra. } rewrite QR.
  assert (M1 : (0 <= IZR m / IZR d <= 1)%R).
  { split; [apply Rmult_le_pos; [apply IZR_le; lia|apply Rlt_le, Rinv_0_lt_compat; lra]|].
    apply Rmult_le_reg_r with (IZR d); [lra|]. unfold Rdiv. rewrite Rmult_assoc, Rinv_l, Rmult_1_r, Rmult_1_l by lra. apply IZR_le. lia. }
  destruct E as [->|(-> & -> & _)].
  - rewrite plus_IZR. lra.
  - rewrite minus_IZR, plus_IZR. unfold Rdiv. rewrite Rmult_0_l. lra.
Qed.
