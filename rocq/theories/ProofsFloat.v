(** * ProofsFloat: C49 and C50, double precision *)
From Verif Require Import Base ModelParser Spec SpecDouble SpecRun.
From Coq Require Import Reals Lra Lia Psatz.
From Coq.Floats Require Import SpecFloat.
From Flocq Require Import Core.
From Flocq.IEEE754 Require BinarySingleNaN.
From Flocq.Prop Require Import Relative.
Import BinarySingleNaN.
Open Scope Z_scope.

#[local] Instance prec_pos : Prec_gt_0 fprec := eq_refl.
#[local] Instance prec_emax : Prec_lt_emax fprec femax := eq_refl.
Notation fmt := (FLT_exp (-1074) 53).
Notation rnd := (round radix2 fmt ZnearestE).
Notation rep := (generic_format radix2 fmt).

(** ** spec_float operations and Flocq's *)
Lemma choice_eq s m l : round_nearest_even m l = choice_mode mode_NE s m l.
Proof. destruct l as [|[]]; try reflexivity. cbn. unfold Round.cond_incr. now destruct (Z.even m). Qed.
Lemma round_aux_eq sx mx ex lx :
  SpecFloat.binary_round_aux fprec femax sx mx ex lx = BinarySingleNaN.binary_round_aux fprec femax mode_NE sx mx ex lx.
Proof.
  unfold SpecFloat.binary_round_aux, BinarySingleNaN.binary_round_aux. destruct (shr_fexp _ _ _ _ _) as [mrs e]. cbn.
  now rewrite (choice_eq sx).
Qed.
Lemma round_eq s m e : SpecFloat.binary_round fprec femax s m e = BinarySingleNaN.binary_round fprec femax mode_NE s m e.
Proof. unfold SpecFloat.binary_round, BinarySingleNaN.binary_round, shl_align_fexp. destruct (shl_align _ _ _). apply round_aux_eq. Qed.
Lemma normalize_eq m e z :
  SpecFloat.binary_normalize fprec femax m e z = B2SF (BinarySingleNaN.binary_normalize fprec femax prec_pos prec_emax mode_NE m e z).
Proof. destruct m; cbn -[SpecFloat.binary_round BinarySingleNaN.binary_round]; [reflexivity| |]; rewrite B2SF_SF2B; apply round_eq. Qed.
Lemma mul_eq (x y : binary_float fprec femax) : SFmul fprec femax (B2SF x) (B2SF y) = B2SF (Bmult mode_NE x y).
Proof. destruct x, y; try reflexivity. cbn -[SpecFloat.binary_round_aux BinarySingleNaN.binary_round_aux]. rewrite B2SF_SF2B. apply round_aux_eq. Qed.
Lemma add_eq (x y : binary_float fprec femax) : SFadd fprec femax (B2SF x) (B2SF y) = B2SF (Bplus mode_NE x y).
Proof. destruct x, y; try (cbn; now destruct (Bool.eqb _ _)); try reflexivity. apply normalize_eq. Qed.
Lemma sub_eq (x y : binary_float fprec femax) : SFsub fprec femax (B2SF x) (B2SF y) = B2SF (Bminus mode_NE x y).
Proof.
  destruct x, y; try (cbn; now destruct (Bool.eqb _ _)); try reflexivity.
  cbn -[SpecFloat.binary_normalize BinarySingleNaN.binary_normalize]. unfold Zminus. rewrite <- cond_Zopp_negb. apply normalize_eq.
Qed.
Lemma div_eq (x y : binary_float fprec femax) : SFdiv fprec femax (B2SF x) (B2SF y) = B2SF (Bdiv mode_NE x y).
Proof.
  destruct x, y; try reflexivity. cbn -[SpecFloat.binary_round_aux BinarySingleNaN.binary_round_aux SFdiv_core_binary]. rewrite B2SF_SF2B.
  destruct (SFdiv_core_binary _ _ _ _ _ _) as [[? ?] ?]. apply round_aux_eq.
Qed.

Lemma value_B x : value (B2SF x) = @B2R fprec femax x.
Proof. destruct x as [| | |s m e B]; try reflexivity. cbn. unfold F2R. cbn [Fnum Fexp]. rewrite bpow_powerRZ. now destruct s. Qed.
Lemma of_double x : is_double x -> exists b : binary_float fprec femax, x = B2SF b.
Proof. intros H. exists (SF2B x H). symmetry. apply B2SF_SF2B. Qed.
Lemma double_B (b : binary_float fprec femax) : is_double (B2SF b).
Proof. apply valid_binary_B2SF. Qed.
Lemma finite_B (b : binary_float fprec femax) : finite_double (B2SF b) <-> is_finite b = true.
Proof. split; [intros [_ H]; now destruct b|intros H; split; [apply double_B|now destruct b]]. Qed.
Lemma rep_value x : rep (value x) \/ ~ is_double x.
Proof.
  destruct (valid_binary 53 1024 x) eqn:E; [left|right; unfold is_double; congruence].
  destruct (of_double x E) as [b ->]. rewrite value_B. exact (generic_format_B2R fprec femax b).
Qed.
Lemma rep_double x : is_double x -> rep (value x).
Proof. intros H. destruct (rep_value x); [assumption|contradiction]. Qed.

(** A result is either correctly rounded or infinite. *)
Definition rounds (z : spec_float) (r : R) : Prop :=
  is_double z /\ ((finite_double z /\ value z = rnd r) \/ ((exists s, z = S754_infinity s) /\ bpow radix2 1024 <= Rabs (rnd r))%R).
Lemma overflow_inf s z : z = binary_overflow fprec femax mode_NE s -> exists s, z = S754_infinity s.
Proof. intros ->. now exists s. Qed.
Lemma mul_rounds x y : finite_double x -> finite_double y -> rounds (SFmul fprec femax x y) (value x * value y).
Proof.
  intros Fx Fy. destruct (of_double x (proj1 Fx)) as [a ->], (of_double y (proj1 Fy)) as [b ->].
  rewrite mul_eq, !value_B. apply finite_B in Fx, Fy. split; [apply double_B|].
  generalize (Bmult_correct fprec femax prec_pos prec_emax mode_NE a b). case Rlt_bool_spec; intros L.
  - intros (E & F & _). left. split; [apply finite_B; now rewrite F, Fx, Fy|]. rewrite value_B. exact E.
  - intros E. right. split; [exact (overflow_inf _ _ E)|exact L].
Qed.
Lemma div_rounds x y : finite_double x -> finite_double y -> value y <> 0%R -> rounds (SFdiv fprec femax x y) (value x / value y).
Proof.
  intros Fx Fy N. destruct (of_double x (proj1 Fx)) as [a ->], (of_double y (proj1 Fy)) as [b ->].
  rewrite div_eq, !value_B in *. apply finite_B in Fx, Fy. split; [apply double_B|].
  generalize (Bdiv_correct fprec femax prec_pos prec_emax mode_NE a b N). case Rlt_bool_spec; intros L.
  - intros (E & F & _). left. split; [apply finite_B; now rewrite F, Fx|]. rewrite value_B. exact E.
  - intros E. right. split; [exact (overflow_inf _ _ E)|exact L].
Qed.
Lemma add_rounds x y : finite_double x -> finite_double y -> rounds (SFadd fprec femax x y) (value x + value y).
Proof.
  intros Fx Fy. destruct (of_double x (proj1 Fx)) as [a ->], (of_double y (proj1 Fy)) as [b ->].
  rewrite add_eq, !value_B. apply finite_B in Fx, Fy. split; [apply double_B|].
  generalize (Bplus_correct fprec femax prec_pos prec_emax mode_NE a b Fx Fy). case Rlt_bool_spec; intros L.
  - intros (E & F & _). left. split; [now apply finite_B|]. rewrite value_B. exact E.
  - intros (E & _). right. split; [exact (overflow_inf _ _ E)|exact L].
Qed.
Lemma sub_rounds x y : finite_double x -> finite_double y -> rounds (SFsub fprec femax x y) (value x - value y).
Proof.
  intros Fx Fy. destruct (of_double x (proj1 Fx)) as [a ->], (of_double y (proj1 Fy)) as [b ->].
  rewrite sub_eq, !value_B. apply finite_B in Fx, Fy. split; [apply double_B|].
  generalize (Bminus_correct fprec femax prec_pos prec_emax mode_NE a b Fx Fy). case Rlt_bool_spec; intros L.
  - intros (E & F & _). left. split; [now apply finite_B|]. rewrite value_B. exact E.
  - intros (E & _). right. split; [exact (overflow_inf _ _ E)|exact L].
Qed.

(** ** Rounding facts *)
Lemma rnd_le_rep r y : rep y -> (r <= y)%R -> (rnd r <= y)%R.
Proof. intros H L. apply round_le_generic; try typeclasses eauto; assumption. Qed.
Lemma rnd_ge_rep r y : rep y -> (y <= r)%R -> (y <= rnd r)%R.
Proof. intros H L. apply round_ge_generic; try typeclasses eauto; assumption. Qed.
Lemma rnd_rep r : rep r -> rnd r = r.
Proof. intros H. apply round_generic; [typeclasses eauto|assumption]. Qed.
Lemma rnd_mono a b : (a <= b)%R -> (rnd a <= rnd b)%R.
Proof. intros H. apply round_le; try typeclasses eauto; assumption. Qed.
Lemma rep_scaled m e : Z.abs m < 2 ^ 53 -> -1074 <= e -> rep (IZR m * bpow radix2 e).
Proof. intros Hm He. apply generic_format_FLT. exists (Float radix2 m e); [reflexivity|exact Hm|exact He]. Qed.
Lemma rep_Z m : Z.abs m < 2 ^ 53 -> rep (IZR m).
Proof. intros H. rewrite <- (Rmult_1_r (IZR m)). change 1%R with (bpow radix2 0). apply rep_scaled; lia. Qed.
Lemma rep_quarter m : Z.abs m < 2 ^ 53 -> rep (IZR m / 4).
Proof. intros H. replace (IZR m / 4)%R with (IZR m * bpow radix2 (-2))%R by (cbn; lra). apply rep_scaled; lia. Qed.
Lemma rep_bpow e : -1074 <= e -> rep (bpow radix2 e).
Proof. intros H. rewrite <- (Rmult_1_l (bpow radix2 e)). apply (rep_scaled 1); lia. Qed.

Definition eps : R := (/ 9007199254740992)%R.       (* 2^-53 *)
Lemma eps_bpow : (/ 2 * bpow radix2 (- (53) + 1) = eps)%R.
Proof. unfold eps. cbn -[Rmult Rinv]. lra. Qed.
Lemma rel_normal r : (bpow radix2 (-1022) <= Rabs r)%R -> (Rabs (rnd r - r) <= eps * Rabs r)%R.
Proof. intros H. rewrite <- eps_bpow. apply relative_error_N_FLT; [reflexivity|exact H]. Qed.
(** A whole multiple of a double is rounded with a small relative error whatever its size. *)
Lemma rel_multiple n u : rep u -> (Rabs (rnd (IZR n * u) - IZR n * u) <= eps * Rabs (IZR n * u))%R.
Proof.
  intros H. destruct (Rle_or_lt (bpow radix2 (-1022)) (Rabs (IZR n * u))) as [L|L]; [now apply rel_normal|].
  rewrite rnd_rep.
  - rewrite Rminus_eq_0, Rabs_R0. apply Rmult_le_pos; [unfold eps; lra|apply Rabs_pos].
  - apply generic_format_FLT_FIX; [typeclasses eauto|left; eapply Rlt_trans; [exact L|apply bpow_lt; lia]|].
    apply generic_format_FIX_FLT in H. apply FIX_format_generic in H. destruct H as [f E F].
    apply generic_format_FIX. exists (Float radix2 (n * Fnum f) (-1074)); [|reflexivity].
    rewrite E. unfold F2R. cbn [Fnum Fexp]. rewrite mult_IZR, F. ring.
Qed.
Lemma bounded_finite z r : rounds z r -> (Rabs r <= bpow radix2 1000)%R -> finite_double z /\ value z = rnd r.
Proof.
  intros [Dz [H|[_ H]]] L; [exact H|]. exfalso.
  assert (Rabs (rnd r) <= bpow radix2 1000)%R by (apply abs_round_le_generic; try typeclasses eauto; [apply rep_bpow; lia|exact L]).
  assert (bpow radix2 1000 < bpow radix2 1024)%R by (apply bpow_lt; lia). lra.
Qed.
Lemma small_bound r : (Rabs r <= 1267650600228229401496703205376)%R -> (Rabs r <= bpow radix2 1000)%R.
Proof. intros H. eapply Rle_trans; [exact H|]. change 1267650600228229401496703205376%R with (bpow radix2 100). apply bpow_le. lia. Qed.
Lemma ofZ_eq z : SFofZ z = B2SF (BinarySingleNaN.binary_normalize fprec femax prec_pos prec_emax mode_NE z 0 false).
Proof. apply normalize_eq. Qed.
Lemma ofZ_rounds z : rounds (SFofZ z) (IZR z).
Proof.
  rewrite ofZ_eq. split; [apply double_B|].
  generalize (binary_normalize_correct fprec femax prec_pos prec_emax mode_NE z 0 false).
  assert (E0 : F2R (Float radix2 z 0) = IZR z) by (unfold F2R; cbn; lra). cbn zeta. rewrite E0. case Rlt_bool_spec; intros L.
  - intros (E & F & _). left. split; [now apply finite_B|]. rewrite value_B. exact E.
  - intros E. right. split; [exact (overflow_inf _ _ E)|exact L].
Qed.
Lemma ofZ_small z : Z.abs z < 2 ^ 53 -> finite_double (SFofZ z) /\ value (SFofZ z) = IZR z.
Proof.
  intros H. destruct (bounded_finite _ _ (ofZ_rounds z)) as [F E].
  - apply small_bound. rewrite <- abs_IZR. apply IZR_le. lia.
  - split; [exact F|]. rewrite E. apply rnd_rep, rep_Z, H.
Qed.
Lemma trunc_value x : finite_double x -> SFtruncZ x = Some (Ztrunc (value x)).
Proof.
  intros [D F]. destruct x as [s| | |s m e]; try contradiction; cbn [SFtruncZ value].
  - now rewrite Ztrunc_IZR.
  - f_equal. rewrite <- (bpow_powerRZ radix2).
    assert (K : (if 0 <=? e then Zpos m * 2 ^ e else Zpos m / 2 ^ (- e)) = Zfloor (IZR (Zpos m) * bpow radix2 e)).
    { destruct (Z.leb_spec 0 e).
      - rewrite <- IZR_Zpower by assumption. rewrite <- mult_IZR, Zfloor_IZR. reflexivity.
      - replace (bpow radix2 e) with (/ IZR (2 ^ (- e)))%R.
        + rewrite <- (Zfloor_div (Zpos m) (2 ^ (- e))); [reflexivity|]. apply Z.pow_nonzero; lia.
        + change (2 ^ (- e)) with (Z.pow radix2 (- e)). rewrite IZR_Zpower by lia. rewrite <- bpow_opp. f_equal. lia. }
    rewrite K. assert (P : (0 <= IZR (Zpos m) * bpow radix2 e)%R) by (apply Rmult_le_pos; [apply IZR_le; lia|apply bpow_ge_0]).
    destruct s.
    + change (Zneg m) with (- Zpos m). rewrite opp_IZR, Ropp_mult_distr_l_reverse, Ztrunc_opp. now rewrite Ztrunc_floor.
    + now rewrite Ztrunc_floor.
Qed.
Lemma floor_value x : finite_double x -> SFfloorZ x = Zfloor (value x).
Proof.
  intros [D F]. destruct x as [s| | |s m e]; try contradiction; cbn [SFfloorZ value].
  - now rewrite Zfloor_IZR.
  - rewrite <- (bpow_powerRZ radix2).
    assert (K : forall v, (if 0 <=? e then v * 2 ^ e else v / 2 ^ (- e)) = Zfloor (IZR v * bpow radix2 e)).
    { intros v. destruct (Z.leb_spec 0 e).
      - rewrite <- IZR_Zpower by assumption. rewrite <- mult_IZR, Zfloor_IZR. reflexivity.
      - replace (bpow radix2 e) with (/ IZR (2 ^ (- e)))%R.
        + rewrite <- (Zfloor_div v (2 ^ (- e))); [reflexivity|]. apply Z.pow_nonzero; lia.
        + change (2 ^ (- e)) with (Z.pow radix2 (- e)). rewrite IZR_Zpower by lia. rewrite <- bpow_opp. f_equal. lia. }
    rewrite K. now destruct s.
Qed.
Lemma trunc_inf s : SFtruncZ (S754_infinity s) = None.
Proof. reflexivity. Qed.

(** ** The quotient `T * unit / unit` *)
Lemma finite_rep u : finite_double u -> rep (value u).
Proof. intros H. apply rep_double, H. Qed.
Lemma trunc_near v n : 1 <= n -> (IZR n - / 4 <= v <= IZR n + / 4)%R -> n - 1 <= Ztrunc v <= n.
Proof.
  intros Hn [L U]. assert (1 <= IZR n)%R by (apply IZR_le; lia). rewrite Ztrunc_floor by lra. split.
  - apply Zfloor_lub. rewrite minus_IZR. lra.
  - assert (Zfloor v < n + 1); [|lia]. apply lt_IZR. rewrite plus_IZR. generalize (Zfloor_lb v). lra.
Qed.
Lemma div_inf_None s y : SFtruncZ (SFdiv fprec femax (S754_infinity s) y) = None.
Proof. destruct y; reflexivity. Qed.
(** Truncating a quotient close to a whole number. *)
Lemma quotient_near x y n z : finite_double x -> finite_double y -> value y <> 0%R -> 1 <= n < 2 ^ 51 ->
  (Rabs (value x / value y - IZR n) <= / 4)%R -> SFtruncZ (SFdiv fprec femax x y) = Some z -> n - 1 <= z <= n.
Proof.
  intros Fx Fy Ny Hn Hq Hz. apply Rabs_le_inv in Hq.
  destruct (div_rounds x y Fx Fy Ny) as [_ [[Fd Ed]|[[s E] _]]]; [|rewrite E in Hz; discriminate].
  rewrite (trunc_value _ Fd), Ed in Hz. injection Hz as <-. apply trunc_near; [lia|]. split.
  - replace (IZR n - / 4)%R with (IZR (4 * n - 1) / 4)%R by (rewrite minus_IZR, mult_IZR; lra).
    apply rnd_ge_rep; [apply rep_quarter; lia|]. rewrite minus_IZR, mult_IZR. lra.
  - replace (IZR n + / 4)%R with (IZR (4 * n + 1) / 4)%R by (rewrite plus_IZR, mult_IZR; lra).
    apply rnd_le_rep; [apply rep_quarter; lia|]. rewrite plus_IZR, mult_IZR. lra.
Qed.
Lemma quotient_exact x y n z : finite_double x -> finite_double y -> value y <> 0%R -> Z.abs n < 2 ^ 53 ->
  (value x / value y = IZR n)%R -> SFtruncZ (SFdiv fprec femax x y) = Some z -> z = n.
Proof.
  intros Fx Fy Ny Hn Hq Hz.
  destruct (div_rounds x y Fx Fy Ny) as [_ [[Fd Ed]|[[s E] _]]]; [|rewrite E in Hz; discriminate].
  rewrite (trunc_value _ Fd), Ed, Hq, rnd_rep, Ztrunc_IZR in Hz by now apply rep_Z. now injection Hz.
Qed.
Lemma eps_small n : (0 <= IZR n)%R -> n < 2 ^ 51 -> (eps * IZR n <= / 4)%R.
Proof. intros H L. unfold eps. assert (IZR n <= IZR (2 ^ 51))%R by (apply IZR_le; lia). cbn in H0. lra. Qed.
Lemma length_quotient T u z : finite_double u -> value u <> 0%R -> 1 <= T < 2 ^ 51 ->
  SFtruncZ (SFdiv fprec femax (SFmul fprec femax (SFofZ T) u) u) = Some z -> T - 1 <= z <= T.
Proof.
  intros Fu Nu HT Hz. destruct (ofZ_small T) as [FT ET]; [lia|].
  destruct (mul_rounds (SFofZ T) u FT Fu) as [_ [[Fm Em]|[[s E] _]]]; [|rewrite E, div_inf_None in Hz; discriminate].
  refine (quotient_near _ _ T z Fm Fu Nu HT _ Hz). rewrite Em, ET.
  assert (P := rel_multiple T (value u) (finite_rep u Fu)).
  replace (rnd (IZR T * value u) / value u - IZR T)%R with ((rnd (IZR T * value u) - IZR T * value u) / value u)%R by (field; exact Nu).
  unfold Rdiv. rewrite Rabs_mult, Rabs_inv. apply Rmult_le_reg_r with (Rabs (value u)); [now apply Rabs_pos_lt|].
  rewrite Rmult_assoc, Rinv_l, Rmult_1_r by now apply Rabs_no_R0.
  rewrite (Rabs_mult (IZR T)) in P. assert (0 <= IZR T)%R by (apply IZR_le; lia). rewrite (Rabs_pos_eq (IZR T)) in P by assumption.
  eapply Rle_trans; [exact P|]. rewrite <- Rmult_assoc. apply Rmult_le_compat_r; [apply Rabs_pos|]. apply eps_small; [assumption|lia].
Qed.
Lemma length_quotient_exact T u z : finite_double u -> value u <> 0%R -> 1 <= T < 2 ^ 53 -> rep (IZR T * value u) ->
  SFtruncZ (SFdiv fprec femax (SFmul fprec femax (SFofZ T) u) u) = Some z -> z = T.
Proof.
  intros Fu Nu HT HR Hz. destruct (ofZ_small T) as [FT ET]; [lia|].
  destruct (mul_rounds (SFofZ T) u FT Fu) as [_ [[Fm Em]|[[s E] _]]]; [|rewrite E, div_inf_None in Hz; discriminate].
  refine (quotient_exact _ _ T z Fm Fu Nu _ _ Hz); [lia|]. rewrite Em, ET, rnd_rep by assumption. field. exact Nu.
Qed.

(** ** linspace in double precision *)
Ltac numSF := cbn [n0 n1 nadd nsub nmul ndiv nopp nofZ nltb nleb nfloor ntrunc NumSF].
Lemma rnd_0 : rnd 0 = 0%R.
Proof. apply round_0. typeclasses eauto. Qed.
Lemma lin_values a b n : 0 <= a -> a <= b < 2 ^ 50 -> Z.of_nat n < 2 ^ 50 ->
  exists y : nat -> R, y O = 0%R
    /\ (forall i, (i < n)%nat -> 0 <= y i <= IZR (b - a) + / 4)%R
    /\ (forall i j, (i <= j < n)%nat -> (y i <= y j)%R)
    /\ forall i, (i < n)%nat -> let p := linspace_point (SFofZ a) (SFofZ b) n i in
         finite_double p /\ value p = if Nat.ltb 1 n && Nat.eqb i (n - 1) then IZR b else rnd (y i + IZR a).
Proof.
  intros Ha Hb Hn.
  destruct (ofZ_small a) as [Fa Ea]; [lia|]. destruct (ofZ_small b) as [Fb Eb]; [lia|].
  assert (BA : (IZR b - IZR a = IZR (b - a))%R) by now rewrite minus_IZR.
  assert (D0 : (0 <= IZR (b - a))%R) by (apply IZR_le; lia).
  assert (D1 : (IZR (b - a) < 1125899906842624)%R) by (apply IZR_lt; lia).
  assert (A1 : (0 <= IZR a < 1125899906842624)%R) by (split; [apply IZR_le|apply IZR_lt]; lia).
  destruct (bounded_finite _ _ (sub_rounds _ _ Fb Fa)) as [Fd Ed].
  { rewrite Ea, Eb, BA. apply small_bound. rewrite Rabs_pos_eq by assumption. lra. }
  rewrite Ea, Eb, BA, (rnd_rep (IZR (b - a))) in Ed by (apply rep_Z; lia).
  set (delta := SFsub fprec femax (SFofZ b) (SFofZ a)) in *.
  assert (Q4 : rep (IZR (b - a) + / 4)).
  { replace (IZR (b - a) + / 4)%R with (IZR (4 * (b - a) + 1) / 4)%R by (rewrite plus_IZR, mult_IZR; lra). apply rep_quarter. lia. }
  assert (QT : rep (IZR (b - a))) by (apply rep_Z; lia).
  (* the last step, adding start *)
  assert (ADD : forall z v, finite_double z -> value z = v -> (0 <= v <= IZR (b - a) + / 4)%R ->
            finite_double (SFadd fprec femax z (SFofZ a)) /\ value (SFadd fprec femax z (SFofZ a)) = rnd (v + IZR a)).
  { intros z v Fz Ez Hv. destruct (bounded_finite _ _ (add_rounds _ _ Fz Fa)) as [F E].
    - rewrite Ez, Ea. apply small_bound. rewrite Rabs_pos_eq by lra. lra.
    - split; [exact F|]. now rewrite E, Ez, Ea. }
  assert (I0 : forall i, (i < n)%nat -> Z.abs (Z.of_nat i) < 2 ^ 53) by (intros; lia).
  destruct (Compare_dec.le_lt_dec n 1) as [N1|N1].
  { exists (fun _ => 0%R). split; [reflexivity|]. split; [intros; lra|]. split; [intros; lra|].
      intros i Hi. assert (i = O) by lia. subst i. unfold linspace_point. rewrite (proj2 (Nat.ltb_ge 1 n)) by assumption. cbn [andb]. numSF. fold delta.
      unfold nofnat. numSF. destruct (ofZ_small (Z.of_nat 0)) as [Fi Ei]; [cbn; lia|].
      destruct (bounded_finite _ _ (mul_rounds _ _ Fi Fd)) as [Fm Em].
      { rewrite Ei. cbn [Z.of_nat]. rewrite Rmult_0_l, Rabs_R0. apply bpow_ge_0. }
      apply ADD; [exact Fm| |lra]. rewrite Em, Ei. cbn [Z.of_nat]. now rewrite Rmult_0_l, rnd_0. }
  (* at least two points *)
  destruct (ofZ_small (Z.of_nat (n - 1))) as [Fv Ev]; [lia|]. set (div := SFofZ (Z.of_nat (n - 1))) in *.
  assert (V1 : (1 <= IZR (Z.of_nat (n - 1)) < 1125899906842624)%R) by (split; [apply IZR_le|apply IZR_lt]; lia).
  set (v := IZR (Z.of_nat (n - 1))) in *.
  assert (Nv : value div <> 0%R) by (rewrite Ev; lra).
  destruct (bounded_finite _ _ (div_rounds _ _ Fd Fv Nv)) as [Fs Es].
  { rewrite Ed, Ev. apply small_bound. assert (0 <= IZR (b - a) / v <= IZR (b - a))%R.
    { split; [apply Rmult_le_pos; [assumption|left; apply Rinv_0_lt_compat; lra]|].
      apply Rmult_le_reg_r with v; [lra|]. unfold Rdiv. rewrite Rmult_assoc, Rinv_l by lra. nra. }
    rewrite Rabs_pos_eq by lra. lra. }
  rewrite Ed, Ev in Es. set (step := SFdiv fprec femax delta div) in *.
  assert (IV : forall i, (i < n)%nat -> (0 <= IZR (Z.of_nat i) <= v)%R) by (intros i Hi; unfold v; split; apply IZR_le; lia).
  assert (PT : forall i, linspace_point (SFofZ a) (SFofZ b) n i =
     if Nat.ltb 1 n && Nat.eqb i (n - 1) then SFofZ b
     else SFadd fprec femax (if neqb step n0 then SFmul fprec femax (SFdiv fprec femax (SFofZ (Z.of_nat i)) div) delta
                             else SFmul fprec femax (SFofZ (Z.of_nat i)) step) (SFofZ a)).
  { intros i. unfold linspace_point. rewrite (proj2 (Nat.ltb_lt 1 n)) by assumption. numSF. fold delta. unfold nofnat. numSF. fold div. fold step. reflexivity. }
  assert (STEP : (0 <= rnd (IZR (b - a) / v))%R).
  { rewrite <- rnd_0. apply rnd_mono. apply Rmult_le_pos; [assumption|left; apply Rinv_0_lt_compat; lra]. }
  assert (FIN : forall y, y O = 0%R ->
       (forall i, (i < n)%nat -> 0 <= y i <= IZR (b - a) + / 4)%R ->
       (forall i j, (i <= j < n)%nat -> (y i <= y j)%R) ->
       (forall i, (i < n)%nat -> let m := (if neqb step n0 then SFmul fprec femax (SFdiv fprec femax (SFofZ (Z.of_nat i)) div) delta
                             else SFmul fprec femax (SFofZ (Z.of_nat i)) step) in finite_double m /\ value m = y i) ->
       exists y : nat -> R, y O = 0%R
    /\ (forall i, (i < n)%nat -> 0 <= y i <= IZR (b - a) + / 4)%R
    /\ (forall i j, (i <= j < n)%nat -> (y i <= y j)%R)
    /\ forall i, (i < n)%nat -> let p := linspace_point (SFofZ a) (SFofZ b) n i in
         finite_double p /\ value p = if Nat.ltb 1 n && Nat.eqb i (n - 1) then IZR b else rnd (y i + IZR a)).
  { intros y Y0 Y1 Y2 Y3. exists y. split; [exact Y0|]. split; [exact Y1|]. split; [exact Y2|].
    intros i Hi. cbn zeta. rewrite PT. destruct (Nat.ltb 1 n && Nat.eqb i (n - 1)); [split; assumption|].
    destruct (Y3 i Hi) as [F E]. exact (ADD _ _ F E (Y1 i Hi)). }
  assert (Vinv : (0 < / v)%R) by (apply Rinv_0_lt_compat; lra).
  destruct (neqb step n0).
  - apply (FIN (fun i => rnd (rnd (IZR (Z.of_nat i) / v) * IZR (b - a)))).
    + cbn [Z.of_nat]. unfold Rdiv. now rewrite Rmult_0_l, rnd_0, Rmult_0_l, rnd_0.
    + intros i Hi. destruct (IV i Hi) as [P1 P2].
      assert (R0 : (0 <= rnd (IZR (Z.of_nat i) / v) <= 1)%R).
      { split; [rewrite <- rnd_0; apply rnd_mono; apply Rmult_le_pos; lra|].
        apply rnd_le_rep; [apply (rep_Z 1); lia|]. apply Rmult_le_reg_r with v; [lra|]. unfold Rdiv. rewrite Rmult_assoc, Rinv_l by lra. lra. }
      split; [rewrite <- rnd_0; apply rnd_mono; apply Rmult_le_pos; lra|].
      apply Rle_trans with (IZR (b - a)); [|lra]. apply rnd_le_rep; [exact QT|]. nra.
    + intros i j Hij. apply rnd_mono. apply Rmult_le_compat_r; [assumption|]. apply rnd_mono. apply Rmult_le_compat_r; [lra|]. apply IZR_le. lia.
    + intros i Hi. destruct (ofZ_small (Z.of_nat i)) as [Fi Ei]; [lia|]. destruct (IV i Hi) as [P1 P2].
      assert (Q : (0 <= IZR (Z.of_nat i) / v <= 1)%R).
      { split; [apply Rmult_le_pos; lra|]. apply Rmult_le_reg_r with v; [lra|]. unfold Rdiv. rewrite Rmult_assoc, Rinv_l by lra. lra. }
      destruct (bounded_finite _ _ (div_rounds _ _ Fi Fv Nv)) as [Fq Eq].
      { rewrite Ei, Ev. apply small_bound. rewrite Rabs_pos_eq by lra. lra. }
      rewrite Ei, Ev in Eq.
      assert (R0 : (0 <= rnd (IZR (Z.of_nat i) / v) <= 1)%R).
      { split; [rewrite <- rnd_0; apply rnd_mono; lra|]. apply rnd_le_rep; [apply (rep_Z 1); lia|lra]. }
      destruct (bounded_finite _ _ (mul_rounds _ _ Fq Fd)) as [Fm Em].
      { rewrite Eq, Ed. apply small_bound. rewrite Rabs_pos_eq by (apply Rmult_le_pos; lra). nra. }
      split; [exact Fm|]. now rewrite Em, Eq, Ed.
  - assert (SB : (rnd (IZR (b - a) / v) * v <= IZR (b - a) + / 4)%R).
    { destruct (Z.eq_dec (b - a) 0) as [Z0|Z0].
      - rewrite Z0. unfold Rdiv. rewrite Rmult_0_l, rnd_0. lra.
      - assert (1 <= IZR (b - a))%R by (apply IZR_le; lia).
        assert (NB : (bpow radix2 (-1022) <= Rabs (IZR (b - a) / v))%R).
        { rewrite Rabs_pos_eq by (apply Rmult_le_pos; lra). apply Rle_trans with (/ 1125899906842624)%R.
          - change (/ 1125899906842624)%R with (bpow radix2 (-50)). apply bpow_le. lia.
          - apply Rle_trans with (1 * / v)%R; [rewrite Rmult_1_l; apply Rinv_le; lra|]. apply Rmult_le_compat_r; lra. }
        assert (RE := rel_normal _ NB). rewrite (Rabs_pos_eq (IZR (b - a) / v)) in RE by (apply Rmult_le_pos; lra).
        apply Rabs_le_inv in RE. set (w := (IZR (b - a) / v)%R) in *.
        assert (WV : (w * v = IZR (b - a))%R) by (unfold w; field; lra).
        assert (rnd w <= w + eps * w)%R by lra.
        apply Rle_trans with ((w + eps * w) * v)%R; [apply Rmult_le_compat_r; lra|].
        replace ((w + eps * w) * v)%R with (w * v + eps * (w * v))%R by ring. rewrite WV. unfold eps. lra. }
    set (st := rnd (IZR (b - a) / v)) in *.
    assert (YB : forall i, (i < n)%nat -> (0 <= IZR (Z.of_nat i) * st <= IZR (b - a) + / 4)%R).
    { intros i Hi. destruct (IV i Hi) as [P1 P2]. split; [apply Rmult_le_pos; assumption|]. eapply Rle_trans; [|exact SB]. rewrite (Rmult_comm st). now apply Rmult_le_compat_r. }
    apply (FIN (fun i => rnd (IZR (Z.of_nat i) * st))).
    + cbn [Z.of_nat]. now rewrite Rmult_0_l, rnd_0.
    + intros i Hi. destruct (YB i Hi) as [P1 P2]. split; [rewrite <- rnd_0; now apply rnd_mono|]. now apply rnd_le_rep.
    + intros i j Hij. apply rnd_mono. apply Rmult_le_compat_r; [assumption|]. apply IZR_le. lia.
    + intros i Hi. destruct (ofZ_small (Z.of_nat i)) as [Fi Ei]; [lia|]. destruct (YB i Hi) as [P1 P2].
      destruct (bounded_finite _ _ (mul_rounds _ _ Fi Fs)) as [Fm Em].
      { rewrite Ei, Es. apply small_bound. rewrite Rabs_pos_eq by assumption. lra. }
      split; [exact Fm|]. now rewrite Em, Ei, Es.
Qed.

Lemma nth_error_lin {A} (f : nat -> A) n i : nth_error (map f (seq 0 n)) i = if Nat.ltb i n then Some (f i) else None.
Proof.
  destruct (Nat.ltb_spec i n).
  - rewrite (map_nth_error f i (seq 0 n) (d := i)); [reflexivity|]. rewrite (nth_error_nth' _ O) by (rewrite seq_length; lia). now rewrite seq_nth by lia.
  - apply nth_error_None. rewrite map_length, seq_length. lia.
Qed.
Lemma linspace_double a b num l : 0 <= a -> a <= b < 2 ^ 50 -> num < 2 ^ 50 ->
  @linspace_int spec_float _ a b num = Ok l ->
  Z.of_nat (length l) = num /\ Forall (fun z => a <= z <= b) l /\ nondecreasing l
  /\ (1 <= num -> hd_error l = Some a) /\ (2 <= num -> last l 0 = b).
Proof.
  intros Ha Hb Hn H. unfold linspace_int, guard in H. destruct (Z.leb_spec 0 num); [|discriminate]. cbn [bind] in H. injection H as <-.
  unfold linspace. numSF. rewrite map_map. set (n := Z.to_nat num). assert (Hn' : Z.of_nat n < 2 ^ 50) by (unfold n; lia).
  destruct (lin_values a b n Ha Hb Hn') as (y & Y0 & Y1 & Y2 & Y3).
  set (f := fun i => SFfloorZ (linspace_point (SFofZ a) (SFofZ b) n i)).
  assert (B1 : (IZR a <= IZR b)%R) by (apply IZR_le; lia).
  assert (BA : IZR (b - a) = (IZR b - IZR a)%R) by apply minus_IZR.
  assert (VAL : forall i, (i < n)%nat -> (IZR a <= value (linspace_point (SFofZ a) (SFofZ b) n i) <= IZR b + / 4)%R).
  { intros i Hi. destruct (Y3 i Hi) as [F E]. rewrite E. destruct (Nat.ltb 1 n && Nat.eqb i (n - 1)); [lra|].
    specialize (Y1 i Hi). rewrite BA in Y1. split.
    - apply rnd_ge_rep; [apply rep_Z; lia|lra].
    - replace (IZR b + / 4)%R with (IZR (4 * b + 1) / 4)%R by (rewrite plus_IZR, mult_IZR; lra).
      apply rnd_le_rep; [apply rep_quarter; lia|]. rewrite plus_IZR, mult_IZR. lra. }
  assert (FL : forall i, (i < n)%nat -> f i = Zfloor (value (linspace_point (SFofZ a) (SFofZ b) n i))).
  { intros i Hi. apply floor_value. apply Y3, Hi. }
  assert (RG : forall i, (i < n)%nat -> a <= f i <= b).
  { intros i Hi. rewrite (FL i Hi). destruct (VAL i Hi). split; [now apply Zfloor_lub|].
    assert (Zfloor (value (linspace_point (SFofZ a) (SFofZ b) n i)) < b + 1); [|lia].
    apply lt_IZR. rewrite plus_IZR. generalize (Zfloor_lb (value (linspace_point (SFofZ a) (SFofZ b) n i))). lra. }
  repeat split.
  - rewrite map_length, seq_length. unfold n. lia.
  - apply Forall_forall. intros z Hz. apply in_map_iff in Hz. destruct Hz as (i & <- & Hi). apply in_seq in Hi. apply RG. lia.
  - intros i j x z Hij Ex Ez. rewrite (nth_error_lin f) in Ex, Ez.
    destruct (Nat.ltb_spec i n) as [Li|]; [|discriminate]. destruct (Nat.ltb_spec j n) as [Lj|]; [|discriminate].
    injection Ex as <-. injection Ez as <-. rewrite (FL i Li), (FL j Lj).
    destruct (Y3 i Li) as [_ Ei], (Y3 j Lj) as [_ Ej].
    destruct (Nat.ltb 1 n && Nat.eqb j (n - 1)) eqn:EJ.
    + rewrite Ej, Zfloor_IZR, <- (FL i Li). now apply RG.
    + destruct (Nat.ltb 1 n && Nat.eqb i (n - 1)) eqn:EI.
      * apply andb_prop in EI. destruct EI as [E1 E2]. apply Nat.eqb_eq in E2. rewrite E1 in EJ. cbn [andb] in EJ. apply Nat.eqb_neq in EJ. lia.
      * rewrite Ei, Ej. apply Zfloor_le. apply rnd_mono. assert (y i <= y j)%R by (apply Y2; lia). lra.
  - intros H1. assert (Hn0 : (0 < n)%nat) by (unfold n; lia). destruct n as [|n'] eqn:En; [lia|]. cbn [seq map hd_error]. f_equal.
    fold (f O). rewrite (FL O Hn0). destruct (Y3 O Hn0) as [_ E]. rewrite E.
    destruct (Nat.ltb 1 (S n') && Nat.eqb 0 (S n' - 1)) eqn:EE.
    + apply andb_prop in EE. destruct EE as [E1 E2]. apply Nat.ltb_lt in E1. apply Nat.eqb_eq in E2. lia.
    + rewrite Y0, Rplus_0_l, rnd_rep by (apply rep_Z; lia). apply Zfloor_IZR.
  - intros H2. assert (Hn0 : (n - 1 < n)%nat) by (unfold n; lia).
    replace (seq 0 n) with (seq 0 (n - 1) ++ [(n - 1)%nat])%list.
    + rewrite map_app. cbn [map]. rewrite last_last. change (f (n - 1)%nat = b). rewrite (FL _ Hn0). destruct (Y3 _ Hn0) as [_ E]. rewrite E.
      rewrite Nat.eqb_refl. assert (L1 : Nat.ltb 1 n = true) by (apply Nat.ltb_lt; unfold n; lia). rewrite L1. cbn [andb]. apply Zfloor_IZR.
    + change [(n - 1)%nat] with (seq (0 + (n - 1)) 1). rewrite <- seq_app. f_equal. lia.
Qed.

(** ** Parser.__init__ in double precision *)
Lemma trunc_div_inf x s : SFtruncZ (SFdiv fprec femax (SFmul fprec femax x (S754_infinity s)) (S754_infinity s)) = None.
Proof. destruct x; reflexivity. Qed.
Lemma value_pos_finite x : is_double x -> value x <> 0%R -> finite_double x.
Proof. intros D H. split; [exact D|]. destruct x; cbn in *; try (now apply H); exact I. Qed.
Lemma unit_cases ts ss : is_double ts -> (0 < value ts)%R -> 0 < ss -> let u := SFmul fprec femax (SFofZ ss) ts in
  (finite_double u /\ (0 < value u)%R) \/ exists s, u = S754_infinity s.
Proof.
  intros D P S. cbn zeta. assert (Ft : finite_double ts) by (apply value_pos_finite; [exact D|lra]).
  destruct (ofZ_rounds ss) as [_ [[F E]|[[s E] _]]].
  - destruct (mul_rounds _ _ F Ft) as [_ [[Fu Eu]|[K _]]]; [left|right; exact K]. split; [exact Fu|]. rewrite Eu.
    apply Rlt_le_trans with (value ts); [exact P|]. apply rnd_ge_rep; [now apply rep_double|].
    assert (1 <= value (SFofZ ss))%R. { rewrite E. apply rnd_ge_rep; [apply (rep_Z 1); lia|]. apply IZR_le. lia. }
    nra.
  - right. rewrite E. destruct ts as [?| | |? ? ?]; cbn in P; try (exfalso; lra). cbn. eauto.
Qed.
Lemma self_quotient u z : finite_double u -> value u <> 0%R -> SFtruncZ (SFdiv fprec femax u u) = Some z -> z = 1.
Proof. intros F N H. apply (quotient_exact u u 1 z F F N); [lia| |exact H]. field. exact N. Qed.
Lemma nonneg_quotient x u z : is_double x -> (0 <= value x)%R -> finite_double u -> (0 < value u)%R ->
  SFtruncZ (SFdiv fprec femax x u) = Some z -> 0 <= z.
Proof.
  intros D P F N H. assert (Fx : finite_double x).
  { split; [exact D|]. destruct x; try exact I; cbn in H; destruct u; discriminate. }
  assert (Nu : value u <> 0%R) by lra.
  destruct (div_rounds x u Fx F Nu) as [_ [[Fd Ed]|[[s E] _]]]; [|rewrite E in H; discriminate].
  rewrite (trunc_value _ Fd), Ed in H. injection H as <-.
  assert (0 <= rnd (value x / value u))%R by (rewrite <- rnd_0; apply rnd_mono; apply Rmult_le_pos; [lra|left; now apply Rinv_0_lt_compat]).
  rewrite Ztrunc_floor by assumption. now apply Zfloor_lub.
Qed.

Section Init.
  Context (geomspace : Z -> Z -> Z -> Res (list Z)) (disp : Arr spec_float) (indices drift_indices : list Z)
            (ts : spec_float) (ss : Z) (o : Options spec_float) (p : Parsed spec_float).
  Context (HO : parser_init geomspace disp indices drift_indices ts ss o = Ok p) (HL : o_spacing o = "linear"%string).
  Let u := SFmul fprec femax (SFofZ ss) ts.
  Let T := Z.of_nat (a_obs (p_dc p)).
  Let mn := match o_min_dt o with Some m => m | None => u end.
  Let mx := match o_max_dt o with Some m => m | None => SFmul fprec femax (SFofZ T) u end.
  Lemma init_double : exists mi b, SFtruncZ (SFdiv fprec femax mn u) = Some mi /\ mi < T
    /\ SFtruncZ (SFdiv fprec femax mx u) = Some b
    /\ @linspace_int spec_float _ (if mi =? 0 then 1 else mi) b (if T - mi + 1 <? o_n_steps o then T - mi + 1 else o_n_steps o)
       = Ok (p_intervals p).
  Proof.
    unfold mn, mx, T. clear T mn mx. rename HL into HL'. revert HO. unfold parser_init. numSF. fold u.
    destruct (correct_drift drift_indices disp) as [dc|]; [|discriminate]. cbn [bind].
    unfold get_time_intervals. numSF. fold u. rewrite HL'. cbn [String.eqb Ascii.eqb Bool.eqb].
    unfold py_div at 1. destruct (neqb u n0) eqn:EU; [discriminate|]. cbn [bind]. numSF.
    unfold py_int at 1. numSF.
    destruct (SFtruncZ (SFdiv fprec femax match o_min_dt o with Some m => m | None => u end u)) as [mi|] eqn:E1; cbn [opt_res bind]; [|discriminate].
    destruct (Z.leb_spec (Z.of_nat (a_obs dc)) mi) as [|L]; [discriminate|].
    unfold py_div. rewrite EU. cbn [bind]. numSF. unfold py_int. numSF. rewrite E1. cbn [opt_res bind].
    destruct (SFtruncZ (SFdiv fprec femax match o_max_dt o with Some m => m | None => SFmul fprec femax (SFofZ (Z.of_nat (a_obs dc))) u end u)) as [b|] eqn:E2; cbn [opt_res bind]; [|discriminate].
    destruct (linspace_int _ _ _) as [tis|] eqn:E3; [|discriminate]. cbn [bind].
    destruct (get_disps _ _ _ _ _ _ _ _) as [r|]; [|discriminate]. cbn [bind]. intros H. injection H as <-. cbn [p_dc p_intervals].
    exists mi, b. repeat split; assumption.
  Qed.
End Init.

Lemma C49_proof geomspace disp indices drift_indices ts ss o p :
  is_double ts -> (0 < value ts)%R -> 0 < ss -> o_max_dt o = None ->
  (o_min_dt o = None \/ exists mn, o_min_dt o = Some mn /\ is_double mn /\ (0 <= value mn)%R) ->
  o_spacing o = "linear"%string ->
  parser_init geomspace disp indices drift_indices ts ss o = Ok p ->
  let T := Z.of_nat (a_obs (p_dc p)) in T < 2 ^ 49 ->
  Forall (fun z => 1 <= z <= T) (p_intervals p) /\ nondecreasing (p_intervals p)
  /\ (2 <= Z.of_nat (length (p_intervals p)) -> T - 1 <= last (p_intervals p) 0 <= T).
Proof.
  intros D P Sp Hmx Hmn HL HO. cbn zeta. intros HT.
  destruct (init_double geomspace disp indices drift_indices ts ss o p HO HL) as (mi & b & E1 & L & E2 & E3).
  rewrite Hmx in E2. set (T := Z.of_nat (a_obs (p_dc p))) in *. set (u := SFmul fprec femax (SFofZ ss) ts) in *.
  destruct (unit_cases ts ss D P Sp) as [[Fu Pu]|[s Eu]]; [fold u in Fu, Pu|fold u in Eu; rewrite Eu, trunc_div_inf in E2; discriminate].
  assert (Nu : value u <> 0%R) by lra.
  assert (M0 : 0 <= mi).
  { destruct Hmn as [Hmn|(x & Hmn & Dx & Px)]; rewrite Hmn in E1.
    - apply self_quotient in E1; [lia|assumption|assumption].
    - exact (nonneg_quotient x u mi Dx Px Fu Pu E1). }
  assert (B : T - 1 <= b <= T) by (apply (length_quotient T u b Fu Nu); [lia|exact E2]).
  assert (AB : (if mi =? 0 then 1 else mi) <= b).
  { destruct (Z.eqb_spec mi 0); [|lia]. destruct (Z.eq_dec T 1) as [T1|]; [|lia].
    assert (b = T); [|lia]. apply (length_quotient_exact T u b Fu Nu); [lia| |exact E2]. rewrite T1, Rmult_1_l. now apply finite_rep. }
  assert (A1 : 1 <= (if mi =? 0 then 1 else mi)) by (destruct (Z.eqb_spec mi 0); lia).
  destruct (fun h1 h2 h3 => linspace_double _ _ _ _ h1 h2 h3 E3) as (LN & FA & ND & HD & LA);
    [destruct (Z.eqb_spec mi 0); lia|split; [exact AB|lia]|destruct (Z.ltb_spec (T - mi + 1) (o_n_steps o)); lia|].
  split; [|split].
  - eapply Forall_impl; [|exact FA]. cbn beta. intros z Hz. lia.
  - exact ND.
  - intros H2. rewrite LA by lia. exact B.
Qed.
(** Binary fractions: nothing is rounded. *)
Lemma C49_exact_proof geomspace disp indices drift_indices ts ss o p m e :
  is_double ts -> value ts = (IZR m * powerRZ 2 e)%R -> 0 < m -> -1074 <= e <= 900 -> 0 < ss -> o_max_dt o = None ->
  (o_min_dt o = None \/ exists mn, o_min_dt o = Some mn /\ is_double mn /\ (0 <= value mn)%R) ->
  o_spacing o = "linear"%string ->
  parser_init geomspace disp indices drift_indices ts ss o = Ok p ->
  let T := Z.of_nat (a_obs (p_dc p)) in T < 2 ^ 49 -> m * ss * T < 2 ^ 53 ->
  2 <= Z.of_nat (length (p_intervals p)) -> last (p_intervals p) 0 = T.
Proof.
  intros D V Hm He Sp Hmx Hmn HL HO. cbn zeta. intros HT HM H2.
  assert (P : (0 < value ts)%R) by (rewrite V; apply Rmult_lt_0_compat; [apply IZR_lt; lia|apply powerRZ_lt; lra]).
  destruct (init_double geomspace disp indices drift_indices ts ss o p HO HL) as (mi & b & E1 & L & E2 & E3).
  rewrite Hmx in E2. set (T := Z.of_nat (a_obs (p_dc p))) in *. set (u := SFmul fprec femax (SFofZ ss) ts) in *.
  destruct (unit_cases ts ss D P Sp) as [[Fu Pu]|[s Eu]]; [fold u in Fu, Pu|fold u in Eu; rewrite Eu, trunc_div_inf in E2; discriminate].
  assert (Nu : value u <> 0%R) by lra.
  assert (M0 : 0 <= mi).
  { destruct Hmn as [Hmn|(x & Hmn & Dx & Px)]; rewrite Hmn in E1.
    - apply self_quotient in E1; [lia|assumption|assumption].
    - exact (nonneg_quotient x u mi Dx Px Fu Pu E1). }
  assert (S53 : m * ss < 2 ^ 53) by nia.
  assert (Vu : value u = (IZR (ss * m) * bpow radix2 e)%R).
  { unfold u. assert (Ft : finite_double ts) by (apply value_pos_finite; [exact D|lra]).
    destruct (ofZ_small ss) as [Fs Es]; [nia|].
    destruct (mul_rounds _ _ Fs Ft) as [_ [[_ E]|[[s E] _]]].
    - rewrite E, Es, V, <- (bpow_powerRZ radix2), <- Rmult_assoc, <- mult_IZR. apply rnd_rep, rep_scaled; [nia|lia].
    - exfalso. destruct Fu as [_ Fu]. unfold u in Fu. rewrite E in Fu. exact Fu. }
  assert (B : b = T).
  { apply (length_quotient_exact T u b Fu Nu); [lia| |exact E2]. rewrite Vu, <- Rmult_assoc, <- mult_IZR. apply rep_scaled; [|lia]. nia. }
  assert (AB : (if mi =? 0 then 1 else mi) <= b) by (destruct (Z.eqb_spec mi 0); lia).
  destruct (fun h1 h2 h3 => linspace_double _ _ _ _ h1 h2 h3 E3) as (LN & FA & ND & HD & LA);
    [destruct (Z.eqb_spec mi 0); lia|split; [exact AB|lia]|destruct (Z.ltb_spec (T - mi + 1) (o_n_steps o)); lia|].
  rewrite LA by lia. exact B.
Qed.

(** ** Distinct intervals *)
Lemma step_not_zero x : finite_double x -> (0 < value x)%R -> neqb x (S754_zero false) = false.
Proof.
  intros F P. unfold neqb. numSF. destruct x as [s| | |s m e]; cbn [value] in P; try (exfalso; lra).
  destruct s; [|reflexivity]. exfalso. assert (IZR (Zneg m) < 0)%R by (apply IZR_lt; lia). assert (0 < powerRZ 2 e)%R by (apply powerRZ_lt; lra). nra.
Qed.
Definition eta : R := (/ 67108864)%R.     (* 2^-26 *)
Lemma lin_error a b n i : 0 <= a -> a < b < 2 ^ 24 -> (2 <= n)%nat -> Z.of_nat n < 2 ^ 24 -> (i < n)%nat ->
  let p := linspace_point (SFofZ a) (SFofZ b) n i in
  finite_double p /\ (Rabs (value p - (IZR a + IZR (Z.of_nat i) * (IZR (b - a) / IZR (Z.of_nat (n - 1))))) <= eta)%R
  /\ (b - a = Z.of_nat (n - 1) -> value p = IZR (a + Z.of_nat i)).
Proof.
  intros Ha Hb Hn Hn' Hi. cbn zeta.
  destruct (ofZ_small a) as [Fa Ea]; [lia|]. destruct (ofZ_small b) as [Fb Eb]; [lia|].
  assert (BA : (IZR b - IZR a = IZR (b - a))%R) by now rewrite minus_IZR.
  assert (D0 : (1 <= IZR (b - a))%R) by (apply IZR_le; lia).
  assert (D1 : (IZR (b - a) < 16777216)%R) by (apply IZR_lt; lia).
  assert (A1 : (0 <= IZR a < 16777216)%R) by (split; [apply IZR_le|apply IZR_lt]; lia).
  set (v := IZR (Z.of_nat (n - 1))). assert (V1 : (1 <= v < 16777216)%R) by (unfold v; split; [apply IZR_le|apply IZR_lt]; lia).
  assert (Vinv : (0 < / v)%R) by (apply Rinv_0_lt_compat; lra).
  unfold linspace_point. rewrite (proj2 (Nat.ltb_lt 1 n)) by lia. cbn [andb].
  destruct (Nat.eqb_spec i (n - 1)) as [IL|IL].
  { split; [exact Fb|]. split.
    - rewrite Eb, IL. fold v. replace (IZR b - (IZR a + v * (IZR (b - a) / v)))%R with 0%R by (rewrite <- BA; field; lra). rewrite Rabs_R0. unfold eta. lra.
    - intros E. rewrite Eb. f_equal. lia. }
  unfold nofnat. numSF.
  destruct (bounded_finite _ _ (sub_rounds _ _ Fb Fa)) as [Fd Ed].
  { rewrite Ea, Eb, BA. apply small_bound. rewrite Rabs_pos_eq by lra. lra. }
  rewrite Ea, Eb, BA, (rnd_rep (IZR (b - a))) in Ed by (apply rep_Z; lia). set (delta := SFsub fprec femax (SFofZ b) (SFofZ a)) in *.
  destruct (ofZ_small (Z.of_nat (n - 1))) as [Fv Ev]; [lia|]. set (div := SFofZ (Z.of_nat (n - 1))) in *. fold v in Ev.
  assert (Nv : value div <> 0%R) by (rewrite Ev; lra).
  set (w := (IZR (b - a) / v)%R).
  assert (WV : (w * v = IZR (b - a))%R) by (unfold w; field; lra).
  assert (W0 : (/ 16777216 <= w <= 16777216)%R).
  { unfold w. split.
    - apply Rle_trans with (1 * / v)%R; [rewrite Rmult_1_l; apply Rinv_le; lra|]. apply Rmult_le_compat_r; lra.
    - apply Rmult_le_reg_r with v; [lra|]. unfold Rdiv. rewrite Rmult_assoc, Rinv_l by lra. nra. }
  destruct (bounded_finite _ _ (div_rounds _ _ Fd Fv Nv)) as [Fs Es].
  { rewrite Ed, Ev. fold w. apply small_bound. rewrite Rabs_pos_eq by lra. lra. }
  rewrite Ed, Ev in Es. fold w in Es. set (step := SFdiv fprec femax delta div) in *.
  assert (SM : (bpow radix2 (-1022) <= / 16777216)%R) by (change (/ 16777216)%R with (bpow radix2 (-24)); apply bpow_le; lia).
  assert (RW := rel_normal w ltac:(rewrite Rabs_pos_eq by lra; lra)). rewrite (Rabs_pos_eq w) in RW by lra. apply Rabs_le_inv in RW.
  set (st := rnd w) in *. assert (EP : (0 < eps < / 1000000000000000)%R) by (unfold eps; lra).
  assert (ST0 : (0 < st)%R) by nra.
  rewrite (step_not_zero step Fs) by (rewrite Es; exact ST0).
  destruct (ofZ_small (Z.of_nat i)) as [Fi Ei]; [lia|]. set (x := IZR (Z.of_nat i)) in *.
  assert (X0 : (0 <= x <= v)%R) by (unfold x, v; split; apply IZR_le; lia).
  assert (XW : (0 <= x * w <= IZR (b - a))%R) by nra.
  assert (XS : (Rabs (x * st - x * w) <= eps * 16777216)%R).
  { apply Rabs_le. assert (- (eps * w) <= st - w <= eps * w)%R by lra. split; nra. }
  apply Rabs_le_inv in XS.
  destruct (bounded_finite _ _ (mul_rounds _ _ Fi Fs)) as [Fm Em].
  { rewrite Ei, Es. apply small_bound. rewrite Rabs_pos_eq by nra. nra. }
  rewrite Ei, Es in Em.
  assert (YM := rel_multiple (Z.of_nat i) st ltac:(rewrite <- Es; now apply finite_rep)). fold x in YM.
  rewrite (Rabs_pos_eq (x * st)) in YM by nra. apply Rabs_le_inv in YM. set (y := rnd (x * st)) in *.
  assert (Y0 : (0 <= y)%R) by (unfold y; rewrite <- rnd_0; apply rnd_mono; nra).
  assert (XS1 : (x * st <= 16777217)%R) by (unfold eps in *; lra).
  assert (YB : (- (eps * 16777217) <= y - x * st <= eps * 16777217)%R) by (split; nra).
  destruct (bounded_finite _ _ (add_rounds _ _ Fm Fa)) as [Fp Epp].
  { rewrite Em, Ea. apply small_bound. rewrite Rabs_pos_eq by lra. unfold eps in *. lra. }
  rewrite Em, Ea in Epp. split; [exact Fp|]. rewrite Epp.
  assert (PB : (Rabs (rnd (y + IZR a) - (y + IZR a)) <= eps * 33554440)%R).
  { destruct (Req_dec (y + IZR a) 0) as [Z|Z].
    - rewrite Z, rnd_0, Rminus_0_r, Rabs_R0. lra.
    - assert (Q : (Rabs (rnd (y + IZR a) - (y + IZR a)) <= eps * Rabs (y + IZR a))%R).
      { apply rel_normal. rewrite Rabs_pos_eq by lra. eapply Rle_trans; [exact SM|].
        destruct (Z.eq_dec (Z.of_nat i) 0) as [I0|I0].
        - assert (X00 : x = 0%R) by (unfold x; now rewrite I0). assert (y = 0%R) by (unfold y; rewrite X00, Rmult_0_l; apply rnd_0).
          assert (1 <= IZR a)%R; [|lra]. apply IZR_le. destruct (Z.eq_dec a 0) as [->|]; [exfalso; lra|lia].
        - assert (1 <= x)%R by (unfold x; apply IZR_le; lia).
          assert (/ 16777216 <= y)%R; [|lra]. unfold y. change (/ 16777216)%R with (bpow radix2 (-24)). apply rnd_ge_rep; [apply rep_bpow; lia|].
          assert (bpow radix2 (-24) <= st)%R; [|nra]. unfold st. apply rnd_ge_rep; [apply rep_bpow; lia|]. change (bpow radix2 (-24)) with (/ 16777216)%R. lra. }
      eapply Rle_trans; [exact Q|]. apply Rmult_le_compat_l; [lra|]. rewrite Rabs_pos_eq by lra. unfold eps in *. lra. }
  apply Rabs_le_inv in PB. split.
  - apply Rabs_le. unfold eta, eps in *. split; lra.
  - intros E. assert (w = 1%R). { unfold w. rewrite E. fold v. field. lra. }
    assert (st = 1%R) by (unfold st; rewrite H; apply rnd_rep, (rep_Z 1); lia).
    assert (y = x). { unfold y. rewrite H0, Rmult_1_r. apply rnd_rep. unfold x. apply rep_Z. lia. }
    rewrite H1. unfold x. rewrite <- plus_IZR, Z.add_comm. apply rnd_rep, rep_Z. lia.
Qed.
Lemma linspace_strict a b num l : 1 <= a -> a <= b < 2 ^ 24 -> num <= b - a + 1 ->
  @linspace_int spec_float _ a b num = Ok l -> strictly_increasing l.
Proof.
  intros Ha Hb Hn H. unfold linspace_int, guard in H. destruct (Z.leb_spec 0 num); [|discriminate]. cbn [bind] in H. injection H as <-.
  unfold linspace. numSF. rewrite map_map. set (n := Z.to_nat num).
  set (f := fun i => SFfloorZ (linspace_point (SFofZ a) (SFofZ b) n i)).
  intros i j x y Hij Ex Ey. rewrite (nth_error_lin f) in Ex, Ey.
  destruct (Nat.ltb_spec i n) as [Li|]; [|discriminate]. destruct (Nat.ltb_spec j n) as [Lj|]; [|discriminate].
  injection Ex as <-. injection Ey as <-. unfold f.
  assert (N2 : (2 <= n)%nat) by lia. assert (AB : a < b) by (unfold n in *; lia). assert (N24' : Z.of_nat n < 2 ^ 24) by (unfold n in *; lia).
  destruct (lin_error a b n i ltac:(lia) ltac:(lia) N2 N24' Li) as (Fi & Ri & Xi).
  destruct (lin_error a b n j ltac:(lia) ltac:(lia) N2 N24' Lj) as (Fj & Rj & Xj).
    rewrite (floor_value _ Fi), (floor_value _ Fj).
    destruct (Z.eq_dec (b - a) (Z.of_nat (n - 1))) as [E|E].
    + rewrite (Xi E), (Xj E), !Zfloor_IZR. lia.
    + apply Rabs_le_inv in Ri, Rj. set (pi := value (linspace_point (SFofZ a) (SFofZ b) n i)) in *.
      set (pj := value (linspace_point (SFofZ a) (SFofZ b) n j)) in *.
      set (v := IZR (Z.of_nat (n - 1))) in *. assert (V1 : (1 <= v < 16777216)%R) by (unfold v; split; [apply IZR_le|apply IZR_lt]; lia).
      assert (W : (1 + / v <= IZR (b - a) / v)%R).
      { apply Rmult_le_reg_r with v; [lra|]. unfold Rdiv. rewrite Rmult_plus_distr_r, Rmult_assoc, Rinv_l by lra.
        rewrite Rmult_1_l, Rmult_1_r. unfold v. rewrite <- plus_IZR. apply IZR_le. unfold n in *. lia. }
      assert (Vi : (/ 16777216 <= / v)%R) by (apply Rinv_le; lra).
      assert (J : (IZR (Z.of_nat i) + 1 <= IZR (Z.of_nat j))%R) by (rewrite <- plus_IZR; apply IZR_le; lia).
      assert (pi + 1 <= pj)%R by (unfold eta in *; nra).
      assert (Zfloor pi + 1 <= Zfloor pj); [|lia]. apply Zfloor_lub. rewrite plus_IZR. generalize (Zfloor_lb pi). lra.
Qed.

Lemma C49_distinct_proof geomspace disp indices drift_indices ts ss o p a b :
  is_double ts -> (0 < value ts)%R -> 0 < ss -> o_max_dt o = None ->
  (o_min_dt o = None \/ exists mn, o_min_dt o = Some mn /\ is_double mn /\ (0 <= value mn)%R) ->
  o_spacing o = "linear"%string ->
  parser_init geomspace disp indices drift_indices ts ss o = Ok p ->
  let T := Z.of_nat (a_obs (p_dc p)) in T < 2 ^ 24 ->
  hd_error (p_intervals p) = Some a -> last (p_intervals p) 0 = b ->
  strictly_increasing (p_intervals p) <-> Z.of_nat (length (p_intervals p)) <= b - a + 1.
Proof.
  intros D P Sp Hmx Hmn HL HO. cbn zeta. intros HT Ha Hb.
  destruct (init_double geomspace disp indices drift_indices ts ss o p HO HL) as (mi & b' & E1 & L & E2 & E3).
  rewrite Hmx in E2. set (T := Z.of_nat (a_obs (p_dc p))) in *. set (u := SFmul fprec femax (SFofZ ss) ts) in *.
  destruct (unit_cases ts ss D P Sp) as [[Fu Pu]|[s Eu]]; [fold u in Fu, Pu|fold u in Eu; rewrite Eu, trunc_div_inf in E2; discriminate].
  assert (Nu : value u <> 0%R) by lra.
  assert (M0 : 0 <= mi).
  { destruct Hmn as [Hmn|(x & Hmn & Dx & Px)]; rewrite Hmn in E1.
    - apply self_quotient in E1; [lia|assumption|assumption].
    - exact (nonneg_quotient x u mi Dx Px Fu Pu E1). }
  assert (B : T - 1 <= b' <= T) by (apply (length_quotient T u b' Fu Nu); [lia|exact E2]).
  assert (AB : (if mi =? 0 then 1 else mi) <= b').
  { destruct (Z.eqb_spec mi 0); [|lia]. destruct (Z.eq_dec T 1) as [T1|]; [|lia].
    assert (b' = T); [|lia]. apply (length_quotient_exact T u b' Fu Nu); [lia| |exact E2]. rewrite T1, Rmult_1_l. now apply finite_rep. }
  destruct (fun h1 h2 h3 => linspace_double _ _ _ _ h1 h2 h3 E3) as (LN & FA & ND & HD & LA);
    [destruct (Z.eqb_spec mi 0); lia|split; [exact AB|lia]|destruct (Z.ltb_spec (T - mi + 1) (o_n_steps o)); lia|].
  set (l := p_intervals p) in *. set (n := if T - mi + 1 <? o_n_steps o then T - mi + 1 else o_n_steps o) in *.
  assert (N1 : 1 <= n). { rewrite <- LN. destruct l; [discriminate|]. cbn [length]. lia. }
  specialize (HD N1). rewrite HD in Ha. injection Ha as Ha.
  destruct (Z.eq_dec n 1) as [n1|n1].
  - (* one interval *)
    destruct l as [|x [|? ?]]; [cbn in LN; lia| |cbn [length] in LN; lia]. injection HD as ->. cbn [last] in Hb. split.
    + intros _. cbn [length]. lia.
    + intros _ i j y z Hij _ Hj. destruct j as [|[|j]]; [lia|discriminate|discriminate].
  - rewrite LA in Hb by lia. split.
    + (* distinct integers between a and b *)
      intros SI. rewrite LN. assert (K : forall k x, nth_error l k = Some x -> a + Z.of_nat k <= x).
      { induction k as [|k IH]; intros x Hx.
        - destruct l; [discriminate|]. injection Hx as <-. injection HD as ->. lia.
        - destruct (nth_error l k) as [y|] eqn:Ek; [|apply nth_error_None in Ek; assert (nth_error l (S k) <> None) by congruence; apply nth_error_Some in H; lia].
          specialize (IH y eq_refl). specialize (SI k (S k) y x ltac:(lia) Ek Hx). lia. }
      assert (NL : nth_error l (length l - 1) = Some b').
      { rewrite (nth_error_nth' l 0) by lia. f_equal. rewrite <- (LA ltac:(lia)).
        clear -LN N1. destruct (exists_last (l := l)) as (q & z & ->); [intros ->; cbn in LN; lia|].
        rewrite last_last, app_length. cbn [length]. rewrite app_nth2 by lia. replace (length q + 1 - 1 - length q)%nat with O by lia. reflexivity. }
      specialize (K _ _ NL). lia.
    + intros C. eapply linspace_strict; [| | |exact E3]; [destruct (Z.eqb_spec mi 0); lia|split; [exact AB|lia]|]. fold n. lia.
Qed.

(** ** C50 *)
Lemma exists_double r : rep r -> (Rabs r < bpow radix2 1024)%R -> exists y, finite_double y /\ value y = r.
Proof.
  intros H B. set (m := Ztrunc (scaled_mantissa radix2 fmt r)). set (e := cexp radix2 fmt r).
  exists (SpecFloat.binary_normalize fprec femax m e false). rewrite normalize_eq.
  generalize (binary_normalize_correct fprec femax prec_pos prec_emax mode_NE m e false). cbn zeta.
  assert (E0 : F2R (Float radix2 m e) = r) by (symmetry; exact H). rewrite E0.
  change (round radix2 (SpecFloat.fexp fprec femax) (round_mode mode_NE) r) with (rnd r). rewrite (rnd_rep r H).
  rewrite Rlt_bool_true by exact B. intros (E & F & _). split; [now apply finite_B|]. rewrite value_B. exact E.
Qed.
Lemma nearest_error x r : nearest_double x r -> (bpow radix2 (-1022) <= r <= bpow radix2 1000)%R -> (Rabs (value x - r) <= eps * r)%R.
Proof.
  intros [F N] [L U]. assert (0 < bpow radix2 (-1022))%R by apply bpow_gt_0.
  assert (RN := rel_normal r). rewrite (Rabs_pos_eq r) in RN by lra. specialize (RN L).
  destruct (exists_double (rnd r)) as (y & Fy & Ey).
  - apply generic_format_round; typeclasses eauto.
  - apply Rle_lt_trans with (bpow radix2 1000); [|apply bpow_lt; lia]. apply abs_round_le_generic; try typeclasses eauto; [apply rep_bpow; lia|].
    rewrite Rabs_pos_eq by lra. exact U.
  - specialize (N y Fy). rewrite Ey in N. lra.
Qed.
Lemma nearest_rnd x r : finite_double x -> value x = rnd r -> nearest_double x r.
Proof.
  intros F E. split; [exact F|]. intros y Fy. rewrite E.
  destruct (round_N_pt radix2 fmt (fun x => negb (Z.even x)) r) as [_ N]. apply N. now apply finite_rep.
Qed.
Lemma nearest_ratio a b : Z.abs a < 2 ^ 53 -> 0 < b < 2 ^ 53 -> nearest_double (SFdiv fprec femax (SFofZ a) (SFofZ b)) (IZR a / IZR b).
Proof.
  intros Ha Hb. destruct (ofZ_small a Ha) as [Fa Ea]. destruct (ofZ_small b ltac:(lia)) as [Fb Eb].
  assert (B1 : (1 <= IZR b)%R) by (apply IZR_le; lia).
  assert (Nb : value (SFofZ b) <> 0%R) by (rewrite Eb; lra).
  destruct (bounded_finite _ _ (div_rounds _ _ Fa Fb Nb)) as [F E].
  - rewrite Ea, Eb. apply small_bound. unfold Rdiv. rewrite Rabs_mult, Rabs_inv, (Rabs_pos_eq (IZR b)) by lra.
    assert (Rabs (IZR a) <= 9007199254740992)%R by (rewrite <- abs_IZR; apply IZR_le; lia).
    apply Rle_trans with (Rabs (IZR a)); [|lra]. rewrite <- (Rmult_1_r (Rabs (IZR a))) at 2. apply Rmult_le_compat_l; [apply Rabs_pos|].
    rewrite <- Rinv_1. apply Rinv_le; lra.
  - rewrite Ea, Eb in E. now apply nearest_rnd.
Qed.

Lemma C50_proof geomspace disp indices drift_indices d m ts ss mn o p :
  (powerRZ 2 (-1022) <= d)%R -> (IZR (m * ss) * d <= powerRZ 2 1000)%R -> 1 <= m < 2 ^ 48 -> 0 < ss ->
  nearest_double ts d -> nearest_double mn (IZR (m * ss) * d) ->
  o_min_dt o = Some mn -> o_max_dt o = None -> o_spacing o = "linear"%string -> 1 <= o_n_steps o ->
  parser_init geomspace disp indices drift_indices ts ss o = Ok p ->
  Z.of_nat (a_obs (p_dc p)) < 2 ^ 49 -> m * ss < 2 ^ 53 ->
  exists a, hd_error (p_intervals p) = Some a /\ m - 1 <= a <= m /\ 1 <= a.
Proof.
  intros Dl Du Hm S Nt Nm Hmn Hmx HL HS HO HT HMS. rewrite <- !(bpow_powerRZ radix2) in Dl, Du.
  destruct (init_double geomspace disp indices drift_indices ts ss o p HO HL) as (mi & b & E1 & L & E2 & E3).
  rewrite Hmx in E2. rewrite Hmn in E1. set (T := Z.of_nat (a_obs (p_dc p))) in *. set (u := SFmul fprec femax (SFofZ ss) ts) in *.
  assert (D0 : (0 < d)%R) by (assert (0 < bpow radix2 (-1022))%R by apply bpow_gt_0; lra).
  assert (MS : (1 <= IZR m)%R /\ (1 <= IZR ss)%R) by (split; apply IZR_le; lia). destruct MS as [M1 S1].
  rewrite mult_IZR in Du. assert (MS1 : (1 <= IZR m * IZR ss)%R) by nra.
  assert (D1 : (d <= bpow radix2 1000)%R) by nra.
  assert (SD : (d <= IZR ss * d)%R) by nra. assert (MSD : (IZR ss * d <= IZR m * IZR ss * d)%R) by nra.
  assert (Et := nearest_error ts d Nt (conj Dl D1)).
  rewrite mult_IZR in Nm. assert (Em := nearest_error mn _ Nm (conj (Rle_trans _ _ _ Dl (Rle_trans _ _ _ SD MSD)) Du)).
  apply Rabs_le_inv in Et, Em.
  assert (EP : (0 < eps < / 1000000000000000)%R) by (unfold eps; lra).
  assert (Pt : (0 < value ts)%R) by nra.
  destruct (unit_cases ts ss (proj1 (proj1 Nt)) Pt S) as [[Fu Pu]|[s Eu]]; [fold u in Fu, Pu|fold u in Eu; rewrite Eu, trunc_div_inf in E2; discriminate].
  assert (Nu : value u <> 0%R) by lra.
  assert (Vu : (Rabs (value u - IZR ss * value ts) <= eps * (IZR ss * value ts))%R).
  { destruct (ofZ_small ss) as [Fs Es]; [nia|]. unfold u in *.
    destruct (mul_rounds _ _ Fs (proj1 Nt)) as [_ [[_ E]|[[s E] _]]].
    - rewrite E, Es. assert (Q := rel_multiple ss (value ts) (finite_rep ts (proj1 Nt))). rewrite (Rabs_pos_eq (IZR ss * value ts)) in Q by nra. exact Q.
    - exfalso. destruct Fu as [_ Fu]. rewrite E in Fu. exact Fu. }
  apply Rabs_le_inv in Vu.
  assert (Q : m - 1 <= mi <= m).
  { refine (quotient_near mn u m mi (proj1 Nm) Fu Nu ltac:(lia) _ E1).
    set (r := (IZR ss * d)%R) in *. assert (R0 : (0 < r)%R) by (unfold r; nra).
    replace (IZR m * IZR ss * d)%R with (IZR m * r)%R in Em by (unfold r; ring).
    assert (T1 : (- (eps * r) <= IZR ss * value ts - r <= eps * r)%R) by (unfold r; split; nra).
    set (q := (IZR ss * value ts)%R) in *.
    assert (M49 : (IZR m <= 281474976710656)%R) by (apply IZR_le; lia).
    assert (QB : (q <= 2 * r)%R) by (unfold eps in *; lra).
    assert (UB : (- (3 * eps * r) <= value u - r <= 3 * eps * r)%R) by (unfold eps in *; lra).
    assert (UL : (r / 2 <= value u)%R) by (unfold eps in *; lra).
    assert (G : (Rabs (value mn - IZR m * value u) <= / 4 * value u)%R).
    { apply Rabs_le. assert (- (3 * eps * r * IZR m) <= IZR m * (value u - r) <= 3 * eps * r * IZR m)%R.
      { set (k := (3 * eps * r)%R) in *. set (z := (value u - r)%R) in *. assert (IZR m * z <= IZR m * k)%R by (apply Rmult_le_compat_l; lra).
        assert (IZR m * (- k) <= IZR m * z)%R by (apply Rmult_le_compat_l; lra). lra. }
      assert (4 * eps * (r * IZR m) <= / 4 * (r * / 2))%R; [|split; lra].
      apply Rle_trans with (4 * eps * (r * 281474976710656))%R; [apply Rmult_le_compat_l; [lra|apply Rmult_le_compat_l; lra]|]. unfold eps. lra. }
    replace (value mn / value u - IZR m)%R with ((value mn - IZR m * value u) / value u)%R by (field; lra).
    unfold Rdiv. rewrite Rabs_mult, Rabs_inv, (Rabs_pos_eq (value u)) by lra.
    apply Rmult_le_reg_r with (value u); [lra|]. rewrite Rmult_assoc, Rinv_l by lra. lra. }
  assert (B : T - 1 <= b <= T) by (apply (length_quotient T u b Fu Nu); [lia|exact E2]).
  assert (AB : (if mi =? 0 then 1 else mi) <= b).
  { destruct (Z.eqb_spec mi 0); [|lia]. destruct (Z.eq_dec T 1) as [T1|]; [|lia].
    assert (b = T); [|lia]. apply (length_quotient_exact T u b Fu Nu); [lia| |exact E2]. rewrite T1, Rmult_1_l. now apply finite_rep. }
  destruct (fun h1 h2 h3 => linspace_double _ _ _ _ h1 h2 h3 E3) as (LN & FA & ND & HD & LA);
    [destruct (Z.eqb_spec mi 0); lia|split; [exact AB|lia]|destruct (Z.ltb_spec (T - mi + 1) (o_n_steps o)); lia|].
  exists (if mi =? 0 then 1 else mi). split.
  - apply HD. destruct (Z.ltb_spec (T - mi + 1) (o_n_steps o)); lia.
  - destruct (Z.eqb_spec mi 0); lia.
Qed.
Lemma C50_exact_proof geomspace disp indices drift_indices d m ts ss mn o p :
  (0 < d)%R -> 1 <= m < 2 ^ 48 -> 0 < ss < 2 ^ 53 ->
  is_double ts -> value ts = d -> finite_double mn -> value mn = (IZR (m * ss) * d)%R ->
  (exists w, finite_double w /\ value w = (IZR ss * d)%R) ->
  o_min_dt o = Some mn -> o_max_dt o = None -> o_spacing o = "linear"%string -> 1 <= o_n_steps o ->
  parser_init geomspace disp indices drift_indices ts ss o = Ok p ->
  Z.of_nat (a_obs (p_dc p)) < 2 ^ 49 -> hd_error (p_intervals p) = Some m.
Proof.
  intros D0 Hm S Dt Vt Fm Vm (w & Fw & Vw) Hmn Hmx HL HS HO HT.
  destruct (init_double geomspace disp indices drift_indices ts ss o p HO HL) as (mi & b & E1 & L & E2 & E3).
  rewrite Hmx in E2. rewrite Hmn in E1. set (T := Z.of_nat (a_obs (p_dc p))) in *. set (u := SFmul fprec femax (SFofZ ss) ts) in *.
  destruct (unit_cases ts ss Dt ltac:(lra) ltac:(lia)) as [[Fu Pu]|[s Eu]]; [fold u in Fu, Pu|fold u in Eu; rewrite Eu, trunc_div_inf in E2; discriminate].
  assert (Nu : value u <> 0%R) by lra.
  assert (Ft : finite_double ts) by (apply value_pos_finite; [exact Dt|lra]).
  assert (Vu : value u = (IZR ss * d)%R).
  { destruct (ofZ_small ss) as [Fs Es]; [lia|]. unfold u in *.
    destruct (mul_rounds _ _ Fs Ft) as [_ [[_ E]|[[s E] _]]].
    - rewrite E, Es, Vt. apply rnd_rep. rewrite <- Vw. now apply finite_rep.
    - exfalso. destruct Fu as [_ Fu]. rewrite E in Fu. exact Fu. }
  assert (1 <= IZR ss)%R by (apply IZR_le; lia).
  assert (Q : mi = m). { apply (quotient_exact mn u m mi Fm Fu Nu); [lia| |exact E1]. rewrite Vm, Vu, mult_IZR. field. split; lra. }
  assert (B : T - 1 <= b <= T) by (apply (length_quotient T u b Fu Nu); [lia|exact E2]).
  assert (Z0 : (mi =? 0) = false) by (apply Z.eqb_neq; lia). rewrite Z0 in E3.
  destruct (fun h1 h2 h3 => linspace_double _ _ _ _ h1 h2 h3 E3) as (LN & FA & ND & HD & LA);
    [lia|lia|destruct (Z.ltb_spec (T - mi + 1) (o_n_steps o)); lia|].
  rewrite <- Q. apply HD. destruct (Z.ltb_spec (T - mi + 1) (o_n_steps o)); lia.
Qed.

(** ** Witnesses *)
Definition still (T : nat) : Arr spec_float := mkArr T [repeat (mkV (SFofZ 0) (SFofZ 0) (SFofZ 0)) T].
Definition plain (mn : option spec_float) : Options spec_float := mkOptions mn None 100 "linear" "multi-origin" (SFofZ 8) 8.
Definition decimal (a b : Z) : spec_float := SFdiv fprec femax (SFofZ a) (SFofZ b).
Lemma C49_refuted_proof geomspace : exists disp ts o p, nearest_double ts (7 / 10)%R /\ o_max_dt o = None /\ o_min_dt o = None
  /\ o_spacing o = "linear"%string /\ parser_init geomspace disp [0] [] ts 1 o = Ok p
  /\ a_obs (p_dc p) = 3%nat /\ p_intervals p = [1; 1; 2].
Proof.
  exists (still 3), (decimal 7 10), (plain None). destruct (parser_init geomspace (still 3) [0] [] (decimal 7 10) 1 (plain None)) as [p|] eqn:E.
  - exists p. split; [apply (nearest_ratio 7 10); lia|]. repeat split.
    + assert (K : option_map (fun p => a_obs (p_dc p)) (match parser_init geomspace (still 3) [0] [] (decimal 7 10) 1 (plain None) with Ok p => Some p | _ => None end) = Some 3%nat) by (vm_compute; reflexivity).
      rewrite E in K. now injection K.
    + assert (K : option_map (fun p => p_intervals p) (match parser_init geomspace (still 3) [0] [] (decimal 7 10) 1 (plain None) with Ok p => Some p | _ => None end) = Some [1; 1; 2]) by (vm_compute; reflexivity).
      rewrite E in K. now injection K.
  - exfalso. vm_compute in E. discriminate.
Qed.
(** The time step and step_skip of docs/source/ase_COG.ipynb. *)
Lemma C49_refuted2_proof geomspace : exists disp ts o p, nearest_double ts (12 / 10000)%R /\ o_max_dt o = None /\ o_min_dt o = None
  /\ o_spacing o = "linear"%string /\ parser_init geomspace disp [0] [] ts 100 o = Ok p
  /\ a_obs (p_dc p) = 11%nat /\ p_intervals p = [1; 1; 2; 3; 4; 5; 6; 7; 8; 9; 10].
Proof.
  exists (still 11), (decimal 12 10000), (plain None). destruct (parser_init geomspace (still 11) [0] [] (decimal 12 10000) 100 (plain None)) as [p|] eqn:E.
  - exists p. split; [apply (nearest_ratio 12 10000); lia|]. repeat split.
    + assert (K : option_map (fun p => a_obs (p_dc p)) (match parser_init geomspace (still 11) [0] [] (decimal 12 10000) 100 (plain None) with Ok p => Some p | _ => None end) = Some 11%nat) by (vm_compute; reflexivity).
      rewrite E in K. now injection K.
    + assert (K : option_map (fun p => p_intervals p) (match parser_init geomspace (still 11) [0] [] (decimal 12 10000) 100 (plain None) with Ok p => Some p | _ => None end) = Some [1; 1; 2; 3; 4; 5; 6; 7; 8; 9; 10]) by (vm_compute; reflexivity).
      rewrite E in K. now injection K.
  - exfalso. vm_compute in E. discriminate.
Qed.
Lemma C50_refuted_proof geomspace : exists disp ts mn o p, nearest_double ts (1 / 10)%R /\ nearest_double mn (3 / 10)%R /\ o_max_dt o = None /\ o_min_dt o = Some mn
  /\ o_spacing o = "linear"%string /\ parser_init geomspace disp [0] [] ts 1 o = Ok p
  /\ a_obs (p_dc p) = 5%nat /\ p_intervals p = [2; 3; 4; 5].
Proof.
  exists (still 5), (decimal 1 10), (decimal 3 10), (plain (Some (decimal 3 10))).
  destruct (parser_init geomspace (still 5) [0] [] (decimal 1 10) 1 (plain (Some (decimal 3 10)))) as [p|] eqn:E.
  - exists p. split; [apply (nearest_ratio 1 10); lia|]. split; [apply (nearest_ratio 3 10); lia|]. repeat split.
    + assert (K : option_map (fun p => a_obs (p_dc p)) (match parser_init geomspace (still 5) [0] [] (decimal 1 10) 1 (plain (Some (decimal 3 10))) with Ok p => Some p | _ => None end) = Some 5%nat) by (vm_compute; reflexivity).
      rewrite E in K. now injection K.
    + assert (K : option_map (fun p => p_intervals p) (match parser_init geomspace (still 5) [0] [] (decimal 1 10) 1 (plain (Some (decimal 3 10))) with Ok p => Some p | _ => None end) = Some [2; 3; 4; 5]) by (vm_compute; reflexivity).
      rewrite E in K. now injection K.
  - exfalso. vm_compute in E. discriminate.
Qed.
(** A run that meets the hypotheses of the positive theorems, with time step 3/2. *)
Lemma float_example geomspace : exists p, parser_init geomspace (still 6) [0] [] (decimal 3 2) 1 (plain (Some (decimal 6 2))) = Ok p
  /\ a_obs (p_dc p) = 6%nat /\ p_intervals p = [2; 3; 4; 5; 6].
Proof.
  destruct (parser_init geomspace (still 6) [0] [] (decimal 3 2) 1 (plain (Some (decimal 6 2)))) as [p|] eqn:E.
  - exists p. split; [reflexivity|]. split.
    + assert (K : option_map (fun p => a_obs (p_dc p)) (match parser_init geomspace (still 6) [0] [] (decimal 3 2) 1 (plain (Some (decimal 6 2))) with Ok p => Some p | _ => None end) = Some 6%nat) by (vm_compute; reflexivity).
      rewrite E in K. now injection K.
    + assert (K : option_map (fun p => p_intervals p) (match parser_init geomspace (still 6) [0] [] (decimal 3 2) 1 (plain (Some (decimal 6 2))) with Ok p => Some p | _ => None end) = Some [2; 3; 4; 5; 6]) by (vm_compute; reflexivity).
      rewrite E in K. now injection K.
  - exfalso. vm_compute in E. discriminate.
Qed.
