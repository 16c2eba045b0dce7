(** * ProofsUnwrap: C74, unwrapping in double precision *)
From Verif Require Import Base ModelParser Spec SpecStats SpecDouble SpecUnwrap SpecRun Lemmas ProofsDisp ProofsFloat.
From Coq Require Import Reals Lra Lia Psatz.
From Coq.Floats Require Import SpecFloat.
From Flocq Require Import Core.
From Flocq.Prop Require Import Relative.
Open Scope Z_scope.

#[local] Instance prec_pos : Prec_gt_0 fprec := eq_refl.

(** ** Values and rounding errors *)
Definition fv (x : spec_float) (r : R) : Prop := finite_double x /\ value x = r.
Lemma fv_self x : finite_double x -> fv x (value x).
Proof. now split. Qed.

Lemma err_le r m : (bpow radix2 (-1022) <= m)%R -> (Rabs r <= m)%R -> (Rabs (rnd r - r) <= eps * m)%R.
Proof.
  intros Hm Hr. assert (0 <= eps)%R by (unfold eps; lra).
  destruct (Rle_or_lt (bpow radix2 (-1022)) (Rabs r)) as [L|L].
  - eapply Rle_trans; [now apply rel_normal|]. now apply Rmult_le_compat_l.
  - assert (E : (Rabs (rnd r - r) <= / 2 * ulp radix2 fmt r)%R) by (apply error_le_half_ulp; typeclasses eauto).
    rewrite ulp_FLT_small in E; [|typeclasses eauto|eapply Rlt_trans; [exact L|apply bpow_lt; lia]].
    eapply Rle_trans; [exact E|]. apply Rle_trans with (eps * bpow radix2 (-1022))%R.
    + rewrite <- eps_bpow. rewrite Rmult_assoc, <- bpow_plus. apply Rmult_le_compat_l; [lra|]. apply bpow_le. lia.
    + now apply Rmult_le_compat_l.
Qed.
Lemma fv_mul x y a b : fv x a -> fv y b -> (Rabs (a * b) <= bpow radix2 1000)%R -> fv (SFmul fprec femax x y) (rnd (a * b)).
Proof. intros [F <-] [G <-] H. exact (bounded_finite _ _ (mul_rounds x y F G) H). Qed.
Lemma fv_add x y a b : fv x a -> fv y b -> (Rabs (a + b) <= bpow radix2 1000)%R -> fv (SFadd fprec femax x y) (rnd (a + b)).
Proof. intros [F <-] [G <-] H. exact (bounded_finite _ _ (add_rounds x y F G) H). Qed.
Lemma fv_sub x y a b : fv x a -> fv y b -> (Rabs (a - b) <= bpow radix2 1000)%R -> fv (SFsub fprec femax x y) (rnd (a - b)).
Proof. intros [F <-] [G <-] H. exact (bounded_finite _ _ (sub_rounds x y F G) H). Qed.
Lemma fv_div x y a b : fv x a -> fv y b -> b <> 0%R -> (Rabs (a / b) <= bpow radix2 1000)%R ->
  fv (SFdiv fprec femax x y) (rnd (a / b)).
Proof. intros [F <-] [G <-] Z H. exact (bounded_finite _ _ (div_rounds x y F G Z) H). Qed.
Lemma fv_rep x a : fv x a -> rnd a = a.
Proof. intros [F <-]. apply rnd_rep, finite_rep, F. Qed.
Lemma abs0 : (Rabs 0 <= bpow radix2 1000)%R.
Proof. rewrite Rabs_R0. apply bpow_ge_0. Qed.
Lemma rnd0 : rnd 0 = 0%R.
Proof. apply round_0. typeclasses eauto. Qed.
Lemma fv_mul0r x y a : fv x a -> fv y 0 -> fv (SFmul fprec femax x y) 0.
Proof. intros H K. generalize (fv_mul x y a 0 H K). rewrite Rmult_0_r, rnd0. intros E. apply E, abs0. Qed.
Lemma fv_mul0l x y a : fv x 0 -> fv y a -> fv (SFmul fprec femax x y) 0.
Proof. intros H K. generalize (fv_mul x y 0 a H K). rewrite Rmult_0_l, rnd0. intros E. apply E, abs0. Qed.
Lemma fv_add0r x y a : fv x a -> fv y 0 -> (Rabs a <= bpow radix2 1000)%R -> fv (SFadd fprec femax x y) a.
Proof. intros H K L. generalize (fv_add x y a 0 H K). rewrite Rplus_0_r, (fv_rep x a H). intros E. exact (E L). Qed.
Lemma fv_add0l x y a : fv x 0 -> fv y a -> (Rabs a <= bpow radix2 1000)%R -> fv (SFadd fprec femax x y) a.
Proof. intros H K L. generalize (fv_add x y 0 a H K). rewrite Rplus_0_l, (fv_rep y a K). intros E. exact (E L). Qed.
Lemma fv_sub0r x y a : fv x a -> fv y 0 -> (Rabs a <= bpow radix2 1000)%R -> fv (SFsub fprec femax x y) a.
Proof. intros H K L. generalize (fv_sub x y a 0 H K). rewrite Rminus_0_r, (fv_rep x a H). intros E. exact (E L). Qed.
Lemma fv_00 x y : fv x 0 -> fv y 0 -> fv (SFsub fprec femax x y) 0.
Proof. intros H K. apply fv_sub0r; auto using abs0. Qed.
Lemma fv_div0 x y b : fv x 0 -> fv y b -> b <> 0%R -> fv (SFdiv fprec femax x y) 0.
Proof.
  intros H K Z. generalize (fv_div x y 0 b H K Z). unfold Rdiv. rewrite Rmult_0_l, rnd0. intros E. apply E, abs0.
Qed.
Lemma rnd_bound r m : rep m -> (Rabs r <= m)%R -> (Rabs (rnd r) <= m)%R.
Proof. intros. apply abs_round_le_generic; try typeclasses eauto; assumption. Qed.
Lemma rnd_bpow r e : -1074 < e -> (Rabs r <= bpow radix2 e)%R -> (Rabs (rnd r) <= bpow radix2 e)%R.
Proof. intros He. apply rnd_bound, rep_bpow. lia. Qed.

(** ** Diagonal matrices *)
Definition diagonal (m : M3 spec_float) (l : V3 R) : Prop :=
  fv (vx (mr0 m)) (vx l) /\ fv (vy (mr0 m)) 0 /\ fv (vz (mr0 m)) 0 /\
  fv (vx (mr1 m)) 0 /\ fv (vy (mr1 m)) (vy l) /\ fv (vz (mr1 m)) 0 /\
  fv (vx (mr2 m)) 0 /\ fv (vy (mr2 m)) 0 /\ fv (vz (mr2 m)) (vz l).
Definition fv3 (v : V3 spec_float) (r : V3 R) : Prop := forall i, fv (part v i) (part r i).
Definition rnd3 (f : axis -> R) : V3 R := mkV (rnd (f AX)) (rnd (f AY)) (rnd (f AZ)).
Lemma fv3_mk v f : (forall i, fv (part v i) (rnd (f i))) -> fv3 v (rnd3 f).
Proof. intros H i. specialize (H i). destruct i; exact H. Qed.

Lemma vecmat_diagonal v m a l : fv3 v a -> diagonal m l ->
  (forall i, Rabs (part a i * part l i) <= bpow radix2 1000)%R ->
  fv3 (vecmat v m) (rnd3 (fun i => part a i * part l i)%R).
Proof.
  intros V (D1 & D2 & D3 & D4 & D5 & D6 & D7 & D8 & D9) B.
  pose proof (V AX) as VX. pose proof (V AY) as VY. pose proof (V AZ) as VZ. cbn [part] in VX, VY, VZ.
  assert (R0 : forall i, (Rabs (rnd (part a i * part l i)) <= bpow radix2 1000)%R) by (intros i; apply rnd_bpow; [lia|apply B]).
  pose proof (B AX) as BX. pose proof (B AY) as BY. pose proof (B AZ) as BZ.
  pose proof (R0 AX) as RX. pose proof (R0 AY) as RY. pose proof (R0 AZ) as RZ.
  cbn [part] in BX, BY, BZ, RX, RY, RZ.
  apply fv3_mk. intros []; cbn [part vecmat vx vy vz nadd nmul NumSF].
  - apply fv_add0r; [|eapply fv_mul0r; eassumption|exact RX].
    apply fv_add0r; [|eapply fv_mul0r; eassumption|exact RX]. now apply fv_mul.
  - apply fv_add0r; [|eapply fv_mul0r; eassumption|exact RY].
    apply fv_add0l; [eapply fv_mul0r; eassumption| |exact RY]. now apply fv_mul.
  - apply fv_add0l; [|now apply fv_mul|exact RZ].
    apply fv_add0r; [eapply fv_mul0r; eassumption|eapply fv_mul0r; eassumption|apply abs0].
Qed.

(** ** One step along one axis *)
Definition len (l : R) : Prop := (bpow radix2 (-300) <= l <= bpow radix2 300)%R.
Lemma len_pos l : len l -> (0 < l)%R.
Proof. intros [H _]. eapply Rlt_le_trans; [|exact H]. apply bpow_gt_0. Qed.
Lemma len_big l k : len l -> (1 <= k)%R -> (bpow radix2 (-1022) <= k * l)%R.
Proof.
  intros H Hk. pose proof (len_pos l H). apply Rle_trans with l; [|nra]. destruct H as [H _].
  eapply Rle_trans; [|exact H]. apply bpow_le. lia.
Qed.
Lemma len_small l k : len l -> (0 <= k <= 1073741824)%R -> (k * l <= bpow radix2 1000)%R.
Proof.
  intros H Hk. pose proof (len_pos l H). destruct H as [_ H].
  apply Rle_trans with (bpow radix2 30 * bpow radix2 300)%R; [|rewrite <- bpow_plus; apply bpow_le; lia].
  change (bpow radix2 30) with 1073741824%R. apply Rmult_le_compat; lra.
Qed.
Lemma one_big k : (1 <= k)%R -> (bpow radix2 (-1022) <= k)%R.
Proof. intros H. apply Rle_trans with 1%R; [|exact H]. change 1%R with (bpow radix2 0). apply bpow_le. lia. Qed.
Lemma abs_le r m : (Rabs r <= m)%R <-> (- m <= r <= m)%R.
Proof. split; intros H; [now apply Rabs_le_inv|now apply Rabs_le]. Qed.
Lemma eps_small : (0 < eps /\ eps <= / 1000000000)%R.
Proof. unfold eps. lra. Qed.

Lemma step_value c1 c2 l li k : len l -> (Rabs c1 <= 2)%R -> (Rabs c2 <= 2)%R -> (Rabs (li * l - 1) <= 8 * eps)%R ->
  (Rabs (c2 - c1 - IZR k) <= / 2 - 64 * eps)%R ->
  let w1 := rnd (c1 * l) in let w2 := rnd (c2 * l) in let d := rnd (w2 - w1) in
  let f := rnd (d * li) in let g := rnd (f + / 2) in let q := rnd (IZR k * l) in
  (Rabs (c1 * l) <= 2 * l)%R /\ (Rabs (c2 * l) <= 2 * l)%R /\ (Rabs (w2 - w1) <= 5 * l)%R /\ (Rabs (d * li) <= 5)%R
  /\ (Rabs (f + / 2) <= 6)%R /\ Zfloor g = k /\ (Rabs (IZR k * l) <= 5 * l)%R /\ Z.abs k < 2 ^ 53 /\ (Rabs (d - q) <= l)%R
  /\ (Rabs (rnd (d - q) - (c2 - c1 - IZR k) * l) <= 15 * (eps * l))%R.
Proof.
  intros Hl Hc1 Hc2 Hli Hk w1 w2 d f g q. pose proof (len_pos l Hl) as Pl. destruct eps_small as [E0 E1].
  assert (EL : (0 < eps * l <= / 1000000000 * l)%R) by (split; [now apply Rmult_lt_0_compat|apply Rmult_le_compat_r; lra]).
  assert (A1 : (Rabs (c1 * l) <= 2 * l)%R) by (rewrite Rabs_mult, (Rabs_pos_eq l) by lra; apply Rmult_le_compat_r; lra).
  assert (A2 : (Rabs (c2 * l) <= 2 * l)%R) by (rewrite Rabs_mult, (Rabs_pos_eq l) by lra; apply Rmult_le_compat_r; lra).
  assert (W1 : (Rabs (w1 - c1 * l) <= eps * (2 * l))%R) by (apply err_le; [apply len_big; auto; lra|exact A1]).
  assert (W2 : (Rabs (w2 - c2 * l) <= eps * (2 * l))%R) by (apply err_le; [apply len_big; auto; lra|exact A2]).
  apply abs_le in W1, W2, A1, A2, Hc1, Hc2, Hk.
  assert (A3 : (Rabs (w2 - w1) <= 5 * l)%R) by (apply abs_le; lra).
  assert (D1 : (Rabs (d - (w2 - w1)) <= eps * (5 * l))%R) by (apply err_le; [apply len_big; auto; lra|exact A3]).
  apply abs_le in D1, A3.
  assert (D2 : (Rabs (d - (c2 - c1) * l) <= 9 * (eps * l))%R) by (apply abs_le; lra).
  (* the fractional difference *)
  assert (D3 : exists t, d = ((c2 - c1 + t) * l)%R /\ (- (9 * eps) <= t <= 9 * eps)%R).
  { exists ((d - (c2 - c1) * l) / l)%R. split; [field; lra|]. apply abs_le in D2.
    split; [apply Rmult_le_reg_r with l|apply Rmult_le_reg_r with l]; try lra;
      unfold Rdiv; rewrite ?(Rmult_assoc (_ - _)), Rinv_l, Rmult_1_r by lra; lra. }
  destruct D3 as (t & Dt & Ht). apply abs_le in Hli. set (h := (li * l - 1)%R) in *.
  assert (F0 : (d * li = (c2 - c1 + t) * (1 + h))%R) by (rewrite Dt; unfold h; ring).
  assert (F1 : (Rabs (d * li - (c2 - c1)) <= 42 * eps)%R).
  { rewrite F0. replace ((c2 - c1 + t) * (1 + h) - (c2 - c1))%R with (t + (c2 - c1 + t) * h)%R by ring.
    assert (Rabs ((c2 - c1 + t) * h) <= (4 + 9 * eps) * (8 * eps))%R.
    { rewrite Rabs_mult. apply Rmult_le_compat; try apply Rabs_pos; apply abs_le; lra. }
    apply abs_le in H. assert (9 * eps * (8 * eps) <= eps)%R by nra. apply abs_le. lra. }
  apply abs_le in F1.
  assert (A4 : (Rabs (d * li) <= 5)%R) by (apply abs_le; lra).
  assert (F2 : (Rabs (f - d * li) <= eps * 5)%R) by (apply err_le; [apply one_big; lra|exact A4]).
  apply abs_le in F2.
  assert (A5 : (Rabs (f + / 2) <= 5)%R) by (apply abs_le; lra).
  assert (G1 : (Rabs (g - (f + / 2)) <= eps * 5)%R) by (apply err_le; [apply one_big; lra|exact A5]).
  apply abs_le in G1. apply abs_le in A5.
  assert (Fl : Zfloor g = k) by (apply Zfloor_imp; rewrite plus_IZR; lra).
  assert (Kb : (-5 <= IZR k <= 5)%R) by lra.
  assert (A6 : (Rabs (IZR k * l) <= 5 * l)%R).
  { rewrite Rabs_mult, (Rabs_pos_eq l) by lra. apply Rmult_le_compat_r; [lra|]. now apply abs_le. }
  assert (Q1 : (Rabs (q - IZR k * l) <= eps * (5 * l))%R) by (apply err_le; [apply len_big; auto; lra|exact A6]).
  apply abs_le in Q1. apply abs_le in D2.
  assert (S0 : (- (/ 2 * l) <= (c2 - c1 - IZR k) * l <= / 2 * l)%R).
  { split; [replace (- (/ 2 * l))%R with ((- / 2) * l)%R by ring|]; apply Rmult_le_compat_r; lra. }
  assert (A7 : (Rabs (d - q) <= 1 * l)%R) by (apply abs_le; lra).
  assert (S1 : (Rabs (rnd (d - q) - (d - q)) <= eps * (1 * l))%R) by (apply err_le; [apply len_big; auto; lra|exact A7]).
  apply abs_le in S1. rewrite Rmult_1_l in A7.
  repeat split; try assumption; try (apply abs_le; lra).
  assert (- 5 <= k <= 5) by (split; apply le_IZR; lra). lia.
Qed.

(** ** One step of one atom *)
Definition one_move (m li : M3 spec_float) (c1 c2 : V3 spec_float) : V3 spec_float :=
  let d := vsub (vecmat c2 m) (vecmat c1 m) in vsub d (image_correction d m li).
Lemma part_map {A} (f : A -> A) v i : part (vmap f v) i = f (part v i).
Proof. now destruct i. Qed.
Lemma part_sub (u v : V3 spec_float) i : part (vsub u v) i = SFsub fprec femax (part u i) (part v i).
Proof. now destruct i. Qed.
Lemma part_add (u v : V3 spec_float) i : part (vadd u v) i = SFadd fprec femax (part u i) (part v i).
Proof. now destruct i. Qed.
Lemma half_fv : fv (nhalf : spec_float) (/ 2).
Proof. split; [split; [vm_compute; reflexivity|exact I]|]. vm_compute. lra. Qed.

Section OneMove.
  Variables (m li : M3 spec_float) (l y : V3 R).
  Hypothesis (Dm : diagonal m l) (Di : diagonal li y).
  Hypothesis (Hl : forall i, len (part l i)) (Hy : forall i, (Rabs (part y i * part l i - 1) <= 8 * eps)%R).

  Lemma one_move_value c1 c2 k : (forall i, finite_double (part c1 i) /\ (Rabs (value (part c1 i)) <= 2)%R) ->
    (forall i, finite_double (part c2 i) /\ (Rabs (value (part c2 i)) <= 2)%R) ->
    (forall i, (Rabs (value (part c2 i) - value (part c1 i) - IZR (part k i)) <= / 2 - 64 * eps)%R) ->
    forall i, exists s, fv (part (one_move m li c1 c2) i) s
      /\ (Rabs (s - (value (part c2 i) - value (part c1 i) - IZR (part k i)) * part l i) <= 15 * (eps * part l i))%R.
  Proof.
    intros H1 H2 Hk.
    set (a1 := mkV (value (vx c1)) (value (vy c1)) (value (vz c1))). set (a2 := mkV (value (vx c2)) (value (vy c2)) (value (vz c2))).
    assert (F1 : fv3 c1 a1) by (intros i; destruct (H1 i); destruct i; now apply fv_self).
    assert (F2 : fv3 c2 a2) by (intros i; destruct (H2 i); destruct i; now apply fv_self).
    assert (P1 : forall i, part a1 i = value (part c1 i)) by now intros [].
    assert (P2 : forall i, part a2 i = value (part c2 i)) by now intros [].
    assert (ST : forall i, _) by (intros i; exact (step_value _ _ _ _ _ (Hl i) (proj2 (H1 i)) (proj2 (H2 i)) (Hy i) (Hk i))).
    cbv zeta in ST.
    assert (W1 : fv3 (vecmat c1 m) (rnd3 (fun i => part a1 i * part l i)%R)).
    { apply vecmat_diagonal; auto. intros i. rewrite P1. destruct (ST i) as (B & _). eapply Rle_trans; [exact B|]. apply len_small; auto; lra. }
    assert (W2 : fv3 (vecmat c2 m) (rnd3 (fun i => part a2 i * part l i)%R)).
    { apply vecmat_diagonal; auto. intros i. rewrite P2. destruct (ST i) as (_ & B & _). eapply Rle_trans; [exact B|]. apply len_small; auto; lra. }
    assert (PR : forall f i, part (rnd3 f) i = rnd (f i)) by now intros f [].
    set (d := vsub (vecmat c2 m) (vecmat c1 m)).
    set (D := fun i => (rnd (value (part c2 i) * part l i) - rnd (value (part c1 i) * part l i))%R).
    assert (FD : fv3 d (rnd3 D)).
    { apply fv3_mk. intros i. unfold d. rewrite part_sub. specialize (W1 i). specialize (W2 i). rewrite PR in W1, W2.
      rewrite P1 in W1. rewrite P2 in W2. apply fv_sub; auto. destruct (ST i) as (_ & _ & B & _).
      eapply Rle_trans; [exact B|]. apply len_small; auto; lra. }
    set (F := fun i => (rnd (D i) * part y i)%R).
    assert (FF : fv3 (vecmat d li) (rnd3 F)).
    { generalize (vecmat_diagonal d li (rnd3 D) y FD Di). unfold F. intros G.
      assert (B : forall i, (Rabs (part (rnd3 D) i * part y i) <= bpow radix2 1000)%R).
      { intros i. rewrite PR. destruct (ST i) as (_ & _ & _ & B & _). apply small_bound. eapply Rle_trans; [exact B|lra]. }
      specialize (G B). intros i. specialize (G i). rewrite PR in G |- *. rewrite PR in G. exact G. }
    assert (FK : fv3 (vmap (fun x => nofZ (nfloor (nadd x nhalf))) (vecmat d li)) (mkV (IZR (vx k)) (IZR (vy k)) (IZR (vz k)))).
    { intros i. rewrite part_map. specialize (FF i). rewrite PR in FF.
      destruct (ST i) as (_ & _ & _ & _ & B & Fl & _ & Kb & _).
      assert (G : fv (SFadd fprec femax (part (vecmat d li) i) (nhalf : spec_float)) (rnd (rnd (F i) + / 2))).
      { apply fv_add; [exact FF|exact half_fv|]. apply small_bound. eapply Rle_trans; [exact B|lra]. }
      destruct G as [G1 G2]. cbn [nadd nofZ nfloor NumSF]. rewrite floor_value by exact G1. rewrite G2. unfold F, D. rewrite Fl.
      replace (part {| vx := IZR (vx k); vy := IZR (vy k); vz := IZR (vz k) |} i) with (IZR (part k i)) by now destruct i.
      apply ofZ_small. exact Kb. }
    set (K := mkV (IZR (vx k)) (IZR (vy k)) (IZR (vz k))) in FK.
    assert (PK : forall i, part K i = IZR (part k i)) by now intros [].
    assert (FQ : fv3 (image_correction d m li) (rnd3 (fun i => IZR (part k i) * part l i)%R)).
    { unfold image_correction. generalize (vecmat_diagonal _ m K l FK Dm). intros G.
      assert (B : forall i, (Rabs (part K i * part l i) <= bpow radix2 1000)%R).
      { intros i. rewrite PK. destruct (ST i) as (_ & _ & _ & _ & _ & _ & B & _). eapply Rle_trans; [exact B|]. apply len_small; auto; lra. }
      specialize (G B). intros i. specialize (G i). rewrite PR in G |- *. rewrite PK in G. exact G. }
    intros i. specialize (FD i). specialize (FQ i). rewrite PR in FD, FQ.
    destruct (ST i) as (_ & _ & _ & _ & _ & _ & _ & _ & B & S0).
    eexists. split; [|exact S0]. unfold one_move. fold d. rewrite part_sub. apply fv_sub; [exact FD|exact FQ|].
    eapply Rle_trans; [exact B|]. rewrite <- (Rmult_1_l (part l i)). apply len_small; auto; lra.
  Qed.
End OneMove.

(** ** The running sum *)
Fixpoint running (g : nat -> V3 spec_float) (t : nat) : V3 spec_float :=
  match t with O => g 0%nat | S t' => vadd (running g t') (g t) end.
Lemma cumsum_from_running g n : forall k, cumsum_from (running g k) (map g (seq (S k) n)) = map (running g) (seq (S k) n).
Proof.
  induction n; intros k; [reflexivity|]. cbn [seq map cumsum_from]. change (vadd (running g k) (g (S k))) with (running g (S k)).
  f_equal. apply IHn.
Qed.
Lemma cumsum_running g n : cumsum (tab n g) = tab n (running g).
Proof. unfold tab. destruct n; [reflexivity|]. cbn [seq map cumsum]. f_equal. exact (cumsum_from_running g n 0%nat). Qed.

Lemma row_running (c : nat -> V3 spec_float) (l li : nat -> M3 spec_float) n :
  get_disp_row (tab (S n) c) (tab (S n) l) (tab (S n) li)
  = tab n (running (fun i => vsub (vsub (vecmat (c (S i)) (l (S i))) (vecmat (c i) (l i)))
        (image_correction (vsub (vecmat (c (S i)) (l (S i))) (vecmat (c i) (l i))) (l (S i)) (li (S i))))).
Proof.
  rewrite <- cumsum_running. unfold get_disp_row, tab, np_diff. rewrite zip_with_map. rewrite !tl_map_seq.
  assert (E : zip_with (fun a b => vsub b a) (map (fun i => vecmat (c i) (l i)) (seq 0 (S n)))
                (map (fun i => vecmat (c (S i)) (l (S i))) (seq 0 n))
              = map (fun i => vsub (vecmat (c (S i)) (l (S i))) (vecmat (c i) (l i))) (seq 0 n)).
  { unfold zip_with. rewrite combine_map_trunc by lia. rewrite map_map. reflexivity. }
  rewrite E. rewrite !combine_map, map_map, zip_with_map. cbn [fst snd]. reflexivity.
Qed.

(** Errors of the running sum along one axis. *)
Lemma running_value g (X : nat -> R) l i n : len l -> (INR n <= 1048576)%R ->
  (forall t, (t < n)%nat -> (Rabs (X (S t) - X t) <= / 2)%R) ->
  (forall t, (t < n)%nat -> exists s, fv (part (g t) i) s /\ (Rabs (s - (X (S t) - X t) * l) <= 15 * (eps * l))%R) ->
  forall t, (t < n)%nat -> (Rabs (X (S t) - X 0%nat) <= INR (S t))%R /\ exists s, fv (part (running g t) i) s
    /\ (Rabs (s - (X (S t) - X 0%nat) * l) <= 16 * (eps * l) * (INR (S t) * INR (S t)))%R.
Proof.
  intros Hl Hn HX Hg. pose proof (len_pos l Hl) as Pl. destruct eps_small as [E0 E1].
  assert (EL : (0 < eps * l <= / 1000000000 * l)%R) by (split; [now apply Rmult_lt_0_compat|apply Rmult_le_compat_r; lra]).
  induction t; intros Ht.
  - cbn [INR running]. split; [eapply Rle_trans; [apply HX; exact Ht|lra]|]. destruct (Hg 0%nat Ht) as (s & F & B). exists s. split; [exact F|].
    eapply Rle_trans; [exact B|]. nra.
  - destruct IHt as (XB & s & F & B); [lia|]. destruct (Hg (S t) Ht) as (u & G & C). cbn [running]. rewrite part_add.
    specialize (HX (S t) Ht).
    assert (TB : (1 <= INR (S t))%R) by (rewrite S_INR; pose proof (pos_INR t); lra).
    assert (TM : (INR (S (S t)) <= 1048576)%R) by (eapply Rle_trans; [apply le_INR; exact Ht|exact Hn]).
    rewrite (S_INR (S t)) in *. set (T := INR (S t)) in *.
    apply abs_le in XB, HX.
    split; [apply abs_le; lra|].
    assert (ET : (eps * (T * T) <= / 4096)%R).
    { apply Rle_trans with (eps * (1048576 * 1048576))%R; [apply Rmult_le_compat_l; [lra|]; apply Rmult_le_compat; lra|]. unfold eps. lra. }
    assert (EB : (16 * (eps * l) * (T * T) <= / 256 * l)%R).
    { replace (16 * (eps * l) * (T * T))%R with (16 * (eps * (T * T)) * l)%R by ring. apply Rmult_le_compat_r; lra. }
    apply abs_le in B, C.
    assert (M1 : (- (T * l) <= (X (S t) - X 0%nat) * l <= T * l)%R) by (split; [replace (- (T * l))%R with ((- T) * l)%R by ring|]; apply Rmult_le_compat_r; lra).
    assert (M2 : (- (/ 2 * l) <= (X (S (S t)) - X (S t)) * l <= / 2 * l)%R) by (split; [replace (- (/ 2 * l))%R with ((- / 2) * l)%R by ring|]; apply Rmult_le_compat_r; lra).
    assert (SB : (Rabs (s + u) <= (T + 1) * l)%R) by (apply abs_le; lra).
    exists (rnd (s + u)). split.
    + apply fv_add; auto. eapply Rle_trans; [exact SB|]. apply len_small; auto; lra.
    + assert (RE : (Rabs (rnd (s + u) - (s + u)) <= eps * ((T + 1) * l))%R) by (apply err_le; [apply len_big; auto; lra|exact SB]).
      apply abs_le in RE.
      replace (eps * ((T + 1) * l))%R with (eps * l * T + eps * l)%R in RE by ring.
      replace (16 * (eps * l) * ((T + 1) * (T + 1)))%R with (16 * (eps * l) * (T * T) + 32 * (eps * l * T) + 16 * (eps * l))%R by ring.
      assert (0 <= eps * l * T)%R by (apply Rmult_le_pos; lra).
      assert (eps * l <= eps * l * T)%R by (rewrite <- (Rmult_1_r (eps * l)) at 1; apply Rmult_le_compat_l; lra).
      apply abs_le. lra.
Qed.

(** ** The inverse of an orthorhombic cell *)
Lemma rel r : (bpow radix2 (-1022) <= Rabs r)%R -> exists e, (- eps <= e <= eps)%R /\ rnd r = (r * (1 + e))%R.
Proof.
  intros H. pose proof (rel_normal r H) as E.
  assert (r <> 0)%R by (intros ->; rewrite Rabs_R0 in H; pose proof (bpow_gt_0 radix2 (-1022)); lra).
  exists ((rnd r - r) / r)%R. split; [|field; assumption].
  apply abs_le. unfold Rdiv. rewrite Rabs_mult, Rabs_inv.
  apply Rmult_le_reg_r with (Rabs r); [now apply Rabs_pos_lt|]. rewrite Rmult_assoc, Rinv_l, Rmult_1_r; [exact E|].
  now apply Rabs_no_R0.
Qed.
Lemma ratio_close a b c d : (- eps <= a <= eps)%R -> (- eps <= b <= eps)%R -> (- eps <= c <= eps)%R -> (- eps <= d <= eps)%R ->
  (Rabs ((1 + a) * (1 + b) / ((1 + c) * (1 + d)) - 1) <= 8 * eps)%R /\ (/ 2 <= (1 + c) * (1 + d) <= 2)%R /\ (/ 2 <= (1 + a) * (1 + b) <= 2)%R.
Proof.
  intros Ha Hb Hc Hd. destruct eps_small as [E0 E1].
  assert (AB : (- (eps * / 1000) <= a * b <= eps * / 1000)%R).
  { apply abs_le. rewrite Rabs_mult. apply Rle_trans with (eps * eps)%R; [apply Rmult_le_compat; try apply Rabs_pos; now apply abs_le|apply Rmult_le_compat_l; lra]. }
  assert (CD : (- (eps * / 1000) <= c * d <= eps * / 1000)%R).
  { apply abs_le. rewrite Rabs_mult. apply Rle_trans with (eps * eps)%R; [apply Rmult_le_compat; try apply Rabs_pos; now apply abs_le|apply Rmult_le_compat_l; lra]. }
  set (x := ((1 + c) * (1 + d))%R). set (y := ((1 + a) * (1 + b))%R).
  assert (Bx : (1 - 21/10 * eps <= x <= 1 + 21/10 * eps)%R) by (unfold x; lra).
  assert (By : (1 - 21/10 * eps <= y <= 1 + 21/10 * eps)%R) by (unfold y; lra).
  repeat split; try lra.
  replace (y / x - 1)%R with ((y - x) / x)%R by (field; lra). unfold Rdiv. rewrite Rabs_mult, Rabs_inv, (Rabs_pos_eq x) by lra.
  apply Rmult_le_reg_r with x; [lra|]. rewrite Rmult_assoc, Rinv_l, Rmult_1_r by lra.
  apply Rle_trans with (42/10 * eps)%R; [apply abs_le; lra|]. nra.
Qed.
Lemma neqb_nonzero x : finite_double x -> value x <> 0%R -> neqb x (n0 : spec_float) = false.
Proof. intros [D F] H. destruct x as [s| | |s m e]; try contradiction. now destruct s. Qed.

Lemma len_prod a b : len a -> len b -> (bpow radix2 (-600) <= a * b <= bpow radix2 600)%R.
Proof.
  intros Ha Hb. pose proof (len_pos a Ha). pose proof (len_pos b Hb). destruct Ha, Hb.
  change (-600) with (-300 + -300). change 600 with (300 + 300). rewrite !bpow_plus.
  pose proof (bpow_ge_0 radix2 (-300)). split; apply Rmult_le_compat; lra.
Qed.
Lemma len_prod3 a b c : len a -> len b -> len c -> (bpow radix2 (-900) <= a * b * c <= bpow radix2 900)%R.
Proof.
  intros Ha Hb Hc. pose proof (len_prod a b Ha Hb) as [P Q]. pose proof (len_pos c Hc). destruct Hc.
  change (-900) with (-600 + -300). change 900 with (600 + 300). rewrite !bpow_plus.
  pose proof (bpow_gt_0 radix2 (-300)). pose proof (bpow_gt_0 radix2 (-600)). split; apply Rmult_le_compat; lra.
Qed.

Lemma zero_fv : fv (S754_zero false) 0.
Proof. repeat split. Qed.
Lemma usual_len l : usual_length l -> len (value l) /\ finite_double l.
Proof. intros (F & H1 & H2). rewrite <- (bpow_powerRZ radix2) in H1, H2. exact (conj (conj H1 H2) F). Qed.

Lemma minv_box side : (forall i, usual_length (part side i)) ->
  exists li, minv (box side) = Ok li /\ nearly_inverse li side.
Proof.
  intros H. destruct (usual_len _ (H AX)) as [LX FX], (usual_len _ (H AY)) as [LY FY], (usual_len _ (H AZ)) as [LZ FZ].
  cbn [part] in *. clear H. apply fv_self in FX, FY, FZ.
  set (x := value (vx side)) in *. set (y := value (vy side)) in *. set (z := value (vz side)) in *.
  pose proof (len_pos x LX) as Px. pose proof (len_pos y LY) as Py. pose proof (len_pos z LZ) as Pz.
  destruct eps_small as [E0 E1].
  assert (ML : forall u v a b, fv u a -> fv v b -> len a -> len b ->
     exists e, (- eps <= e <= eps)%R /\ fv (SFmul fprec femax u v) (a * b * (1 + e))).
  { intros u v a b Hu Hv La Lb. destruct (len_prod a b La Lb) as [P Q]. pose proof (bpow_gt_0 radix2 (-600)) as P6.
    destruct (rel (a * b)) as (e & He & Ee).
    - rewrite Rabs_pos_eq by lra. eapply Rle_trans; [|exact P]. apply bpow_le. lia.
    - exists e. split; [exact He|]. rewrite <- Ee. apply fv_mul; auto. rewrite Rabs_pos_eq by lra.
      eapply Rle_trans; [exact Q|]. apply bpow_le. lia. }
  assert (B6 : forall a b e, len a -> len b -> (- eps <= e <= eps)%R -> (Rabs (a * b * (1 + e)) <= bpow radix2 1000)%R).
  { intros a b e La Lb He. destruct (len_prod a b La Lb) as [P Q]. pose proof (bpow_gt_0 radix2 (-600)) as P6.
    rewrite Rabs_pos_eq by (apply Rmult_le_pos; lra).
    apply Rle_trans with (bpow radix2 600 * bpow radix2 1)%R; [|rewrite <- bpow_plus; apply bpow_le; lia].
    change (bpow radix2 1) with 2%R. apply Rmult_le_compat; lra. }
  destruct (ML _ _ y z FY FZ LY LZ) as (eyz & Hyz & Fyz).
  destruct (ML _ _ x z FX FZ LX LZ) as (exz & Hxz & Fxz).
  destruct (ML _ _ x y FX FY LX LY) as (exy & Hxy & Fxy).
  pose proof zero_fv as Z0.
  assert (ZZ : fv (SFmul fprec femax (S754_zero false) (S754_zero false)) 0) by (eapply fv_mul0r; exact Z0).
  assert (Zl : forall u a, fv u a -> fv (SFmul fprec femax (S754_zero false) u) 0) by (intros; eapply fv_mul0l; eauto).
  assert (Zr : forall u a, fv u a -> fv (SFmul fprec femax u (S754_zero false)) 0) by (intros; eapply fv_mul0r; eauto).
  set (p := SFsub fprec femax (SFmul fprec femax (vy side) (vz side)) (SFmul fprec femax (S754_zero false) (S754_zero false))).
  assert (Fp : fv p (y * z * (1 + eyz))) by (apply fv_sub0r; auto).
  (* the determinant *)
  assert (D0 : exists e, (- eps <= e <= eps)%R /\ fv (SFmul fprec femax (vx side) p) (x * y * z * ((1 + eyz) * (1 + e)))).
  { destruct (len_prod3 x y z LX LY LZ) as [P Q]. pose proof (bpow_gt_0 radix2 (-900)) as P6.
    assert (PB : (/ 2 * bpow radix2 (-900) <= x * (y * z * (1 + eyz)) <= 2 * bpow radix2 900)%R).
    { replace (x * (y * z * (1 + eyz)))%R with ((1 + eyz) * (x * y * z))%R by ring. split; apply Rmult_le_compat; lra. }
    change 2%R with (bpow radix2 1) in PB. rewrite <- bpow_opp, <- !bpow_plus in PB.
    pose proof (bpow_gt_0 radix2 (- (1) + -900)) as P7.
    destruct (rel (x * (y * z * (1 + eyz)))) as (e & He & Ee).
    - rewrite Rabs_pos_eq by lra. eapply Rle_trans; [|apply PB]. apply bpow_le. lia.
    - exists e. split; [exact He|]. replace (x * y * z * ((1 + eyz) * (1 + e)))%R with (x * (y * z * (1 + eyz)) * (1 + e))%R by ring.
      rewrite <- Ee. apply fv_mul; auto. rewrite Rabs_pos_eq by lra. eapply Rle_trans; [apply PB|]. apply bpow_le. lia. }
  destruct D0 as (ed & Hd & Fd).
  destruct (ratio_close 0 0 eyz ed) as (_ & Rd & _); try lra; try assumption.
  set (D := (x * y * z * ((1 + eyz) * (1 + ed)))%R) in *.
  assert (PD : (/ 2 * (x * y * z) <= D)%R) by (unfold D; rewrite (Rmult_comm (/ 2)); apply Rmult_le_compat_l; [|lra]; apply Rmult_le_pos; [apply Rmult_le_pos|]; lra).
  assert (PX : (0 < x * y * z)%R) by (apply Rmult_lt_0_compat; [apply Rmult_lt_0_compat|]; lra).
  assert (DB : (Rabs D <= bpow radix2 1000)%R).
  { rewrite Rabs_pos_eq by lra. destruct (len_prod3 x y z LX LY LZ) as [P Q].
    apply Rle_trans with (bpow radix2 900 * bpow radix2 1)%R; [|rewrite <- bpow_plus; apply bpow_le; lia].
    change (bpow radix2 1) with 2%R. unfold D. apply Rmult_le_compat; lra. }
  set (det := mdet (box side)).
  assert (FD : fv det D).
  { unfold det, mdet, box. cbn [mr0 mr1 mr2 vx vy vz nadd nsub nmul NumSF]. fold p.
    assert (T1 : fv (SFsub fprec femax (SFmul fprec femax (S754_zero false) (vz side)) (SFmul fprec femax (S754_zero false) (S754_zero false))) 0)
      by (apply fv_00; eauto).
    assert (T2 : fv (SFsub fprec femax (SFmul fprec femax (S754_zero false) (S754_zero false)) (SFmul fprec femax (vy side) (S754_zero false))) 0)
      by (apply fv_00; eauto).
    apply fv_add0r; auto; [|eapply Zl; exact T2]. apply fv_sub0r; auto. eapply Zl; exact T1. }
  assert (ND : D <> 0%R) by lra.
  (* an entry on the diagonal *)
  assert (Diag : forall u a b l e, fv u (a * b * (1 + e)) -> (- eps <= e <= eps)%R -> len a -> len b -> len l -> (a * b * l = x * y * z)%R ->
     nearly_reciprocal (SFdiv fprec femax u det) l).
  { intros u a b l e Fu He La Lb Ll El. pose proof (len_pos a La). pose proof (len_pos b Lb). pose proof (len_pos l Ll) as Pl.
    assert (Q0 : (a * b * (1 + e) / D = / l * ((1 + e) / ((1 + eyz) * (1 + ed))))%R) by (unfold D; rewrite <- El; field; repeat split; lra).
    destruct (ratio_close e 0 eyz ed) as (RC & _); try lra; try assumption. rewrite Rplus_0_r, Rmult_1_r in RC. apply abs_le in RC.
    assert (Q1 : (/ 2 * / l <= a * b * (1 + e) / D <= 2 * / l)%R).
    { rewrite Q0, (Rmult_comm (/ l)). assert (0 < / l)%R by now apply Rinv_0_lt_compat. split; apply Rmult_le_compat_r; lra. }
    assert (Q2 : (bpow radix2 (-300) <= / l <= bpow radix2 300)%R).
    { destruct Ll as [L1 L2]. change (-300) with (- (300)). change 300 with (- (-300)) at 2. rewrite !bpow_opp. split; apply Rinv_le; auto; apply bpow_gt_0. }
    pose proof (bpow_gt_0 radix2 (-300)) as P6.
    destruct (rel (a * b * (1 + e) / D)) as (e' & He' & Ee').
    - rewrite Rabs_pos_eq by lra. apply Rle_trans with (bpow radix2 (-1) * bpow radix2 (-300))%R; [rewrite <- bpow_plus; apply bpow_le; lia|].
      change (bpow radix2 (-1)) with (/ 2)%R. lra.
    - destruct (fv_div u det _ _ Fu FD ND) as [G1 G2].
      + rewrite Rabs_pos_eq by lra. apply Rle_trans with (bpow radix2 1 * bpow radix2 300)%R; [|rewrite <- bpow_plus; apply bpow_le; lia].
        change (bpow radix2 1) with 2%R. lra.
      + split; [exact G1|]. rewrite G2, Ee', Q0. destruct (ratio_close e e' eyz ed) as (RC' & _); try assumption.
        replace (/ l * ((1 + e) / ((1 + eyz) * (1 + ed))) * (1 + e') * l)%R with ((1 + e) * (1 + e') / ((1 + eyz) * (1 + ed)))%R by (field; repeat split; lra).
        replace (/ 2 ^ 53)%R with eps by (unfold eps; lra). exact RC'. }
  assert (Zero : forall u, fv u 0 -> zero_double (SFdiv fprec femax u det)).
  { intros u Fu. exact (fv_div0 u det D Fu FD ND). }
  exists (match minv (box side) with Ok m => m | Raise _ => box side end).
  unfold minv. fold det. rewrite (neqb_nonzero det (proj1 FD)) by (rewrite (proj2 FD); exact ND). split; [reflexivity|].
  unfold nearly_inverse, box. cbn [mr0 mr1 mr2 vx vy vz nadd nsub nmul ndiv NumSF]. fold x y z.
  split; [fold p; apply (Diag p y z x eyz); auto; ring|].
  split; [apply Zero, fv_00; eauto|]. split; [apply Zero, fv_00; eauto|]. split; [apply Zero, fv_00; eauto|].
  split; [apply (Diag _ x z y exz); auto; [apply fv_sub0r; eauto|ring]|].
  split; [apply Zero, fv_00; eauto|]. split; [apply Zero, fv_00; eauto|]. split; [apply Zero, fv_00; eauto|].
  apply (Diag _ x y z exy); auto. apply fv_sub0r; eauto.
Qed.

(** ** C74 *)
Lemma box_diagonal side : (forall i, usual_length (part side i)) ->
  diagonal (box side) (mkV (value (vx side)) (value (vy side)) (value (vz side))).
Proof.
  intros H. pose proof zero_fv. repeat (split; [first [exact zero_fv | apply fv_self; first [apply (H AX)|apply (H AY)|apply (H AZ)]]|]).
  apply fv_self, (H AZ).
Qed.
Lemma inverse_diagonal li side : nearly_inverse li side ->
  diagonal li (mkV (value (vx (mr0 li))) (value (vy (mr1 li))) (value (vz (mr2 li)))).
Proof.
  intros (A1 & A2 & A3 & A4 & A5 & A6 & A7 & A8 & A9). destruct A1 as [A1 _], A5 as [A5 _], A9 as [A9 _].
  split; [now apply fv_self|]. split; [exact A2|]. split; [exact A3|]. split; [exact A4|]. split; [now apply fv_self|].
  split; [exact A6|]. split; [exact A7|]. split; [exact A8|]. now apply fv_self.
Qed.
Lemma eps_pow : (/ 2 ^ 53 = eps)%R.
Proof. unfold eps. lra. Qed.

Lemma C74_row side n (c : nat -> V3 spec_float) (x : nat -> V3 R) (li : nat -> M3 spec_float) :
  (forall i, usual_length (part side i)) -> (forall f, (f <= n)%nat -> nearly_inverse (li f) side) ->
  (forall f i, (f <= n)%nat -> finite_double (part (c f) i) /\ (Rabs (value (part (c f) i)) <= 2)%R
     /\ is_integer (value (part (c f) i) - part (x f) i)) ->
  (forall f i, (f < n)%nat -> (Rabs (part (x (S f)) i - part (x f) i) <= / 2 - / 2 ^ 47)%R) ->
  Z.of_nat n <= 2 ^ 20 ->
  exists row, get_disp_row (tab (S n) c) (tab (S n) (fun _ => box side)) (tab (S n) li) = row /\ length row = n /\
  forall t v i, nth_error row t = Some v -> finite_double (part v i) /\
    (Rabs (value (part v i) - (part (x (S t)) i - part (x 0%nat) i) * value (part side i))
       <= INR (S t) ^ 2 * / 2 ^ 49 * value (part side i))%R.
Proof.
  intros Hs Hi Hc Hx Hn. eexists. split; [reflexivity|]. rewrite row_running.
  set (g := fun j : nat => _). rewrite tab_length. split; [reflexivity|]. intros t v i E. assert (Ht : (t < n)%nat) by (rewrite <- (tab_length n (running g)); apply nth_error_Some; rewrite E; discriminate).
  rewrite tab_nth_error in E by exact Ht. injection E as <-.
  destruct (usual_len _ (Hs i)) as [Hl Fl].
  assert (HN : (INR n <= 1048576)%R) by (rewrite INR_IZR_INZ; change 1048576%R with (IZR (2 ^ 20)); apply IZR_le; exact Hn).
  destruct (running_value g (fun f => part (x f) i) (value (part side i)) i n Hl HN) with (t := t) as (_ & s & F & B); [| |exact Ht|].
  - intros f Hf. specialize (Hx f i Hf). eapply Rle_trans; [exact Hx|]. lra.
  - intros f Hf. unfold g. fold (one_move (box side) (li (S f)) (c f) (c (S f))).
    assert (K : forall i, exists k : Z, (value (part (c (S f)) i) - value (part (c f) i) - IZR k = part (x (S f)) i - part (x f) i)%R).
    { intros j. destruct (Hc f j) as (_ & _ & k1 & E1); [lia|]. destruct (Hc (S f) j) as (_ & _ & k2 & E2); [lia|].
      exists (k2 - k1). rewrite minus_IZR. lra. }
    destruct (K AX) as [kx Ex], (K AY) as [ky Ey], (K AZ) as [kz Ez].
    set (k := mkV kx ky kz).
    assert (EK : forall i, (value (part (c (S f)) i) - value (part (c f) i) - IZR (part k i) = part (x (S f)) i - part (x f) i)%R) by now intros [].
    destruct (one_move_value (box side) (li (S f)) _ _ (box_diagonal side Hs) (inverse_diagonal _ _ (Hi (S f) Hf))) with (c1 := c f) (c2 := c (S f)) (k := k) (i := i)
      as (s & F & B).
    + intros j. destruct (usual_len _ (Hs j)) as [L _]. destruct j; exact L.
    + destruct (Hi (S f) Hf) as (A1 & _ & _ & _ & A5 & _ & _ & _ & A9). destruct A1 as [_ A1], A5 as [_ A5], A9 as [_ A9].
      rewrite eps_pow in A1, A5, A9. intros []; cbn [part vx vy vz]; assumption.
    + intros j. destruct (Hc f j) as (P & Q & _); [lia|]. now split.
    + intros j. destruct (Hc (S f) j) as (P & Q & _); [lia|]. now split.
    + intros j. rewrite EK. specialize (Hx f j Hf). replace (64 * eps)%R with (/ 2 ^ 47)%R by (unfold eps; lra). exact Hx.
    + exists s. split; [exact F|]. rewrite EK in B. destruct i; exact B.
  - destruct F as [F V]. split; [exact F|]. rewrite V. eapply Rle_trans; [exact B|]. apply Req_le. unfold eps. cbn [pow]. field.
Qed.

Lemma C74_proof side n natoms (c : nat -> nat -> V3 spec_float) (x : nat -> nat -> V3 R) :
  (forall i, usual_length (part side i)) ->
  (forall f a i, (f <= n)%nat -> (a < natoms)%nat -> finite_double (part (c f a) i) /\ (Rabs (value (part (c f a) i)) <= 2)%R
     /\ is_integer (value (part (c f a) i) - part (x f a) i)) ->
  (forall f a i, (f < n)%nat -> (a < natoms)%nat -> (Rabs (part (x (S f) a) i - part (x f a) i) <= / 2 - / 2 ^ 47)%R) ->
  Z.of_nat n <= 2 ^ 20 ->
  exists d, get_disp (tab (S n) (fun f => tab natoms (c f))) (tab (S n) (fun _ => box side)) = Ok d /\ a_obs d = n
  /\ shape (a_rows d) natoms n /\ forall a t v i, arr_entry d a t = Some v -> finite_double (part v i) /\
    (Rabs (value (part v i) - (part (x (S t) a) i - part (x 0%nat a) i) * value (part side i))
       <= INR (S t) ^ 2 * / 2 ^ 49 * value (part side i))%R.
Proof.
  intros Hs Hc Hx Hn. destruct (minv_box side Hs) as (li & Ei & Hi).
  assert (EM : mapM minv (tab (S n) (fun _ => box side)) = Ok (tab (S n) (fun _ => li))).
  { unfold tab. rewrite mapM_map. now apply mapM_total. }
  exists (mkArr n (tab natoms (fun a => get_disp_row (tab (S n) (fun f => c f a)) (tab (S n) (fun _ => box side)) (tab (S n) (fun _ => li))))).
  split.
  - unfold get_disp. rewrite tab_S. rewrite <- (tab_S n (fun f => tab natoms (c f))).
    rewrite EM, !tab_length, Nat.eqb_refl. rewrite forallb_tab by (intros; rewrite tab_length; apply Nat.eqb_refl).
    cbn [guard bind]. f_equal. f_equal; [lia|]. apply map_seq_ext. intros a Ha.
    cbv beta. apply (f_equal (fun cs => get_disp_row cs (tab (S n) (fun _ => box side)) (tab (S n) (fun _ => li)))).
    etransitivity; [apply map_map|]. apply map_ext. intros f. now apply tab_nth.
  - split; [reflexivity|].
    assert (R0 : forall a, (a < natoms)%nat -> _) by
      (intros a Ha; exact (C74_row side n (fun f => c f a) (fun f => x f a) (fun _ => li) Hs (fun _ _ => Hi)
          (fun f i Hf => Hc f a i Hf Ha) (fun f i Hf => Hx f a i Hf Ha) Hn)).
    cbn [a_rows]. split.
    + split; [apply tab_length|]. apply Forall_forall. intros r Hr. unfold tab in Hr at 1. apply in_map_iff in Hr as (a & <- & Ha).
      apply in_seq in Ha. destruct (R0 a) as (row & E & L & _); [lia|]. rewrite E. exact L.
    + intros a t v i E. unfold arr_entry, entry in E. cbn [a_rows] in E.
      destruct (Nat.ltb_spec a natoms) as [Ha|Ha].
      * rewrite tab_nth_error in E by exact Ha. destruct (R0 a Ha) as (row & Er & L & B). rewrite Er in E. exact (B t v i E).
      * rewrite (proj2 (nth_error_None _ _)) in E by (rewrite tab_length; exact Ha). discriminate.
Qed.

(** ** Witnesses *)
Definition ten3 : V3 spec_float := mkV (SFofZ 10) (SFofZ 10) (SFofZ 10).
Definition eighths (k : positive) : spec_float := SFdiv fprec femax (SFofZ (Zpos k)) (SFofZ 8).
(** 7/8, then 1/8 of the first side; the other coordinates stay. *)
Definition crossing (f a : nat) : V3 spec_float :=
  mkV (if Nat.eqb f 0 then eighths 7 else eighths 1) (eighths 3) (S754_zero false).
Definition crossed (f a : nat) : V3 R := mkV (if Nat.eqb f 0 then 7 / 8 else 9 / 8)%R (3 / 8)%R 0%R.
Lemma ten_value : fv (SFofZ 10) 10.
Proof. apply ofZ_small. reflexivity. Qed.
Lemma ten_usual : usual_length (SFofZ 10).
Proof.
  destruct ten_value as [F V]. split; [exact F|]. rewrite V. rewrite <- !(bpow_powerRZ radix2). split.
  - apply Rle_trans with (bpow radix2 0); [apply bpow_le; lia|]. change (bpow radix2 0) with 1%R. lra.
  - apply Rle_trans with (bpow radix2 4); [change (bpow radix2 4) with 16%R; lra|]. apply bpow_le. lia.
Qed.
Lemma ten3_usual i : usual_length (part ten3 i).
Proof. destruct i; exact ten_usual. Qed.
Lemma ten3_value : value (vx ten3) = 10%R.
Proof. apply ten_value. Qed.
Lemma finite_compute x : valid_binary 53 1024 x = true -> match x with S754_zero _ | S754_finite _ _ _ => True | _ => False end -> finite_double x.
Proof. now split. Qed.
Lemma powers k : powerRZ 2 (Zneg k) = (/ IZR (Zpower_pos 2 k))%R.
Proof. rewrite <- (bpow_powerRZ radix2). reflexivity. Qed.
Lemma eighth7 : fv (eighths 7) (7 / 8).
Proof. split; [apply finite_compute; vm_compute; auto|]. change (eighths 7) with (S754_finite false 7881299347898368 (-53)). cbn [value]. rewrite powers. cbn. lra. Qed.
Lemma eighth1 : fv (eighths 1) (1 / 8).
Proof. split; [apply finite_compute; vm_compute; auto|]. change (eighths 1) with (S754_finite false 4503599627370496 (-55)). cbn [value]. rewrite powers. cbn. lra. Qed.
Lemma eighth3 : fv (eighths 3) (3 / 8).
Proof. split; [apply finite_compute; vm_compute; auto|]. change (eighths 3) with (S754_finite false 6755399441055744 (-54)). cbn [value]. rewrite powers. cbn. lra. Qed.
Lemma crossing_ok f a i : (f <= 1)%nat -> finite_double (part (crossing f a) i) /\ (Rabs (value (part (crossing f a) i)) <= 2)%R
     /\ is_integer (value (part (crossing f a) i) - part (crossed f a) i).
Proof.
  intros Hf. destruct eighth7 as [F7 V7], eighth1 as [F1 V1], eighth3 as [F3 V3], zero_fv as [F0 V0].
  destruct i; cbn [part crossing crossed vx vy vz].
  - destruct f as [|[|f]]; [| |lia]; cbn [Nat.eqb].
    + rewrite V7. split; [exact F7|]. split; [apply abs_le; lra|]. exists 0. lra.
    + rewrite V1. split; [exact F1|]. split; [apply abs_le; lra|]. exists (-1). lra.
  - rewrite V3. split; [exact F3|]. split; [apply abs_le; lra|]. exists 0. lra.
  - rewrite V0. split; [exact F0|]. split; [apply abs_le; lra|]. exists 0. lra.
Qed.

Definition below_half : spec_float := S754_finite false 9007199254740991 (-54).
Lemma below_half_value : fv below_half (9007199254740991 / 18014398509481984).
Proof. split; [now apply finite_compute|]. unfold below_half. cbn [value]. rewrite powers. cbn. lra. Qed.
Lemma C74_half :
  exists (side : V3 spec_float) (c0 c1 : V3 spec_float) d v,
  (forall i, usual_length (part side i)) /\ (forall i, finite_double (part c0 i)) /\ (forall i, finite_double (part c1 i))
  /\ (forall i, (0 <= value (part c0 i) < 1)%R) /\ (forall i, (0 <= value (part c1 i) < 1)%R)
  /\ (forall i, (Rabs (value (part c1 i) - value (part c0 i)) < / 2)%R)
  /\ get_disp [[c0]; [c1]] [box side; box side] = Ok d /\ arr_entry d 0 0 = Some v
  /\ (Rabs (value (vx v) - (value (vx c1) - value (vx c0)) * value (vx side)) > 9 / 10 * value (vx side))%R.
Proof.
  destruct zero_fv as [F0 V0], below_half_value as [FH VH].
  set (o := S754_zero false) in *.
  exists ten3, (mkV o o o), (mkV below_half o o).
  exists (mkArr 1 [[mkV (S754_finite true 5629499534213121 (-50)) o o]]), (mkV (S754_finite true 5629499534213121 (-50)) o o).
  split; [exact ten3_usual|]. split; [now intros []|]. split; [now intros []|].
  split; [intros []; cbn [part vx vy vz]; rewrite V0; lra|].
  split; [intros []; cbn [part vx vy vz]; rewrite ?V0, ?VH; lra|].
  split; [intros []; cbn [part vx vy vz]; rewrite ?V0, ?VH; apply Rabs_def1; lra|].
  split; [vm_compute; reflexivity|]. split; [reflexivity|].
  cbn [vx]. rewrite VH, V0, ten3_value. cbn [value]. rewrite powers. cbn -[Rabs]. rewrite Rabs_left; lra.
Qed.
