(** * ProofsGeom: every k-th point of a truncated geometric grid without repetitions (C34) *)
From Verif Require Import Base Spec SpecParser ModelParser Lemmas ProofsIntervals.
From Coq Require Import Reals Lra Lia ZArith Sorted Psatz.
Open Scope Z_scope.

(** The grid is geometric. *)
Lemma grid_geometric a b m : 0 < a <= b ->
  exists e, (0 <= e)%R /\ forall i, (i < m)%nat -> geomspace_point_R a b m i = (IZR a * (1 + e) ^ i)%R.
Proof.
  intros Hab. assert (Ha : (0 < IZR a)%R) by (apply IZR_lt; lia). assert (Hb : (IZR a <= IZR b)%R) by (apply IZR_le; lia).
  destruct (Nat.le_gt_cases m 1) as [L|L].
  { exists 0%R. split; [lra|]. intros i Hi. assert (i = 0)%nat as -> by lia. unfold geomspace_point_R. cbn. lra. }
  set (s := log10_R (IZR a)). set (t := log10_R (IZR b)). set (h := ((t - s) / INR (m - 1))%R).
  assert (P : (0 < INR (m - 1))%R) by (apply lt_0_INR; lia).
  assert (Hh : (0 <= h)%R).
  { unfold h. apply Rmult_le_pos; [pose proof (log10_mono _ _ Ha Hb); unfold s, t; lra|]. left. now apply Rinv_0_lt_compat. }
  assert (Hr : (1 <= Rpower 10 h)%R).
  { rewrite <- (Rpower_O 10) by lra. apply Rle_Rpower; lra. }
  assert (W : forall i, (IZR a * Rpower 10 h ^ i)%R = Rpower 10 (s + INR i * h)).
  { intros i. rewrite Rpower_plus. unfold s. rewrite Rpower10_log10 by lra. f_equal.
    rewrite <- Rpower_pow by (apply exp_pos). rewrite Rpower_mult. f_equal. ring. }
  exists (Rpower 10 h - 1)%R. split; [lra|]. intros i Hi.
  replace (1 + (Rpower 10 h - 1))%R with (Rpower 10 h) by ring. unfold geomspace_point_R.
  destruct (Nat.eqb i 0) eqn:E0; [apply Nat.eqb_eq in E0; subst i; cbn; lra|]. apply Nat.eqb_neq in E0.
  destruct (Nat.ltb 1 m && Nat.eqb i (m - 1)) eqn:E1.
  - apply andb_true_iff in E1 as [_ E1]. apply Nat.eqb_eq in E1. subst i. rewrite W.
    replace (s + INR (m - 1) * h)%R with t by (unfold h; field; lra). unfold t. now rewrite Rpower10_log10 by lra.
  - rewrite linspace_point_R by lia. rewrite W. f_equal. fold s t. unfold h. field. lra.
Qed.

(** ** Repetitions removed *)
Lemma cube_step (a b : R) : (0 < a)%R -> (a < b)%R -> (a * a * b <= b * b * a)%R.
Proof. intros Ha Hb. assert (0 <= a * b * (b - a))%R by (apply Rmult_le_pos; [apply Rmult_le_pos|]; lra). lra. Qed.
Section Grid.
  Variables (m : nat) (f : nat -> Z) (x : nat -> R) (e : R) (T : list Z).
  Hypothesis He : (0 <= e)%R.
  Hypothesis Hx : forall i, (i < m)%nat -> (IZR (f i) <= x i < IZR (f i) + 1)%R.
  Hypothesis Hr : forall i, (S i < m)%nat -> x (S i) = ((1 + e) * x i)%R.
  Hypothesis Hf : forall i, (i < m)%nat -> 0 < f i.
  Hypothesis Hm : forall i j, (i <= j < m)%nat -> f i <= f j.
  Hypothesis HT : StronglySorted Z.lt T.
  Hypothesis HI : forall z, In z T <-> exists i, (i < m)%nat /\ f i = z.
  Notation t j := (nth j T 0).

  Lemma sorted_lt i j : (i < j < length T)%nat -> t i < t j.
  Proof.
    clear - HT. revert i j. induction HT as [|z l Hl IH Hz]; intros i j Hij; [cbn in Hij; lia|].
    destruct j as [|j]; [lia|]. destruct i as [|i]; cbn [nth].
    - rewrite Forall_forall in Hz. apply Hz. apply nth_In. cbn in Hij. lia.
    - apply IH; [exact Hl|]. cbn in Hij. lia.
  Qed.
  (** [a] is the last grid point whose integer part is entry [j]. *)
  Definition final j a := (a < m)%nat /\ f a = t j /\ forall b, (a < b < m)%nat -> t j < f b.
  Lemma final_exists j : (j < length T)%nat -> exists a, final j a.
  Proof.
    intros Hj. assert (I : In (t j) T) by (now apply nth_In). apply HI in I as (i & Hi & Ei).
    assert (K : forall d i, (i + d = m - 1)%nat -> (i < m)%nat -> f i = t j -> exists a, final j a).
    { induction d as [|d IH]; intros i' Hd Hi' Ei'.
      - exists i'. split; [exact Hi'|]. split; [exact Ei'|]. intros b Hb. lia.
      - destruct (Z.eq_dec (f (S i')) (t j)) as [Q|Q].
        + apply (IH (S i')); [lia|lia|exact Q].
        + exists i'. split; [exact Hi'|]. split; [exact Ei'|]. intros b Hb.
          pose proof (Hm i' (S i') ltac:(lia)). pose proof (Hm (S i') b ltac:(lia)). lia. }
    apply (K (m - 1 - i)%nat i); [lia|exact Hi|exact Ei].
  Qed.
  Lemma final_next j a : final j a -> (S j < length T)%nat -> (S a < m)%nat /\ f (S a) = t (S j).
  Proof.
    intros (Ha & Ea & Hl) Hj. pose proof (sorted_lt j (S j) ltac:(lia)) as Lt.
    assert (I : In (t (S j)) T) by (now apply nth_In). apply HI in I as (b & Hb & Eb).
    assert (Hab : (a < b)%nat).
    { destruct (Nat.le_gt_cases b a) as [Q|Q]; [|exact Q]. pose proof (Hm b a ltac:(lia)). lia. }
    split; [lia|]. assert (Q : In (f (S a)) T) by (apply HI; exists (S a); split; [lia|reflexivity]).
    apply (In_nth _ _ 0) in Q as (l & Hl' & El). pose proof (Hl (S a) ltac:(lia)) as G.
    pose proof (Hm (S a) b ltac:(lia)) as U.
    assert (j < l)%nat.
    { destruct (Nat.le_gt_cases l j) as [Q|Q]; [|exact Q]. destruct (Nat.eq_dec l j) as [->|]; [lia|].
      pose proof (sorted_lt l j ltac:(lia)). lia. }
    destruct (Nat.eq_dec l (S j)) as [->|N]; [congruence|]. pose proof (sorted_lt (S j) l ltac:(lia)). lia.
  Qed.
  Lemma final_ahead n : forall j a b, final j a -> final (j + n) b -> (j + n < length T)%nat -> (a + n <= b)%nat.
  Proof.
    induction n as [|n IH]; intros j a b Ha Hb Hj.
    - rewrite Nat.add_0_r in Hb. destruct Ha as (A1 & A2 & A3), Hb as (B1 & B2 & B3). destruct (Nat.le_gt_cases a b) as [Q|Q]; [lia|].
      pose proof (B3 a ltac:(lia)). lia.
    - destruct (final_exists (S j)) as (c & Hc); [lia|]. destruct (final_next j a Ha ltac:(lia)) as (S1 & S2).
      assert (a < c)%nat.
      { destruct Hc as (C1 & C2 & C3). destruct (Nat.le_gt_cases c a) as [Q|Q]; [|exact Q].
        destruct Ha as (A1 & A2 & A3). pose proof (Hm c a ltac:(lia)). pose proof (sorted_lt j (S j) ltac:(lia)). lia. }
      specialize (IH (S j) c b Hc). replace (S j + n)%nat with (j + S n)%nat in IH by lia. specialize (IH Hb Hj). lia.
  Qed.
  Lemma grid_pow a n : (a + n < m)%nat -> x (a + n) = ((1 + e) ^ n * x a)%R.
  Proof.
    induction n as [|n IH]; intros H; [rewrite Nat.add_0_r; cbn; lra|].
    replace (a + S n)%nat with (S (a + n)) in * by lia. rewrite Hr by exact H. rewrite IH by lia. cbn. ring.
  Qed.

  Lemma T_pos j : (j < length T)%nat -> 0 < t j.
  Proof. intros Hj. destruct (final_exists j Hj) as (a & A1 & A2 & _). rewrite <- A2. now apply Hf. Qed.
  Lemma T_index j : (j < length T)%nat -> Z.of_nat j + 1 <= t j.
  Proof.
    induction j as [|j IH]; intros Hj; [pose proof (T_pos 0 Hj); lia|].
    specialize (IH ltac:(lia)). pose proof (sorted_lt j (S j) ltac:(lia)). lia.
  Qed.
  Lemma T_steps j n : (j + n < length T)%nat -> t j + Z.of_nat n <= t (j + n).
  Proof.
    induction n as [|n IH]; intros Hj; [rewrite Nat.add_0_r; lia|]. specialize (IH ltac:(lia)).
    pose proof (sorted_lt (j + n) (j + S n) ltac:(lia)). lia.
  Qed.
  (** One step up at most, n steps up at least. *)
  Lemma T_upper j : (S j < length T)%nat -> (IZR (t (S j)) <= (1 + e) * (IZR (t j) + 1))%R.
  Proof.
    intros Hj. destruct (final_exists j ltac:(lia)) as (a & Ha). destruct (final_next j a Ha Hj) as (S1 & S2).
    destruct Ha as (A1 & A2 & _). pose proof (Hx a A1) as [X1 X2]. pose proof (Hx (S a) S1) as [Y1 Y2].
    rewrite <- S2, <- A2. rewrite Hr in Y1 by exact S1. nra.
  Qed.
  Lemma T_lower j n : (j + n < length T)%nat -> ((1 + e) ^ n * IZR (t j) - 1 <= IZR (t (j + n)))%R.
  Proof.
    intros Hj. destruct (final_exists j ltac:(lia)) as (a & Ha). destruct (final_exists (j + n) Hj) as (b & Hb).
    pose proof (final_ahead n j a b Ha Hb Hj) as L. destruct Ha as (A1 & A2 & _), Hb as (B1 & B2 & _).
    pose proof (Hm (a + n) b ltac:(lia)) as M. apply IZR_le in M. rewrite B2 in M.
    pose proof (Hx (a + n) ltac:(lia)) as [_ Y2]. rewrite grid_pow in Y2 by lia.
    pose proof (Hx a A1) as [X1 _]. rewrite A2 in X1.
    assert (P : (0 < (1 + e) ^ n)%R) by (apply pow_lt; lra).
    assert ((1 + e) ^ n * IZR (t j) <= (1 + e) ^ n * x a)%R by (apply Rmult_le_compat_l; lra). lra.
  Qed.
  Lemma T_growth i n : (i + n < length T)%nat -> (INR n * e <= 1)%R ->
    (IZR (t (i + n)) * (1 - INR n * e) <= IZR (t i) + INR n * (1 + e))%R.
  Proof.
    induction n as [|n IH]; intros Hn Hne; [rewrite Nat.add_0_r; cbn; lra|].
    rewrite S_INR in *. assert (Hn0 := pos_INR n).
    specialize (IH ltac:(lia) ltac:(nra)).
    replace (i + S n)%nat with (S (i + n)) in * by lia. pose proof (T_upper (i + n) Hn) as U.
    pose proof (T_pos (i + n) ltac:(lia)) as Pz. apply IZR_lt in Pz.
    set (u := IZR (t (i + n))) in *. set (v := IZR (t (S (i + n)))) in *. set (w := IZR (t i)) in *. set (q := INR n) in *.
    clearbody u v w q. clear - He Hne Hn0 IH U Pz.
    assert (A : (v * (1 - (q + 1) * e) <= (1 + e) * (u + 1) * (1 - (q + 1) * e))%R) by (apply Rmult_le_compat_r; lra).
    assert (B : ((1 + e) * (1 - (q + 1) * e) <= 1 - q * e)%R) by nra.
    assert (C : ((1 + e) * u * (1 - (q + 1) * e) <= u * (1 - q * e))%R) by nra.
    assert (D : ((1 + e) * (1 - (q + 1) * e) <= 1 + e)%R) by nra.
    lra.
  Qed.

  Lemma geom_sub_step k i : (0 < k)%nat -> (S i * k < length T)%nat ->
    t (i * k) * t (i * k) * t (S i) <= t (S i * k) * t (S i * k) * t i.
  Proof.
    intros Hk Hi. apply le_IZR. rewrite !mult_IZR.
    assert (Hi1 : (S i < length T)%nat) by nia.
    set (j := (i * k)%nat). replace (S i * k)%nat with (j + k)%nat in * by (unfold j; lia).
    pose proof (T_pos i ltac:(lia)) as Pt. pose proof (T_pos j ltac:(lia)) as Py.
    pose proof (T_index i ltac:(lia)) as It.
    pose proof (T_steps j k Hi) as Sz. apply IZR_le in Sz. rewrite plus_IZR, <- INR_IZR_INZ in Sz.
    pose proof (T_lower j k Hi) as Lk.
    pose proof (T_upper i Hi1) as U.
    destruct (Nat.eq_dec k 1) as [->|K1].
    { assert (Ej : j = i) by (unfold j; lia). replace (j + 1)%nat with (S i) by lia. rewrite Ej.
      pose proof (sorted_lt i (S i) ltac:(lia)) as Q. apply IZR_lt in Pt, Q. now apply cube_step. }
    assert (Hk2 : (2 <= INR k)%R) by (change 2%R with (INR 2); apply le_INR; lia).
    pose proof (T_lower j 2 ltac:(lia)) as L2. pose proof (T_steps j 2 ltac:(lia)) as S2. apply IZR_le in S2. rewrite plus_IZR in S2. change (IZR (Z.of_nat 2)) with 2%R in S2.
    assert (M2 : (IZR (t (j + 2)) <= IZR (t (j + k)))%R).
    { apply IZR_le. destruct (Nat.eq_dec k 2) as [->|]; [lia|]. pose proof (sorted_lt (j + 2) (j + k) ltac:(lia)). lia. }
    apply IZR_lt in Pt, Py. set (z2 := IZR (t (j + 2))) in *. set (z := IZR (t (j + k))) in *.
    destruct (Rle_or_lt (e * (IZR (t i) + 1)) 1) as [A|B].
    - assert (S1 : t (S i) <= t i + 1).
      { destruct (Z.le_gt_cases (t (S i)) (t i + 1)) as [Q|Q]; [exact Q|].
        (* at most T_i + 2, and equal only in the limit case *)
        destruct (final_exists i ltac:(lia)) as (a & Ha). destruct (final_next i a Ha Hi1) as (Q1 & Q2).
        destruct Ha as (A1 & A2 & _). pose proof (Hx a A1) as [X1 X2]. pose proof (Hx (S a) Q1) as [Y1 Y2].
        rewrite Hr in Y1 by exact Q1. rewrite Q2 in Y1. rewrite A2 in X1, X2.
        assert (Q' : (IZR (t i) + 2 <= IZR (t (S i)))%R) by (rewrite <- plus_IZR; apply IZR_le; lia). nra. }
      apply IZR_le in S1. rewrite plus_IZR in S1. change (IZR 1) with 1%R in S1.
      set (y := IZR (t j)) in *. set (ti := IZR (t i)) in *.
      assert (G1 : (y * y * IZR (t (S i)) <= y * y * (ti + 1))%R) by (apply Rmult_le_compat_l; [nra|lra]).
      apply (Rle_trans _ _ _ G1).
      destruct (Rle_or_lt y (2 * INR k * ti)) as [C|C].
      + assert (G2 : ((y + INR k) * (y + INR k) * ti <= z * z * ti)%R).
        { apply Rmult_le_compat_r; [lra|]. apply Rmult_le_compat; lra. }
        nra.
      + set (n := (j - i)%nat). assert (En : (i + n = j)%nat) by (unfold n, j; nia).
        assert (Nn : INR n = ((INR k - 1) * INR i)%R).
        { unfold n, j. rewrite minus_INR by nia. rewrite mult_INR. ring. }
        assert (Hi' : (INR i + 1 <= ti)%R).
        { unfold ti. rewrite INR_IZR_INZ, <- plus_IZR. apply IZR_le. lia. }
        assert (Ni := pos_INR i).
        assert (Big : (1/2 < INR n * e)%R).
        { destruct (Rlt_or_le (1/2) (INR n * e)) as [Q|Q]; [exact Q|]. exfalso.
          pose proof (T_growth i n ltac:(lia) ltac:(lra)) as Gr. rewrite En in Gr. fold y ti in Gr.
          assert (y * (1/2) <= ti + INR n * (1 + e))%R by nra.
          (* (1+e) i <= ti *)
          assert (E1 : (e * INR i <= 1)%R) by nra.
          assert (E2 : ((1 + e) * INR i <= ti)%R) by lra.
          assert (E3 : (INR n * (1 + e) <= (INR k - 1) * ti)%R) by (rewrite Nn; nra).
          lra. }
        assert (Pe : (0 < e)%R) by (destruct (Req_dec e 0) as [Q|Q]; [rewrite Q in Big; lra|lra]).
        pose proof (poly k e Pe) as Bn.
        assert (Lz : ((1 + INR k * e) * y - 1 <= z)%R) by nra.
        assert (Lz2 : (y + (INR k - 1) * (y * e) <= z)%R).
        { assert (Ye : (0 < y * e)%R) by nra.
          assert (Q : ((INR k + 1) * (y + (INR k - 1) * (y * e)) <= (INR k + 1) * z)%R).
          { assert (((INR k + 1) * (y + (INR k - 1) * (y * e)) = (INR k + 1) * y + (INR k * INR k - 1) * (y * e))%R) as -> by ring.
            assert ((INR k + 1) * z = INR k * z + z)%R as -> by ring.
            assert (INR k * ((1 + INR k * e) * y - 1) <= INR k * z)%R by (apply Rmult_le_compat_l; lra). nra. }
          apply (Rmult_le_reg_l (INR k + 1)); lra. }
        assert (Lq : (1 <= 2 * ((INR k - 1) * (e * ti)))%R).
        { assert ((INR k - 1) * INR i * e <= (INR k - 1) * (e * ti))%R; [|rewrite Nn in Big; lra].
          assert (e * INR i <= e * ti)%R by nra. nra. }
        assert (Lw : ((y + (INR k - 1) * (y * e)) * (y + (INR k - 1) * (y * e)) * ti <= z * z * ti)%R).
        { apply Rmult_le_compat_r; [lra|]. assert (0 <= y + (INR k - 1) * (y * e))%R by nra. apply Rmult_le_compat; lra. }
        apply (Rle_trans _ ((y + (INR k - 1) * (y * e)) * (y + (INR k - 1) * (y * e)) * ti)); [|exact Lw].
        assert (W : ((y + (INR k - 1) * (y * e)) * (y + (INR k - 1) * (y * e)) * ti
                     = y * y * ti + y * y * (2 * ((INR k - 1) * (e * ti))) + (INR k - 1) * (y * e) * ((INR k - 1) * (y * e)) * ti)%R) by ring.
        rewrite W. assert (0 <= (INR k - 1) * (y * e) * ((INR k - 1) * (y * e)) * ti)%R by (apply Rmult_le_pos; [apply Rle_0_sqr|lra]).
        assert (y * y * 1 <= y * y * (2 * ((INR k - 1) * (e * ti))))%R by (apply Rmult_le_compat_l; nra). lra.
    - set (y := IZR (t j)) in *. set (ti := IZR (t i)) in *.
      assert (Ht1 : (1 <= ti)%R) by (unfold ti; apply IZR_le; apply lt_IZR in Pt; lia).
      assert (Z3 : ((3 + 4 * e + 2 * (e * e)) * y <= 3 * z)%R).
      { cbn [pow] in L2. assert ((1 + e) * ((1 + e) * 1) * y = (1 + 2 * e + e * e) * y)%R as E by ring. rewrite E in L2. nra. }
      assert (Py3 : (0 <= (3 + 4 * e + 2 * (e * e)) * y)%R) by nra.
      assert (Z9 : ((3 + 4 * e + 2 * (e * e)) * y * ((3 + 4 * e + 2 * (e * e)) * y) <= 9 * (z * z))%R) by nra.
      assert (Pol : (9 * ((1 + e) * (ti + 1)) <= (3 + 4 * e + 2 * (e * e)) * (3 + 4 * e + 2 * (e * e)) * ti)%R).
      { assert (P0 : (9 + 24 * e + 28 * (e * e) <= (3 + 4 * e + 2 * (e * e)) * (3 + 4 * e + 2 * (e * e)))%R) by nra.
        assert (P1 : ((9 + 24 * e + 28 * (e * e)) * ti <= (3 + 4 * e + 2 * (e * e)) * (3 + 4 * e + 2 * (e * e)) * ti)%R) by (apply Rmult_le_compat_r; lra).
        assert (P2 : (9 + 9 * e <= (15 + 28 * e) * (e * ti))%R).
        { destruct (Rle_or_lt (1/2) e) as [Q|Q].
          - assert (e * 1 <= e * ti)%R by nra. nra.
          - assert (1 - e < e * ti)%R by lra. nra. }
        nra. }
      assert (Y2 : (0 < y * y)%R) by nra.
      assert (F1 : (y * y * IZR (t (S i)) <= y * y * ((1 + e) * (ti + 1)))%R) by (apply Rmult_le_compat_l; lra).
      assert (F2 : (y * y * (9 * ((1 + e) * (ti + 1))) <= y * y * ((3 + 4 * e + 2 * (e * e)) * (3 + 4 * e + 2 * (e * e)) * ti))%R) by (apply Rmult_le_compat_l; lra).
      assert (F3 : ((3 + 4 * e + 2 * (e * e)) * y * ((3 + 4 * e + 2 * (e * e)) * y) * ti <= 9 * (z * z) * ti)%R) by (apply Rmult_le_compat_r; lra).
      lra.
  Qed.
End Grid.

Lemma unique_geom_sub_step a b num g k i : 0 < a <= b -> geomspace_R a b num = Ok g -> (0 < k)%nat -> (S i * k < length (unique g))%nat ->
  nth (i * k) (unique g) 0 * nth (i * k) (unique g) 0 * nth (S i) (unique g) 0
  <= nth (S i * k) (unique g) 0 * nth (S i * k) (unique g) 0 * nth i (unique g) 0.
Proof.
  intros Hab E. unfold geomspace_R in E. destruct (_ || _); [discriminate|]. injection E as E.
  set (m := Z.to_nat num) in *. destruct (grid_geometric a b m Hab) as (e & He & Hg).
  assert (Ha : (0 < IZR a)%R) by (apply IZR_lt; lia).
  assert (X1 : forall i, (i < m)%nat -> (1 <= geomspace_point_R a b m i)%R).
  { intros j Hj. destruct (geomspace_point_range a b m j Hab Hj) as [P _]. assert (1 <= IZR a)%R by (apply IZR_le; lia). lra. }
  assert (Tp : forall i, (i < m)%nat -> Rtrunc (geomspace_point_R a b m i) = Rfloor (geomspace_point_R a b m i)).
  { intros j Hj. apply Rtrunc_pos. specialize (X1 j Hj). lra. }
  apply (geom_sub_step m (fun i => Rtrunc (geomspace_point_R a b m i)) (fun i => geomspace_point_R a b m i) e (unique g) He).
  - intros j Hj. rewrite Tp by exact Hj. destruct (Rfloor_bounds (geomspace_point_R a b m j)) as [Q1 Q2]. split; lra.
  - intros j Hj. rewrite !Hg by lia. cbn [pow]. ring.
  - intros j Hj. rewrite Tp by exact Hj. apply Z.lt_le_trans with 1; [lia|]. apply Rfloor_le_iff. now apply X1.
  - intros p q Hpq. rewrite !Tp by lia. apply Rfloor_mono. rewrite !Hg by lia. apply Rmult_le_compat_l; [lra|].
    apply Rle_pow; [lra|lia].
  - apply unique_sorted.
  - intros z. rewrite unique_In, <- E, in_map_iff. split; intros (j & H1 & H2); exists j.
    + apply in_seq in H2. split; [lia|exact H1].
    + split; [exact H2|]. apply in_seq. lia.
Qed.
