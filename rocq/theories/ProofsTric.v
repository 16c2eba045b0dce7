(** * ProofsTric: C97, unwrapping in double precision for any cell *)
From Verif Require Import Base ModelParser Spec SpecStats SpecDouble SpecUnwrap SpecRun Lemmas ProofsDisp ProofsFloat ProofsUnwrap SpecTric.
From Coq Require Import Reals Lra Lia Psatz.
From Coq.Floats Require Import SpecFloat.
From Flocq Require Import Core.
From Flocq.Prop Require Import Relative.
Open Scope Z_scope.

#[local] Instance prec_pos : Prec_gt_0 fprec := eq_refl.

(** ** Products of three terms *)
Definition dot3 (x y z a b c : spec_float) : spec_float :=
  SFadd fprec femax (SFadd fprec femax (SFmul fprec femax x a) (SFmul fprec femax y b)) (SFmul fprec femax z c).
Lemma dot3_value x y z a b c p : finite_double x -> finite_double y -> finite_double z -> finite_double a -> finite_double b -> finite_double c ->
  (bpow radix2 (-1022) <= p)%R -> (4 * p <= bpow radix2 1000)%R ->
  (Rabs (value x * value a) <= p)%R -> (Rabs (value y * value b) <= p)%R -> (Rabs (value z * value c) <= p)%R ->
  exists s, fv (dot3 x y z a b c) s /\ (Rabs (s - (value x * value a + value y * value b + value z * value c)) <= 10 * (eps * p))%R /\ (Rabs s <= 4 * p)%R.
Proof.
  intros Fx Fy Fz Fa Fb Fc P1 P2 A B C. apply fv_self in Fx, Fy, Fz, Fa, Fb, Fc. destruct eps_small as [E0 E1].
  assert (P0 : (0 < p)%R) by (eapply Rlt_le_trans; [apply bpow_gt_0|exact P1]).
  assert (EP : (0 < eps * p <= / 1000000000 * p)%R) by (split; [now apply Rmult_lt_0_compat|apply Rmult_le_compat_r; lra]).
  assert (GA := fv_mul _ _ _ _ Fx Fa ltac:(lra)). assert (GB := fv_mul _ _ _ _ Fy Fb ltac:(lra)). assert (GC := fv_mul _ _ _ _ Fz Fc ltac:(lra)).
  assert (DA := err_le _ _ P1 A). assert (DB := err_le _ _ P1 B). assert (DC := err_le _ _ P1 C).
  set (u := (value x * value a)%R) in *. set (v := (value y * value b)%R) in *. set (w := (value z * value c)%R) in *.
  apply abs_le in A, B, C, DA, DB, DC.
  assert (S1 : (Rabs (rnd u + rnd v) <= 3 * p)%R) by (apply abs_le; lra).
  assert (G1 := fv_add _ _ _ _ GA GB ltac:(lra)).
  assert (D1 := err_le _ (3 * p) ltac:(lra) S1). apply abs_le in S1, D1.
  assert (S2 : (Rabs (rnd (rnd u + rnd v) + rnd w) <= 4 * p)%R) by (apply abs_le; lra).
  assert (G2 := fv_add _ _ _ _ G1 GC ltac:(lra)).
  assert (D2 := err_le _ (4 * p) ltac:(lra) S2). apply abs_le in S2, D2.
  eexists. split; [exact G2|]. split; apply abs_le; lra.
Qed.

Lemma part_vecmat (v : V3 spec_float) m j : part (vecmat v m) j
  = dot3 (vx v) (vy v) (vz v) (cell_entry m AX j) (cell_entry m AY j) (cell_entry m AZ j).
Proof. now destruct j. Qed.
(** The real product. *)
Definition along (a : axis -> R) (m : axis -> axis -> R) (j : axis) : R := (a AX * m AX j + a AY * m AY j + a AZ * m AZ j)%R.
Lemma along_ext a b m n j : (forall i, a i = b i) -> (forall i, m i j = n i j) -> along a m j = along b n j.
Proof. intros H K. unfold along. now rewrite !H, !K. Qed.
Lemma along_bound a m j A B : (0 <= A)%R -> (forall i, Rabs (a i) <= A)%R -> (forall i, Rabs (m i j) <= B)%R -> (Rabs (along a m j) <= 3 * (A * B))%R.
Proof.
  intros HA Ha Hm. assert (K : forall i, (- (A * B) <= a i * m i j <= A * B)%R).
  { intros i. apply abs_le. rewrite Rabs_mult. apply Rmult_le_compat; try apply Rabs_pos; auto. }
  unfold along. pose proof (K AX). pose proof (K AY). pose proof (K AZ). apply abs_le. lra.
Qed.
Lemma along_minus a b m j : (along (fun i => a i - b i) m j = along a m j - along b m j)%R.
Proof. unfold along. ring. Qed.

Lemma vecmat_value v m (a : axis -> R) (c : axis -> axis -> R) A M j :
  (forall i, fv (part v i) (a i)) -> (forall i j, fv (cell_entry m i j) (c i j)) ->
  (forall i, Rabs (a i) <= A)%R -> (forall i, Rabs (c i j) <= M)%R -> (0 <= A)%R -> (0 <= M)%R ->
  (bpow radix2 (-1022) <= A * M)%R -> (4 * (A * M) <= bpow radix2 1000)%R ->
  exists s, fv (part (vecmat v m) j) s /\ (Rabs (s - along a c j) <= 10 * (eps * (A * M)))%R /\ (Rabs s <= 4 * (A * M))%R.
Proof.
  intros Hv Hm Ha Hc PA PM P1 P2. rewrite part_vecmat.
  assert (K : forall i, (Rabs (a i * c i j) <= A * M)%R) by (intros i; rewrite Rabs_mult; apply Rmult_le_compat; try apply Rabs_pos; auto).
  pose proof (Hv AX) as [FX VX]. pose proof (Hv AY) as [FY VY]. pose proof (Hv AZ) as [FZ VZ]. cbn [part] in *.
  pose proof (Hm AX j) as [GX WX]. pose proof (Hm AY j) as [GY WY]. pose proof (Hm AZ j) as [GZ WZ].
  destruct (dot3_value _ _ _ _ _ _ (A * M)%R FX FY FZ GX GY GZ P1 P2) as (s & S1 & S2 & S3).
  - rewrite VX, WX. apply K.
  - rewrite VY, WY. apply K.
  - rewrite VZ, WZ. apply K.
  - exists s. split; [exact S1|]. split; [|exact S3]. unfold along. now rewrite <- VX, <- VY, <- VZ, <- WX, <- WY, <- WZ.
Qed.

(** ** One step of one atom *)
Definition any_move (l1 l2 li : M3 spec_float) (c1 c2 : V3 spec_float) : V3 spec_float :=
  let d := vsub (vecmat c2 l2) (vecmat c1 l1) in vsub d (image_correction d l2 li).
Definition fixed_choice (P : axis -> R -> Prop) : (forall i, exists s, P i s) -> exists f, forall i, P i (f i).
Proof.
  intros H. destruct (H AX) as [x X], (H AY) as [y Y], (H AZ) as [z Z]. exists (fun i => match i with AX => x | AY => y | AZ => z end). now intros [].
Qed.
Definition unit_entry (i j : axis) : R := if Nat.eqb (axis_number i) (axis_number j) then 1%R else 0%R.

Section Move.
  Variables (M kappa : R) (l1 l2 li : M3 spec_float) (c1 c2 : V3 spec_float).
  Notation L1 := (fun i j => value (cell_entry l1 i j)). Notation L2 := (fun i j => value (cell_entry l2 i j)).
  Notation Y := (fun i j => value (cell_entry li i j)).
  Hypothesis (HM : len M) (HK : (1 <= kappa <= 1048576)%R).
  Hypothesis (H1 : cell_below M l1) (H2 : cell_below M l2) (HI : inverse_below kappa M li l2).
  Hypothesis (C1 : forall i, finite_double (part c1 i) /\ (Rabs (value (part c1 i)) <= 2)%R).
  Hypothesis (C2 : forall i, finite_double (part c2 i) /\ (Rabs (value (part c2 i)) <= 2)%R).
  Variables (e : axis -> R) (k : V3 Z).
  Hypothesis (He : forall j, along e L2 j = (along (fun i => value (part c2 i)) L2 j - along (fun i => value (part c1 i)) L1 j)%R).
  Hypothesis (Eb : forall i, (Rabs (e i) <= 8)%R).
  Hypothesis (Ek : forall i, (Rabs (e i - IZR (part k i)) <= / 2 - 512 * (kappa * eps))%R).

  Lemma any_move_value : forall j, exists s, fv (part (any_move l1 l2 li c1 c2) j) s
    /\ (Rabs (s - along (fun i => e i - IZR (part k i)) L2 j) <= 138 * (eps * M))%R
    /\ (Rabs (along (fun i => e i - IZR (part k i)) L2 j) <= 3 / 2 * M)%R.
  Proof.
    pose proof (len_pos M HM) as PM. destruct eps_small as [E0 E1].
    assert (EM : (0 < eps * M <= / 1000000000 * M)%R) by (split; [now apply Rmult_lt_0_compat|apply Rmult_le_compat_r; lra]).
    assert (EK : (eps <= kappa * eps <= / 1000000000)%R).
    { split; [rewrite <- (Rmult_1_l eps) at 1; apply Rmult_le_compat_r; lra|]. apply Rle_trans with (1048576 * eps)%R; [apply Rmult_le_compat_r; lra|]. unfold eps. lra. }
    assert (F1 : forall i, fv (part c1 i) (value (part c1 i))) by (intros i; apply fv_self, C1).
    assert (F2 : forall i, fv (part c2 i) (value (part c2 i))) by (intros i; apply fv_self, C2).
    assert (G1 : forall i j, fv (cell_entry l1 i j) (L1 i j)) by (intros; apply fv_self, H1).
    assert (G2 : forall i j, fv (cell_entry l2 i j) (L2 i j)) by (intros; apply fv_self, H2).
    assert (GY : forall i j, fv (cell_entry li i j) (Y i j)) by (intros; apply fv_self, HI).
    assert (B2 := len_big M 2 HM ltac:(lra)). assert (B8 := len_big M 8 HM ltac:(lra)).
    assert (S8 := len_small M 8 HM ltac:(lra)). assert (S32 := len_small M 32 HM ltac:(lra)).
    (* Cartesian positions and their difference *)
    assert (W1 : forall j, exists s, fv (part (vecmat c1 l1) j) s /\ (Rabs (s - along (fun i => value (part c1 i)) L1 j) <= 20 * (eps * M))%R /\ (Rabs s <= 8 * M)%R).
    { intros j. destruct (vecmat_value c1 l1 _ _ 2 M j F1 G1) as (s & A & B & C); try lra; [intros; apply C1|intros; apply H1|].
      exists s. split; [exact A|]. split; [eapply Rle_trans; [exact B|]; lra|lra]. }
    assert (W2 : forall j, exists s, fv (part (vecmat c2 l2) j) s /\ (Rabs (s - along (fun i => value (part c2 i)) L2 j) <= 20 * (eps * M))%R /\ (Rabs s <= 8 * M)%R).
    { intros j. destruct (vecmat_value c2 l2 _ _ 2 M j F2 G2) as (s & A & B & C); try lra; [intros; apply C2|intros; apply H2|].
      exists s. split; [exact A|]. split; [eapply Rle_trans; [exact B|]; lra|lra]. }
    set (d := vsub (vecmat c2 l2) (vecmat c1 l1)).
    assert (EB : forall j, (Rabs (along e L2 j) <= 12 * M + 0)%R).
    { intros j. rewrite He. assert (U := along_bound (fun i => value (part c2 i)) L2 j 2 M ltac:(lra) (fun i => proj2 (C2 i)) (fun i => proj2 (H2 i j))).
      assert (V := along_bound (fun i => value (part c1 i)) L1 j 2 M ltac:(lra) (fun i => proj2 (C1 i)) (fun i => proj2 (H1 i j))).
      apply abs_le in U, V. apply abs_le. lra. }
    assert (D : forall j, exists s, fv (part d j) s /\ (Rabs (s - along e L2 j) <= 56 * (eps * M))%R).
    { intros j. destruct (W1 j) as (s1 & A1 & A2 & A3), (W2 j) as (s2 & B1 & B2' & B3). rewrite He. unfold d. rewrite part_sub.
      apply abs_le in A2, A3, B2', B3.
      assert (Q : (Rabs (s2 - s1) <= 16 * M)%R) by (apply abs_le; lra).
      assert (K := err_le _ (16 * M) ltac:(lra) Q). exists (rnd (s2 - s1)). split.
      - apply fv_sub; auto. eapply Rle_trans; [exact Q|]. lra.
      - apply abs_le in K. apply abs_le. lra. }
    destruct (fixed_choice _ D) as (dv & Dv). clear D W1 W2.
    assert (DB : forall i, (Rabs (dv i) <= 13 * M)%R).
    { intros i. destruct (Dv i) as [_ A]. specialize (EB i). apply abs_le in A, EB. apply abs_le. lra. }
    (* fractional difference *)
    assert (HY : forall i j, (Rabs (Y i j) <= kappa / M)%R).
    { intros i j. destruct HI as [HI1 _]. destruct (HI1 i j) as [_ A]. apply Rmult_le_reg_r with M; [exact PM|]. unfold Rdiv. rewrite Rmult_assoc, Rinv_l by lra. lra. }
    assert (KM : (0 <= kappa / M)%R) by (apply Rmult_le_pos; [lra|apply Rlt_le, Rinv_0_lt_compat, PM]).
    assert (CM : (13 * M * (kappa / M) = 13 * kappa)%R) by (field; lra).
    assert (Fr : forall j, exists s, fv (part (vecmat d li) j) s /\ (Rabs (s - e j) <= 490 * (kappa * eps))%R).
    { intros j. destruct (vecmat_value d li dv Y (13 * M) (kappa / M) j) as (s & A & B & _); auto; try (rewrite CM); try lra.
      - intros i. apply Dv.
      - apply one_big. lra.
      - apply Rle_trans with (bpow radix2 30); [change (bpow radix2 30) with 1073741824%R; lra|apply bpow_le; lia].
      - exists s. split; [exact A|]. rewrite CM in B.
        (* the exact difference times the computed inverse *)
        assert (T : (Rabs (along dv Y j - along (along e L2) Y j) <= 168 * (kappa * eps))%R).
        { assert (Z : (along dv Y j - along (along e L2) Y j = along (fun i => dv i - along e L2 i) Y j)%R) by (unfold along; ring). rewrite Z.
          eapply Rle_trans; [apply (along_bound _ Y j (56 * (eps * M)) (kappa / M))|].
          - lra.
          - intros i. apply Dv.
          - intros i. apply HY.
          - apply Req_le. field. lra. }
        destruct HI as [_ HI2].
        assert (U : (Rabs (along (along e L2) Y j - e j) <= 192 * (kappa * eps))%R).
        { assert (Z : (along (along e L2) Y j - e j = along e (fun i j => along (L2 i) Y j - unit_entry i j) j)%R).
          { unfold along. destruct j; unfold unit_entry; cbn [axis_number Nat.eqb]; ring. }
          rewrite Z. eapply Rle_trans; [apply (along_bound e _ j 8 (kappa * / 2 ^ 50))|].
          - lra.
          - exact Eb.
          - intros i. specialize (HI2 i j). unfold all_axes in HI2. cbn [map rsum fold_right] in HI2.
            unfold along, unit_entry. eapply Rle_trans; [|exact HI2]. apply Req_le. f_equal. ring.
          - apply Req_le. unfold eps. field. }
        apply abs_le in B, T, U. apply abs_le. lra. }
    destruct (fixed_choice _ Fr) as (fr & Frv). clear Fr.
    (* the image *)
    assert (KB : forall i, (Rabs (IZR (part k i)) <= 8)%R /\ Z.abs (part k i) < 2 ^ 53).
    { intros i. specialize (Eb i). specialize (Ek i). apply abs_le in Eb, Ek.
      assert (Q : -9 < part k i < 9) by (split; apply lt_IZR; lra). split; [|lia]. apply abs_le.
      assert (Q' : -8 <= part k i <= 8) by lia. split; [apply (IZR_le (-8)); lia|apply (IZR_le _ 8); lia]. }
    assert (FK : forall i, fv (part (vmap (fun x => nofZ (nfloor (nadd x nhalf))) (vecmat d li)) i) (IZR (part k i))).
    { intros i. rewrite part_map. destruct (Frv i) as [A B]. specialize (Eb i). specialize (Ek i). apply abs_le in B, Eb, Ek.
      assert (S0 : (Rabs (fr i + / 2) <= 10)%R) by (apply abs_le; lra).
      assert (G : fv (SFadd fprec femax (part (vecmat d li) i) (nhalf : spec_float)) (rnd (fr i + / 2))).
      { apply fv_add; [exact A|exact half_fv|]. apply small_bound. lra. }
      assert (K := err_le _ 10 (one_big 10 ltac:(lra)) S0). apply abs_le in K.
      destruct G as [G3 G4]. cbn [nadd nofZ nfloor NumSF]. rewrite floor_value by exact G3. rewrite G4.
      replace (Zfloor (rnd (fr i + / 2))) with (part k i).
      - apply ofZ_small. apply KB.
      - symmetry. apply Zfloor_imp. rewrite plus_IZR. lra. }
    assert (Q : forall j, exists s, fv (part (image_correction d l2 li) j) s /\ (Rabs (s - along (fun i => IZR (part k i)) L2 j) <= 80 * (eps * M))%R).
    { intros j. unfold image_correction. destruct (vecmat_value _ l2 _ _ 8 M j FK G2) as (s & A & B & _); try lra; [intros; apply KB|intros; apply H2|].
      exists s. split; [exact A|]. eapply Rle_trans; [exact B|]. lra. }
    intros j. destruct (Q j) as (q & Q1 & Q2). destruct (Dv j) as [D1 D2].
    assert (TB : (Rabs (along (fun i => e i - IZR (part k i)) L2 j) <= 3 / 2 * M)%R).
    { eapply Rle_trans; [apply (along_bound _ L2 j (/ 2) M)|lra]; [lra| |intros i; apply H2].
      intros i. eapply Rle_trans; [apply Ek|]. lra. }
    rewrite along_minus in *. apply abs_le in Q2, D2. pose proof TB as TB'. apply abs_le in TB.
    assert (SB : (Rabs (dv j - q) <= 2 * M)%R) by (apply abs_le; lra).
    assert (K := err_le _ (2 * M) ltac:(lra) SB). exists (rnd (dv j - q)). split; [|split; [|exact TB']].
    - unfold any_move. fold d. rewrite part_sub. apply fv_sub; auto. eapply Rle_trans; [exact SB|]. lra.
    - apply abs_le in K. apply abs_le. lra.
  Qed.
End Move.

(** ** The running sum along one axis *)
Fixpoint sum_to (s : nat -> R) (t : nat) : R := match t with O => 0%R | S t => (sum_to s t + s t)%R end.
Lemma running_any g (s : nat -> R) M i n : len M -> (INR n <= 1048576)%R ->
  (forall t, (t < n)%nat -> exists r, fv (part (g t) i) r /\ (Rabs (r - s t) <= 138 * (eps * M))%R /\ (Rabs (s t) <= 3 / 2 * M)%R) ->
  forall t, (t < n)%nat -> (Rabs (sum_to s (S t)) <= 3 / 2 * M * INR (S t))%R /\ exists r, fv (part (running g t) i) r
    /\ (Rabs (r - sum_to s (S t)) <= 144 * (eps * M) * (INR (S t) * INR (S t)))%R.
Proof.
  intros Hl Hn Hg. pose proof (len_pos M Hl) as Pl. destruct eps_small as [E0 E1].
  assert (EL : (0 < eps * M <= / 1000000000 * M)%R) by (split; [now apply Rmult_lt_0_compat|apply Rmult_le_compat_r; lra]).
  induction t; intros Ht.
  - destruct (Hg 0%nat Ht) as (r & F & B & C). cbn [sum_to INR running]. split; [rewrite Rplus_0_l; lra|]. exists r. split; [exact F|].
    rewrite Rplus_0_l. lra.
  - destruct IHt as (XB & r & F & B); [lia|]. destruct (Hg (S t) Ht) as (u & G & C & D). cbn [running]. rewrite part_add.
    change (sum_to s (S (S t))) with (sum_to s (S t) + s (S t))%R. set (x := sum_to s (S t)) in *.
    assert (TB : (1 <= INR (S t))%R) by (rewrite S_INR; pose proof (pos_INR t); lra).
    assert (TM : (INR (S (S t)) <= 1048576)%R) by (eapply Rle_trans; [apply le_INR; exact Ht|exact Hn]).
    rewrite (S_INR (S t)) in *. set (T := INR (S t)) in *. apply abs_le in XB, D, B, C.
    split; [apply abs_le; lra|].
    assert (ET : (eps * (T * T) <= / 4096)%R).
    { apply Rle_trans with (eps * (1048576 * 1048576))%R; [apply Rmult_le_compat_l; [lra|]; apply Rmult_le_compat; lra|]. unfold eps. lra. }
    assert (EB : (144 * (eps * M) * (T * T) <= / 16 * M)%R).
    { replace (144 * (eps * M) * (T * T))%R with (144 * (eps * (T * T)) * M)%R by ring. apply Rmult_le_compat_r; lra. }
    assert (TP : (M <= T * M)%R) by (rewrite <- (Rmult_1_l M) at 1; apply Rmult_le_compat_r; lra).
    assert (SB : (Rabs (r + u) <= (2 * T + 2) * M)%R) by (apply abs_le; lra).
    exists (rnd (r + u)). split.
    + apply fv_add; auto. eapply Rle_trans; [exact SB|]. apply len_small; auto; lra.
    + assert (RE : (Rabs (rnd (r + u) - (r + u)) <= eps * ((2 * T + 2) * M))%R) by (apply err_le; [apply len_big; auto; lra|exact SB]).
      apply abs_le in RE. replace (eps * ((2 * T + 2) * M))%R with (2 * (eps * M * T) + 2 * (eps * M))%R in RE by ring.
      replace (144 * (eps * M) * ((T + 1) * (T + 1)))%R with (144 * (eps * M) * (T * T) + 288 * (eps * M * T) + 144 * (eps * M))%R by ring.
      assert (0 <= eps * M * T)%R by (apply Rmult_le_pos; lra). apply abs_le. lra.
Qed.

(** ** The inverse computed in doubles *)
Definition minor (p q r s : spec_float) : spec_float := SFsub fprec femax (SFmul fprec femax p q) (SFmul fprec femax r s).
Lemma big_len M : len M -> (bpow radix2 (-600) <= M ^ 2 /\ M ^ 2 <= bpow radix2 600 /\ bpow radix2 (-900) <= M ^ 3 /\ M ^ 3 <= bpow radix2 900)%R.
Proof.
  intros [H K]. pose proof (bpow_gt_0 radix2 (-300)) as P. pose proof (bpow_gt_0 radix2 300) as P'.
  change (-600) with (-300 + -300). change (-900) with (-300 + (-300 + -300)). change 600 with (300 + 300). change 900 with (300 + (300 + 300)). rewrite !bpow_plus. cbn [pow].
  repeat split; repeat (rewrite ?Rmult_1_r; first [apply Rmult_le_compat | assumption | lra | apply Rmult_le_pos]).
Qed.
Section Inverse.
  Variables (M rho : R) (m : M3 spec_float).
  Hypothesis (HM : len M) (HR : (1 <= rho <= 100)%R) (Hc : compact_cell rho M m).
  Definition good (x : spec_float) : Prop := finite_double x /\ (Rabs (value x) <= M)%R.
  Lemma minor_value p q r s : good p -> good q -> good r -> good s -> exists z, fv (minor p q r s) z
    /\ (Rabs (z - (value p * value q - value r * value s)) <= 5 * (eps * M ^ 2))%R /\ (Rabs (value p * value q - value r * value s) <= 2 * M ^ 2)%R.
  Proof.
    intros [Fp Bp] [Fq Bq] [Fr Br] [Fs Bs]. apply fv_self in Fp, Fq, Fr, Fs. pose proof (len_pos M HM) as PM. destruct eps_small as [E0 E1].
    destruct (big_len M HM) as (L1 & L2 & _ & _).
    assert (P2 : (0 < M ^ 2)%R) by (apply pow_lt; exact PM).
    assert (EP : (0 < eps * M ^ 2 <= / 1000000000 * M ^ 2)%R) by (split; [now apply Rmult_lt_0_compat|apply Rmult_le_compat_r; lra]).
    assert (B1 : (bpow radix2 (-1022) <= M ^ 2)%R) by (eapply Rle_trans; [apply bpow_le|exact L1]; lia).
    assert (B2 : (4 * M ^ 2 <= bpow radix2 1000)%R).
    { apply Rle_trans with (bpow radix2 2 * bpow radix2 600)%R; [change (bpow radix2 2) with 4%R; lra|]. rewrite <- bpow_plus. apply bpow_le. lia. }
    assert (A : (Rabs (value p * value q) <= M ^ 2)%R) by (rewrite Rabs_mult; cbn [pow]; rewrite Rmult_1_r; apply Rmult_le_compat; auto using Rabs_pos).
    assert (B : (Rabs (value r * value s) <= M ^ 2)%R) by (rewrite Rabs_mult; cbn [pow]; rewrite Rmult_1_r; apply Rmult_le_compat; auto using Rabs_pos).
    assert (GA := fv_mul _ _ _ _ Fp Fq ltac:(lra)). assert (GB := fv_mul _ _ _ _ Fr Fs ltac:(lra)).
    assert (DA := err_le _ _ B1 A). assert (DB := err_le _ _ B1 B).
    set (u := (value p * value q)%R) in *. set (v := (value r * value s)%R) in *.
    apply abs_le in A, B, DA, DB.
    assert (S1 : (Rabs (rnd u - rnd v) <= 3 * M ^ 2)%R) by (apply abs_le; lra).
    assert (G1 := fv_sub _ _ _ _ GA GB ltac:(lra)). assert (D1 := err_le _ (3 * M ^ 2) ltac:(lra) S1). apply abs_le in D1.
    exists (rnd (rnd u - rnd v)). split; [exact G1|]. split; apply abs_le; lra.
  Qed.
  (** One term of the determinant. *)
  Lemma term_value a p q r s : good a -> good p -> good q -> good r -> good s -> exists z, fv (SFmul fprec femax a (minor p q r s)) z
    /\ (Rabs (z - value a * (value p * value q - value r * value s)) <= 8 * (eps * M ^ 3))%R
    /\ (Rabs (value a * (value p * value q - value r * value s)) <= 2 * M ^ 3)%R.
  Proof.
    intros [Fa Ba] Hp Hq Hr Hs. destruct (minor_value p q r s Hp Hq Hr Hs) as (z & Fz & D & B). apply fv_self in Fa.
    pose proof (len_pos M HM) as PM. destruct eps_small as [E0 E1]. destruct (big_len M HM) as (_ & _ & L1 & L2).
    assert (P2 : (0 < M ^ 2)%R) by (apply pow_lt; exact PM). assert (P3 : (0 < M ^ 3)%R) by (apply pow_lt; exact PM).
    assert (EP : (0 < eps * M ^ 3 <= / 1000000000 * M ^ 3)%R) by (split; [now apply Rmult_lt_0_compat|apply Rmult_le_compat_r; lra]).
    assert (EP2 : (0 < eps * M ^ 2 <= / 1000000000 * M ^ 2)%R) by (split; [now apply Rmult_lt_0_compat|apply Rmult_le_compat_r; lra]).
    assert (B1 : (bpow radix2 (-1022) <= M ^ 3)%R) by (eapply Rle_trans; [apply bpow_le|exact L1]; lia).
    assert (B2 : (4 * M ^ 3 <= bpow radix2 1000)%R).
    { apply Rle_trans with (bpow radix2 2 * bpow radix2 900)%R; [change (bpow radix2 2) with 4%R; lra|]. rewrite <- bpow_plus. apply bpow_le. lia. }
    set (c := (value p * value q - value r * value s)%R) in *.
    assert (Z3 : (Rabs z <= 3 * M ^ 2)%R) by (apply abs_le in D, B; apply abs_le; lra).
    assert (M3E : (M ^ 3 = M * M ^ 2)%R) by (cbn [pow]; ring).
    assert (A : (Rabs (value a * z) <= 3 * M ^ 3)%R).
    { rewrite Rabs_mult, M3E. replace (3 * (M * M ^ 2))%R with (M * (3 * M ^ 2))%R by ring. apply Rmult_le_compat; auto using Rabs_pos. }
    assert (A' : (Rabs (value a * c) <= 2 * M ^ 3)%R).
    { rewrite Rabs_mult, M3E. replace (2 * (M * M ^ 2))%R with (M * (2 * M ^ 2))%R by ring. apply Rmult_le_compat; auto using Rabs_pos. }
    assert (C : (Rabs (value a * z - value a * c) <= 5 * (eps * M ^ 3))%R).
    { rewrite <- Rmult_minus_distr_l, Rabs_mult, M3E. replace (5 * (eps * (M * M ^ 2)))%R with (M * (5 * (eps * M ^ 2)))%R by ring. apply Rmult_le_compat; auto using Rabs_pos. }
    assert (G := fv_mul _ _ _ _ Fa Fz ltac:(lra)). assert (E := err_le _ (3 * M ^ 3) ltac:(lra) A).
    exists (rnd (value a * z)). split; [exact G|]. split; [|exact A']. apply abs_le in C, E. apply abs_le. lra.
  Qed.
  Lemma entry_good i j : good (cell_entry m i j).
  Proof. apply Hc. Qed.
  Lemma det_value : exists z, fv (mdet m) z /\ (Rabs (z - cell_volume (stored_cell m)) <= 41 * (eps * M ^ 3))%R.
  Proof.
    pose proof (len_pos M HM) as PM. destruct eps_small as [E0 E1]. destruct (big_len M HM) as (_ & _ & L1 & L2).
    assert (P3 : (0 < M ^ 3)%R) by (apply pow_lt; exact PM).
    assert (EP : (0 < eps * M ^ 3 <= / 1000000000 * M ^ 3)%R) by (split; [now apply Rmult_lt_0_compat|apply Rmult_le_compat_r; lra]).
    assert (B1 : (bpow radix2 (-1022) <= M ^ 3)%R) by (eapply Rle_trans; [apply bpow_le|exact L1]; lia).
    assert (B2 : (16 * M ^ 3 <= bpow radix2 1000)%R).
    { apply Rle_trans with (bpow radix2 4 * bpow radix2 900)%R; [change (bpow radix2 4) with 16%R; lra|]. rewrite <- bpow_plus. apply bpow_le. lia. }
    destruct (term_value (cell_entry m AX AX) (cell_entry m AY AY) (cell_entry m AZ AZ) (cell_entry m AY AZ) (cell_entry m AZ AY)) as (x & X1 & X2 & X3); try apply entry_good.
    destruct (term_value (cell_entry m AX AY) (cell_entry m AY AX) (cell_entry m AZ AZ) (cell_entry m AY AZ) (cell_entry m AZ AX)) as (y & Y1 & Y2 & Y3); try apply entry_good.
    destruct (term_value (cell_entry m AX AZ) (cell_entry m AY AX) (cell_entry m AZ AY) (cell_entry m AY AY) (cell_entry m AZ AX)) as (z & Z1 & Z2 & Z3); try apply entry_good.
    assert (V : cell_volume (stored_cell m) = (value (cell_entry m AX AX) * (value (cell_entry m AY AY) * value (cell_entry m AZ AZ) - value (cell_entry m AY AZ) * value (cell_entry m AZ AY))
       - value (cell_entry m AX AY) * (value (cell_entry m AY AX) * value (cell_entry m AZ AZ) - value (cell_entry m AY AZ) * value (cell_entry m AZ AX))
       + value (cell_entry m AX AZ) * (value (cell_entry m AY AX) * value (cell_entry m AZ AY) - value (cell_entry m AY AY) * value (cell_entry m AZ AX)))%R).
    { unfold cell_volume, stored_cell, stored, cell_entry. cbn [mr0 mr1 mr2 vx vy vz part]. ring. }
    rewrite V. clear V.
    set (u := (value (cell_entry m AX AX) * _)%R) in *. set (v := (value (cell_entry m AX AY) * _)%R) in *. set (w := (value (cell_entry m AX AZ) * _)%R) in *.
    apply abs_le in X2, X3, Y2, Y3, Z2, Z3.
    assert (S1 : (Rabs (x - y) <= 7 * M ^ 3)%R) by (apply abs_le; lra).
    assert (G1 := fv_sub _ _ _ _ X1 Y1 ltac:(lra)). assert (D1 := err_le _ (7 * M ^ 3) ltac:(lra) S1). apply abs_le in S1, D1.
    assert (S2 : (Rabs (rnd (x - y) + z) <= 10 * M ^ 3)%R) by (apply abs_le; lra).
    assert (G2 := fv_add _ _ _ _ G1 Z1 ltac:(lra)). assert (D2 := err_le _ (10 * M ^ 3) ltac:(lra) S2). apply abs_le in D2.
    exists (rnd (rnd (x - y) + z)). split; [exact G2|]. apply abs_le. lra.
  Qed.
  Notation det := (cell_volume (stored_cell m)).
  Lemma det_bounds : exists z, fv (mdet m) z /\ (Rabs (z - det) <= 41 * (eps * M ^ 3))%R /\ (M ^ 3 / (2 * rho) <= Rabs z)%R /\ (M ^ 3 / rho <= Rabs det)%R.
  Proof.
    destruct det_value as (z & F & D). exists z. split; [exact F|]. split; [exact D|]. destruct Hc as [_ Hv].
    pose proof (len_pos M HM) as PM. assert (P3 : (0 < M ^ 3)%R) by (apply pow_lt; exact PM).
    assert (K : (M ^ 3 / rho <= Rabs det)%R).
    { apply Rmult_le_reg_l with rho; [lra|]. unfold Rdiv. rewrite <- Rmult_assoc, (Rmult_comm rho (M ^ 3)), Rmult_assoc, Rinv_r by lra. lra. }
    split; [|exact K].
    assert (T : (Rabs det <= Rabs z + Rabs (z - det))%R).
    { replace det with (z - (z - det))%R at 1 by ring. eapply Rle_trans; [apply Rabs_triang|]. rewrite Rabs_Ropp. lra. }
    assert (Q : (M ^ 3 / (2 * rho) = M ^ 3 / rho * / 2)%R) by (field; lra). rewrite Q.
    assert (W : (41 * (eps * M ^ 3) <= M ^ 3 / rho * / 2)%R).
    { assert (Ir : (/ 100 <= / rho)%R) by (apply Rinv_le_contravar; lra). unfold Rdiv. rewrite (Rmult_comm eps).
      replace (41 * (M ^ 3 * eps))%R with (M ^ 3 * (41 * eps))%R by ring. rewrite Rmult_assoc. apply Rmult_le_compat_l; [lra|]. unfold eps. lra. }
    lra.
  Qed.
  Lemma quotient_value p q r s : good p -> good q -> good r -> good s -> exists z, fv (SFdiv fprec femax (minor p q r s) (mdet m)) z
    /\ (Rabs (z - (value p * value q - value r * value s) / det) * M <= 180 * (rho ^ 2 * eps))%R /\ (Rabs z * M <= 68 * rho ^ 2)%R.
  Proof.
    intros Hp Hq Hr Hs. destruct (minor_value p q r s Hp Hq Hr Hs) as (c & Fc & Dc & Bc). destruct det_bounds as (d & Fd & Dd & Bd & B0).
    set (c0 := (value p * value q - value r * value s)%R) in *. set (d0 := det) in *.
    pose proof (len_pos M HM) as PM. destruct eps_small as [E0 E1].
    assert (P2 : (0 < M ^ 2)%R) by (apply pow_lt; exact PM). assert (P3 : (0 < M ^ 3)%R) by (apply pow_lt; exact PM).
    assert (EP2 : (0 < eps * M ^ 2 <= / 1000000000 * M ^ 2)%R) by (split; [now apply Rmult_lt_0_compat|apply Rmult_le_compat_r; lra]).
    assert (Z3 : (Rabs c <= 3 * M ^ 2)%R) by (apply abs_le in Dc, Bc; apply abs_le; lra).
    assert (Pr : (0 < M ^ 3 / (2 * rho))%R) by (apply Rdiv_lt_0_compat; lra). assert (Pr0 : (0 < M ^ 3 / rho)%R) by (apply Rdiv_lt_0_compat; lra).
    assert (Nd : d <> 0%R) by (intros ->; rewrite Rabs_R0 in Bd; lra). assert (Nd0 : d0 <> 0%R) by (intros E; rewrite E, Rabs_R0 in B0; lra).
    assert (Id : (/ Rabs d <= 2 * rho / M ^ 3)%R).
    { apply Rle_trans with (/ (M ^ 3 / (2 * rho)))%R; [apply Rinv_le_contravar; lra|]. apply Req_le. field. split; [lra|]. lra. }
    assert (Id0 : (/ Rabs d0 <= rho / M ^ 3)%R).
    { apply Rle_trans with (/ (M ^ 3 / rho))%R; [apply Rinv_le_contravar; lra|]. apply Req_le. field. split; lra. }
    assert (Ip : (0 < / Rabs d)%R) by (apply Rinv_0_lt_compat, Rabs_pos_lt, Nd). assert (Ip0 : (0 < / Rabs d0)%R) by (apply Rinv_0_lt_compat, Rabs_pos_lt, Nd0).
    assert (M32 : (M ^ 3 = M ^ 2 * M)%R) by (cbn [pow]; ring).
    assert (Q : (Rabs (c / d) <= 6 * rho / M)%R).
    { unfold Rdiv at 1. rewrite Rabs_mult, Rabs_inv. apply Rle_trans with (3 * M ^ 2 * (2 * rho / M ^ 3))%R.
      - apply Rmult_le_compat; try apply Rabs_pos; auto; lra.
      - apply Req_le. rewrite M32. field. lra. }
    assert (RM : (1 <= rho / M * M)%R) by (unfold Rdiv; rewrite Rmult_assoc, Rinv_l; lra).
    assert (LB : (bpow radix2 (-1022) <= 6 * rho / M)%R).
    { destruct HM as [_ U]. apply Rle_trans with (/ bpow radix2 300)%R; [rewrite <- bpow_opp; apply bpow_le; lia|].
      apply Rle_trans with (/ M)%R; [apply Rinv_le_contravar; lra|]. unfold Rdiv. rewrite <- (Rmult_1_l (/ M)) at 1. apply Rmult_le_compat_r; [apply Rlt_le, Rinv_0_lt_compat, PM|lra]. }
    assert (UB : (6 * rho / M <= bpow radix2 1000)%R).
    { destruct HM as [L _]. apply Rle_trans with (bpow radix2 10 * / bpow radix2 (-300))%R.
      - change (bpow radix2 10) with 1024%R. unfold Rdiv. apply Rmult_le_compat; [lra|apply Rlt_le, Rinv_0_lt_compat, PM|lra|]. apply Rinv_le_contravar; [apply bpow_gt_0|exact L].
      - rewrite <- bpow_opp, <- bpow_plus. apply bpow_le. lia. }
    assert (G := fv_div _ _ _ _ Fc Fd Nd ltac:(lra)). assert (E := err_le _ _ LB Q).
    exists (rnd (c / d)). split; [exact G|].
    assert (R2 : (rho <= rho ^ 2)%R) by (cbn [pow]; rewrite Rmult_1_r; rewrite <- (Rmult_1_l rho) at 1; apply Rmult_le_compat_r; lra).
    assert (ER : (rho * eps <= rho ^ 2 * eps)%R) by (apply Rmult_le_compat_r; lra).
    assert (D1 : (Rabs (c / d - c0 / d0) * M <= 174 * (rho ^ 2 * eps))%R).
    { assert (Z : (c / d - c0 / d0 = (c - c0) / d - c0 * (d - d0) * / d * / d0)%R) by (field; now split). rewrite Z.
      eapply Rle_trans; [apply Rmult_le_compat_r; [lra|]; apply Rabs_triang|]. rewrite Rabs_Ropp. unfold Rdiv. rewrite !Rabs_mult, !Rabs_inv.
      apply Rle_trans with ((5 * (eps * M ^ 2) * (2 * rho / M ^ 3) + 2 * M ^ 2 * (41 * (eps * M ^ 3)) * (2 * rho / M ^ 3) * (rho / M ^ 3)) * M)%R.
      - apply Rmult_le_compat_r; [lra|]. apply Rplus_le_compat; repeat (apply Rmult_le_compat); auto using Rabs_pos; try lra; repeat apply Rmult_le_pos; try apply Rabs_pos; lra.
      - rewrite M32. apply Rle_trans with (10 * (rho * eps) + 164 * (rho ^ 2 * eps))%R; [|lra]. apply Req_le. field. lra. }
    assert (D2 : (Rabs (rnd (c / d) - c / d) * M <= 6 * (rho * eps))%R).
    { eapply Rle_trans; [apply Rmult_le_compat_r; [lra|exact E]|]. apply Req_le. field. lra. }
    split.
    - eapply Rle_trans; [apply Rmult_le_compat_r with (r2 := (Rabs (rnd (c / d) - c / d) + Rabs (c / d - c0 / d0))%R); [lra|]|lra].
      replace (rnd (c / d) - c0 / d0)%R with (rnd (c / d) - c / d + (c / d - c0 / d0))%R by ring. apply Rabs_triang.
    - assert (T : (Rabs (rnd (c / d)) <= Rabs (c / d) + Rabs (rnd (c / d) - c / d))%R).
      { replace (rnd (c / d)) with (c / d + (rnd (c / d) - c / d))%R at 1 by ring. apply Rabs_triang. }
      assert (Q' : (Rabs (c / d) * M <= 6 * rho)%R).
      { eapply Rle_trans; [apply Rmult_le_compat_r; [lra|exact Q]|]. apply Req_le. field. lra. }
      assert (EB : (rho * eps <= rho)%R) by (rewrite <- (Rmult_1_r rho) at 2; apply Rmult_le_compat_l; lra).
      apply Rle_trans with ((Rabs (c / d) + Rabs (rnd (c / d) - c / d)) * M)%R; [apply Rmult_le_compat_r; lra|]. lra.
  Qed.
  (** The exact inverse and the computed one. *)
  Definition cofactor (i j : axis) : R :=
    let e i j := value (cell_entry m i j) in
    match i, j with
    | AX, AX => e AY AY * e AZ AZ - e AY AZ * e AZ AY | AX, AY => e AX AZ * e AZ AY - e AX AY * e AZ AZ | AX, AZ => e AX AY * e AY AZ - e AX AZ * e AY AY
    | AY, AX => e AY AZ * e AZ AX - e AY AX * e AZ AZ | AY, AY => e AX AX * e AZ AZ - e AX AZ * e AZ AX | AY, AZ => e AX AZ * e AY AX - e AX AX * e AY AZ
    | AZ, AX => e AY AX * e AZ AY - e AY AY * e AZ AX | AZ, AY => e AX AY * e AZ AX - e AX AX * e AZ AY | AZ, AZ => e AX AX * e AY AY - e AX AY * e AY AX
    end%R.
  Lemma cofactor_inverse i j : det <> 0%R -> (along (fun l => value (cell_entry m i l)) (fun l j => cofactor l j / det) j = unit_entry i j)%R.
  Proof.
    intros H. unfold along. assert (Z : det = (value (cell_entry m AX AX) * cofactor AX AX + value (cell_entry m AX AY) * cofactor AY AX + value (cell_entry m AX AZ) * cofactor AZ AX)%R).
    { unfold cell_volume, stored_cell, stored, cofactor, cell_entry. cbn [mr0 mr1 mr2 vx vy vz part]. ring. }
    apply Rmult_eq_reg_r with det; [|exact H].
    assert (G : forall a b c, (det <> 0 -> (a / det + b / det + c / det) * det = a + b + c)%R) by (intros; now field).
    unfold Rdiv. rewrite <- !Rmult_assoc. fold (Rdiv (value (cell_entry m i AX) * cofactor AX j) det). fold (Rdiv (value (cell_entry m i AY) * cofactor AY j) det).
    fold (Rdiv (value (cell_entry m i AZ) * cofactor AZ j) det). rewrite G by exact H. rewrite Z. clear.
    destruct i, j; unfold unit_entry, cofactor; cbn [axis_number Nat.eqb]; ring.
  Qed.
  Lemma minv_any : exists li, minv m = Ok li /\ inverse_below (68 * rho ^ 2) M li m.
  Proof.
    destruct det_bounds as (d & Fd & Dd & Bd & B0). pose proof (len_pos M HM) as PM. assert (P3 : (0 < M ^ 3)%R) by (apply pow_lt; exact PM).
    assert (Pr : (0 < M ^ 3 / (2 * rho))%R) by (apply Rdiv_lt_0_compat; lra). assert (Pr0 : (0 < M ^ 3 / rho)%R) by (apply Rdiv_lt_0_compat; lra).
    assert (Nd : d <> 0%R) by (intros ->; rewrite Rabs_R0 in Bd; lra). assert (Nd0 : det <> 0%R) by (intros E; rewrite E, Rabs_R0 in B0; lra).
    exists (match minv m with Ok y => y | Raise _ => m end). unfold minv. rewrite (neqb_nonzero (mdet m) (proj1 Fd)) by (rewrite (proj2 Fd); exact Nd).
    split; [reflexivity|]. set (y := mkM _ _ _).
    assert (V : forall i j, exists z, fv (cell_entry y i j) z /\ (Rabs (z - cofactor i j / det) * M <= 180 * (rho ^ 2 * eps))%R /\ (Rabs z * M <= 68 * rho ^ 2)%R).
    { intros i j. assert (Q : forall p q r s : axis * axis, let f a := cell_entry m (fst a) (snd a) in
        exists z, fv (SFdiv fprec femax (minor (f p) (f q) (f r) (f s)) (mdet m)) z
        /\ (Rabs (z - (value (f p) * value (f q) - value (f r) * value (f s)) / det) * M <= 180 * (rho ^ 2 * eps))%R /\ (Rabs z * M <= 68 * rho ^ 2)%R).
      { intros. apply quotient_value; apply Hc. }
      destruct i, j; unfold cofactor.
      - exact (Q (AY, AY) (AZ, AZ) (AY, AZ) (AZ, AY)).
      - exact (Q (AX, AZ) (AZ, AY) (AX, AY) (AZ, AZ)).
      - exact (Q (AX, AY) (AY, AZ) (AX, AZ) (AY, AY)).
      - exact (Q (AY, AZ) (AZ, AX) (AY, AX) (AZ, AZ)).
      - exact (Q (AX, AX) (AZ, AZ) (AX, AZ) (AZ, AX)).
      - exact (Q (AX, AZ) (AY, AX) (AX, AX) (AY, AZ)).
      - exact (Q (AY, AX) (AZ, AY) (AY, AY) (AZ, AX)).
      - exact (Q (AX, AY) (AZ, AX) (AX, AX) (AZ, AY)).
      - exact (Q (AX, AX) (AY, AY) (AX, AY) (AY, AX)). }
    clearbody y. split.
    - intros i j. destruct (V i j) as (z & [F E] & _ & B). split; [exact F|]. rewrite E. exact B.
    - intros i j. unfold all_axes. cbn [map rsum fold_right]. fold (unit_entry i j). rewrite <- cofactor_inverse by exact Nd0.
      assert (B : forall l, (Rabs (value (cell_entry m i l) * (value (cell_entry y l j) - cofactor l j / det)) <= 180 * (rho ^ 2 * eps))%R).
      { intros l. destruct (V l j) as (z & [_ E] & B & _). rewrite E, Rabs_mult. eapply Rle_trans; [|exact B]. rewrite Rmult_comm.
        apply Rmult_le_compat_l; [apply Rabs_pos|]. apply Hc. }
      pose proof (B AX) as B1. pose proof (B AY) as B2. pose proof (B AZ) as B3. apply abs_le in B1, B2, B3.
      replace (68 * rho ^ 2 * / 2 ^ 50)%R with (544 * (rho ^ 2 * eps))%R by (unfold eps; field).
      assert (0 <= rho ^ 2 * eps)%R by (destruct eps_small; apply Rmult_le_pos; [apply pow_le; lra|lra]).
      unfold along. apply abs_le. rewrite !Rmult_minus_distr_l in *. lra.
  Qed.
End Inverse.

(** ** Rows and arrays *)
Lemma part_cart (l : M3 spec_float) v j : part (cart (stored_cell l) v) j = along (part v) (fun i j => value (cell_entry l i j)) j.
Proof. destruct j; reflexivity. Qed.
Lemma part_stored v i : part (stored v) i = value (part v i).
Proof. now destruct i. Qed.
Lemma part_minus3 u v i : part (minus3 u v) i = (part u i - part v i)%R.
Proof. now destruct i. Qed.
Lemma part_ivec k i : part (ivec k) i = IZR (part k i).
Proof. now destruct i. Qed.
Lemma part_vsum f t i : part (vsum f t) i = sum_to (fun s => part (f s) i) t.
Proof. induction t; [now destruct i|]. cbn [vsum sum_to]. rewrite <- IHt. now destruct i. Qed.
Lemma V3_parts (u v : V3 R) : (forall i, part u i = part v i) -> u = v.
Proof. intros H. apply V3_eq; [exact (H AX)|exact (H AY)|exact (H AZ)]. Qed.

(** The exact step. *)
Lemma clear_real margin l1 l2 c1 c2 ri (e : V3 R) (k : V3 Z) : (0 < margin)%R -> minv (stored_cell l2) = Ok ri ->
  cart (stored_cell l2) e = minus3 (cart (stored_cell l2) (stored c2)) (cart (stored_cell l1) (stored c1)) ->
  (forall i, Rabs (part e i - IZR (part k i)) <= / 2 - margin)%R ->
  tor_step (stored_cell l2) ri (cart (stored_cell l1) (stored c1)) (cart (stored_cell l2) (stored c2)) = cart (stored_cell l2) (minus3 e (ivec k)).
Proof.
  intros Hm Hi He Hk. destruct (minv_inv _ _ Hi) as (_ & H1 & _). unfold tor_step. rewrite <- He, H1, <- cart_minus. f_equal. f_equal. f_equal.
  unfold round3. pose proof (Hk AX) as K1. pose proof (Hk AY) as K2. pose proof (Hk AZ) as K3. cbn [part] in *. apply abs_le in K1, K2, K3.
  destruct k as [kx ky kz]. cbn [vx vy vz] in *. f_equal; apply Rfloor_unique; lra.
Qed.

Lemma C97_row M kappa n (cell li : nat -> M3 spec_float) (ri : nat -> M3 R) (c : nat -> V3 spec_float) :
  (powerRZ 2 (-300) <= M <= powerRZ 2 300)%R -> (1 <= kappa <= 2 ^ 20)%R -> Z.of_nat n <= 2 ^ 20 ->
  (forall f, (f <= n)%nat -> cell_below M (cell f) /\ inverse_below kappa M (li f) (cell f) /\ minv (stored_cell (cell f)) = Ok (ri f) /\ near_origin (c f)) ->
  (forall f, (f < n)%nat -> clear_step (kappa * / 2 ^ 44) (cell f) (cell (S f)) (c f) (c (S f))) ->
  exists row exact_row, get_disp_row (tab (S n) c) (tab (S n) cell) (tab (S n) li) = row
  /\ get_disp_row (tab (S n) (fun f => stored (c f))) (tab (S n) (fun f => stored_cell (cell f))) (tab (S n) ri) = exact_row
  /\ length row = n /\ length exact_row = n
  /\ forall t v w i, nth_error row t = Some v -> nth_error exact_row t = Some w ->
     finite_double (part v i) /\ (Rabs (value (part v i) - part w i) <= INR (S t) ^ 2 * / 2 ^ 45 * M)%R.
Proof.
  intros HM HK Hn Hf Hs. assert (HL : len M) by (unfold len; rewrite <- !(bpow_powerRZ radix2) in HM; exact HM).
  eexists. eexists. split; [reflexivity|]. split; [reflexivity|]. rewrite row_running, get_disp_row_fun. set (g := fun j : nat => _).
  set (s := fun f : nat => tor_step _ _ _ _). rewrite !tab_length. split; [reflexivity|]. split; [reflexivity|]. intros t v w i E W.
  assert (Ht : (t < n)%nat) by (rewrite <- (tab_length n (running g)); apply nth_error_Some; rewrite E; discriminate).
  rewrite tab_nth_error in E by exact Ht. rewrite tab_nth_error in W by exact Ht. injection E as <-. assert (W2 : vsum s (S t) = w) by congruence. clear W. subst w.
  assert (HN : (INR n <= 1048576)%R) by (rewrite INR_IZR_INZ; change 1048576%R with (IZR (2 ^ 20)); apply IZR_le; exact Hn).
  destruct (running_any g (fun f => part (s f) i) M i n HL HN) with (t := t) as (_ & r & [F V] & B); [|exact Ht|].
  - intros f Lf. unfold g, s. destruct (Hs f Lf) as (e & k & He & Hk).
    destruct (Hf f) as (A1 & _ & _ & A4); [lia|]. destruct (Hf (S f)) as (B1 & B2 & B3 & B4); [lia|].
    rewrite (clear_real (kappa * / 2 ^ 44) _ _ _ _ _ e k); [|lra|exact B3|exact He|apply Hk].
    rewrite part_cart.
    rewrite (along_ext _ (fun i => part e i - IZR (part k i))%R _ (fun i j => value (cell_entry (cell (S f)) i j)) i);
      [|intros; rewrite part_minus3, part_ivec; reflexivity|reflexivity].
    apply (any_move_value M kappa (cell f) (cell (S f)) (li (S f)) (c f) (c (S f)) HL ltac:(lra) A1 B1 B2 A4 B4 (part e) k).
    + intros j. apply (f_equal (fun v => part v j)) in He. rewrite part_minus3, !part_cart in He. rewrite He. unfold along. now rewrite !part_stored.
    + apply Hk.
    + intros j. destruct (Hk j) as [_ K]. eapply Rle_trans; [exact K|]. apply Req_le. unfold eps. field.
  - split; [exact F|]. rewrite V. rewrite part_vsum. eapply Rle_trans; [exact B|].
    replace (INR (S t) ^ 2 * / 2 ^ 45 * M)%R with (256 * (eps * M) * (INR (S t) * INR (S t)))%R by (unfold eps; field).
    pose proof (len_pos M HL) as PM. destruct eps_small as [E0 E1]. assert (0 < eps * M)%R by now apply Rmult_lt_0_compat.
    apply Rmult_le_compat_r; [apply Rmult_le_pos; apply pos_INR|lra].
Qed.

Lemma C97_proof M rho n natoms (cell : nat -> M3 spec_float) (c : nat -> nat -> V3 spec_float) :
  (powerRZ 2 (-300) <= M <= powerRZ 2 300)%R -> (1 <= rho <= 100)%R -> Z.of_nat n <= 2 ^ 20 ->
  (forall f, (f <= n)%nat -> compact_cell rho M (cell f)) -> (forall f a, (f <= n)%nat -> (a < natoms)%nat -> near_origin (c f a)) ->
  (forall f a, (f < n)%nat -> (a < natoms)%nat -> clear_step (68 * rho ^ 2 * / 2 ^ 44) (cell f) (cell (S f)) (c f a) (c (S f) a)) ->
  exists d x, get_disp (tab (S n) (fun f => tab natoms (c f))) (tab (S n) cell) = Ok d
  /\ get_disp (tab (S n) (fun f => tab natoms (fun a => stored (c f a)))) (tab (S n) (fun f => stored_cell (cell f))) = Ok x
  /\ a_obs d = n /\ a_obs x = n /\ shape (a_rows d) natoms n /\ shape (a_rows x) natoms n
  /\ forall a t v w i, arr_entry d a t = Some v -> arr_entry x a t = Some w ->
     finite_double (part v i) /\ (Rabs (value (part v i) - part w i) <= INR (S t) ^ 2 * / 2 ^ 45 * M)%R.
Proof.
  intros HM HR Hn Hc Ho Hs. assert (HL : len M) by (unfold len; rewrite <- !(bpow_powerRZ radix2) in HM; exact HM).
  pose (li f := match minv (cell f) with Ok y => y | Raise _ => cell f end).
  assert (HI : forall f, (f <= n)%nat -> minv (cell f) = Ok (li f) /\ inverse_below (68 * rho ^ 2) M (li f) (cell f)).
  { intros f Hf. destruct (minv_any M rho (cell f) HL HR (Hc f Hf)) as (y & E & K). unfold li. rewrite E. now split. }
  assert (EM : mapM minv (tab (S n) cell) = Ok (tab (S n) li)).
  { unfold tab. rewrite mapM_map. apply mapM_total. intros f Hf. apply in_seq in Hf. apply HI. lia. }
  destruct (mapM_minv_fun (fun f => stored_cell (cell f)) (S n)) as (ri & ER & Hri).
  { intros f Hf. destruct (det_bounds M rho (cell f) HL HR (Hc f ltac:(lia))) as (d & _ & _ & _ & B0). intros E. rewrite E, Rabs_R0 in B0.
    pose proof (len_pos M HL). assert (0 < M ^ 3 / rho)%R by (apply Rdiv_lt_0_compat; [apply pow_lt; lra|lra]). lra. }
  assert (KR : (1 <= 68 * rho ^ 2 <= 2 ^ 20)%R).
  { assert (1 <= rho ^ 2 <= 10000)%R; [|lra]. split; [replace 1%R with (1 ^ 2)%R by ring|replace 10000%R with (100 ^ 2)%R by ring]; apply pow_incr; lra. }
  assert (R0 : forall a, (a < natoms)%nat -> _) by
    (intros a Ha; exact (C97_row M (68 * rho ^ 2) n cell li ri (fun f => c f a) HM KR Hn
       (fun f Hf => conj (proj1 (Hc f Hf)) (conj (proj2 (HI f Hf)) (conj (Hri f (le_n_S _ _ Hf)) (Ho f a Hf Ha)))) (fun f Hf => Hs f a Hf Ha))).
  exists (mkArr n (tab natoms (fun a => get_disp_row (tab (S n) (fun f => c f a)) (tab (S n) cell) (tab (S n) li)))).
  exists (mkArr n (tab natoms (fun a => get_disp_row (tab (S n) (fun f => stored (c f a))) (tab (S n) (fun f => stored_cell (cell f))) (tab (S n) ri)))).
  split; [|split; [|split; [reflexivity|split; [reflexivity|split; [|split]]]]].
  - unfold get_disp. rewrite tab_S. rewrite <- (tab_S n (fun f => tab natoms (c f))).
    rewrite EM, !tab_length, Nat.eqb_refl. rewrite forallb_tab by (intros; rewrite tab_length; apply Nat.eqb_refl).
    cbn [guard bind]. f_equal. f_equal; [lia|]. apply map_seq_ext. intros a Ha.
    cbv beta. apply (f_equal (fun cs => get_disp_row cs (tab (S n) cell) (tab (S n) li))).
    etransitivity; [apply map_map|]. apply map_ext. intros f. now apply tab_nth.
  - rewrite (get_disp_fun natoms n (fun f a => stored (c f a)) (fun f => stored_cell (cell f)) ri ER).
    f_equal. f_equal. apply tab_ext. intros a Ha. now rewrite get_disp_row_fun.
  - cbn [a_rows]. split; [apply tab_length|]. apply Forall_forall. intros r Hr. unfold tab in Hr at 1. apply in_map_iff in Hr as (a & <- & Ha).
    apply in_seq in Ha. destruct (R0 a) as (row & xr & E & _ & L & _); [lia|]. rewrite E. exact L.
  - cbn [a_rows]. split; [apply tab_length|]. apply Forall_forall. intros r Hr. unfold tab in Hr at 1. apply in_map_iff in Hr as (a & <- & Ha).
    apply in_seq in Ha. destruct (R0 a) as (row & xr & _ & E & _ & L & _); [lia|]. rewrite E. exact L.
  - intros a t v w i E W. unfold arr_entry, entry in E, W. cbn [a_rows] in E, W.
    destruct (Nat.ltb_spec a natoms) as [Ha|Ha].
    + rewrite tab_nth_error in E by exact Ha. rewrite tab_nth_error in W by exact Ha. destruct (R0 a Ha) as (row & xr & Er & Ex & _ & _ & B). rewrite Er in E. rewrite Ex in W. exact (B t v w i E W).
    + rewrite (proj2 (nth_error_None _ _)) in E by (rewrite tab_length; exact Ha). discriminate.
Qed.

(** ** A fixed cell *)
Lemma axis_choice {T} (P : axis -> T -> Prop) : (forall i, exists k, P i k) -> exists k : V3 T, forall i, P i (part k i).
Proof. intros H. destruct (H AX) as [x X], (H AY) as [y Y], (H AZ) as [z Z]. exists (mkV x y z). now intros []. Qed.
Lemma plus_whole c (x : V3 R) : (forall i, is_integer (value (part c i) - part x i)) -> exists k, stored c = plus3 x (ivec k).
Proof.
  intros H. destruct (axis_choice (fun i k => (value (part c i) - part x i = IZR k)%R) H) as [k K]. exists k. apply V3_parts. intros i. specialize (K i).
  destruct i; cbn [part stored plus3 ivec vx vy vz] in *; lra.
Qed.
Lemma C97_fixed_proof M rho n natoms (cell : M3 spec_float) (c : nat -> nat -> V3 spec_float) (x : nat -> nat -> V3 R) :
  (powerRZ 2 (-300) <= M <= powerRZ 2 300)%R -> (1 <= rho <= 100)%R -> Z.of_nat n <= 2 ^ 20 -> compact_cell rho M cell ->
  (forall f a, (f <= n)%nat -> (a < natoms)%nat -> near_origin (c f a) /\ forall i, is_integer (value (part (c f a) i) - part (x f a) i)) ->
  (forall f a i, (f < n)%nat -> (a < natoms)%nat -> (Rabs (part (x (S f) a) i - part (x f a) i) <= / 2 - 68 * rho ^ 2 * / 2 ^ 44)%R) ->
  exists d, get_disp (tab (S n) (fun f => tab natoms (c f))) (tab (S n) (fun _ => cell)) = Ok d /\ a_obs d = n /\ shape (a_rows d) natoms n
  /\ forall a t v i, arr_entry d a t = Some v -> finite_double (part v i) /\
     (Rabs (value (part v i) - part (cart (stored_cell cell) (minus3 (x (S t) a) (x 0%nat a))) i) <= INR (S t) ^ 2 * / 2 ^ 45 * M)%R.
Proof.
  intros HM HR Hn Hc Ho Hx. assert (HL : len M) by (unfold len; rewrite <- !(bpow_powerRZ radix2) in HM; exact HM).
  assert (MP : (0 < 68 * rho ^ 2 * / 2 ^ 44)%R) by (repeat apply Rmult_lt_0_compat; try lra; apply pow_lt; lra).
  destruct (C97_proof M rho n natoms (fun _ => cell) c HM HR Hn (fun _ _ => Hc)) as (d & y & Ed & Ey & O & _ & Sd & Sy & B).
  - intros f a Hf Ha. now apply Ho.
  - intros f a Hf Ha. destruct (Ho f a) as [O1 I1]; [lia|exact Ha|]. destruct (Ho (S f) a) as [O2 I2]; [lia|exact Ha|].
    destruct (plus_whole _ _ I1) as [k1 E1], (plus_whole _ _ I2) as [k2 E2].
    exists (minus3 (stored (c (S f) a)) (stored (c f a))), (mkV (vx k2 - vx k1) (vy k2 - vy k1) (vz k2 - vz k1)). split; [apply cart_minus|].
    intros i. rewrite part_minus3, !part_stored. destruct (O1 i) as [_ A1], (O2 i) as [_ A2]. split; [apply abs_le in A1, A2; apply abs_le; lra|].
    rewrite <- !part_stored, E1, E2. eapply Rle_trans; [|exact (Hx f a i Hf Ha)]. apply Req_le, (f_equal Rabs).
    destruct i; cbn [part plus3 ivec vx vy vz]; rewrite minus_IZR; ring.
  - exists d. split; [exact Ed|]. split; [exact O|]. split; [exact Sd|]. intros a t v i E.
    assert (HA : (a < natoms)%nat /\ (t < n)%nat).
    { unfold arr_entry, entry in E. destruct Sd as [L F]. destruct (nth_error (a_rows d) a) as [r|] eqn:Er; [|discriminate].
      split; [rewrite <- L; apply nth_error_Some; congruence|]. rewrite Forall_forall in F. rewrite <- (F r (nth_error_In _ _ Er)). apply nth_error_Some. congruence. }
    destruct HA as [Ha Ht].
    assert (D0 : cell_volume (stored_cell cell) <> 0%R).
    { destruct (det_bounds M rho cell HL HR Hc) as (u & _ & _ & _ & B0). intros E0. rewrite E0, Rabs_R0 in B0.
      pose proof (len_pos M HL). assert (0 < M ^ 3 / rho)%R by (apply Rdiv_lt_0_compat; [apply pow_lt; lra|lra]). lra. }
    destruct (const_inv (stored_cell cell) (S n) D0) as (li & Hli & ER).
    rewrite (get_disp_fun natoms n (fun f a => stored (c f a)) (fun _ => stored_cell cell) (fun _ => li) ER) in Ey.
    match type of Ey with Ok ?z = Ok _ => assert (Z : y = z) by congruence; subst y; clear Ey end.
    apply (B a t v _ i E). unfold arr_entry. cbn [a_rows]. rewrite (tab_entry natoms n _ a t Ha Ht). f_equal.
    rewrite (vsum_ext _ (fun f => minus3 (cart (stored_cell cell) (x (S f) a)) (cart (stored_cell cell) (x f a)))).
    + rewrite (vsum_telescope (fun f => cart (stored_cell cell) (x f a))). now rewrite cart_minus.
    + intros f Hf. destruct (Ho f a) as [O1 I1]; [lia|exact Ha|]. destruct (Ho (S f) a) as [O2 I2]; [lia|exact Ha|].
      destruct (plus_whole _ _ I1) as [k1 E1], (plus_whole _ _ I2) as [k2 E2]. rewrite E1, E2.
      apply tor_step_recovers; [exact Hli|]. unfold within_half.
      pose proof (Hx f a AX ltac:(lia) Ha) as X1. pose proof (Hx f a AY ltac:(lia) Ha) as X2. pose proof (Hx f a AZ ltac:(lia) Ha) as X3.
      cbn [part minus3 vx vy vz] in *. apply abs_le in X1, X2, X3. lra.
Qed.
Lemma C97_inverse_proof M rho cell : (powerRZ 2 (-300) <= M <= powerRZ 2 300)%R -> (1 <= rho <= 100)%R -> compact_cell rho M cell ->
  exists li, minv cell = Ok li /\ inverse_below (68 * rho ^ 2) M li cell.
Proof. intros HM HR Hc. apply minv_any; auto. unfold len. rewrite <- !(bpow_powerRZ radix2) in HM. exact HM. Qed.

(** ** Witnesses *)
Definition slanted : M3 spec_float := let o := S754_zero false in
  mkM (mkV (SFofZ 4) o o) (mkV (SFofZ 2) (SFofZ 4) o) (mkV o o (SFofZ 4)).
Lemma small_value z : Z.abs z < 2 ^ 53 -> finite_double (SFofZ z) /\ value (SFofZ z) = IZR z.
Proof. exact (ofZ_small z). Qed.
Lemma zero_value : finite_double (S754_zero false) /\ value (S754_zero false) = 0%R.
Proof. exact zero_fv. Qed.
Ltac entries := intros [] []; cbn [cell_entry part mr0 mr1 mr2 vx vy vz];
  repeat match goal with
  | |- context [SFofZ ?z] => let F := fresh in let E := fresh in destruct (small_value z eq_refl) as [F E]; rewrite E; clear E; split; [exact F|]; rewrite Rabs_pos_eq; lra
  | |- context [S754_zero false] => let F := fresh in let E := fresh in destruct zero_value as [F E]; rewrite E; clear E; split; [exact F|]; rewrite Rabs_R0; lra
  end.
Lemma slanted_compact : compact_cell 1 4 slanted.
Proof.
  split; [unfold slanted; entries|].
  unfold cell_volume, stored_cell, stored, slanted. cbn [mr0 mr1 mr2 vx vy vz]. rewrite (proj2 (small_value 4 eq_refl)), (proj2 (small_value 2 eq_refl)), (proj2 zero_value).
  rewrite Rabs_pos_eq; lra.
Qed.
Lemma four_usual : (powerRZ 2 (-300) <= 4 <= powerRZ 2 300)%R.
Proof.
  rewrite <- !(bpow_powerRZ radix2). split.
  - apply Rle_trans with (bpow radix2 0); [apply bpow_le; lia|]. change (bpow radix2 0) with 1%R. lra.
  - apply Rle_trans with (bpow radix2 2); [change (bpow radix2 2) with 4%R; lra|]. apply bpow_le. lia.
Qed.
Lemma five_usual : (powerRZ 2 (-300) <= 5 <= powerRZ 2 300)%R.
Proof.
  destruct four_usual as [A _]. split; [lra|]. rewrite <- !(bpow_powerRZ radix2).
  apply Rle_trans with (bpow radix2 3); [change (bpow radix2 3) with 8%R; lra|]. apply bpow_le. lia.
Qed.
(** The second coordinate goes from 7/8 to 1/8 of the next cell. *)
Definition slipping (f a : nat) : V3 spec_float := mkV (eighths 1) (if Nat.eqb f 0 then eighths 7 else eighths 1) (S754_zero false).
Definition slipped (f a : nat) : V3 R := mkV (1 / 8)%R (if Nat.eqb f 0 then 7 / 8 else 9 / 8)%R 0%R.
Lemma slipping_ok f a : (f <= 1)%nat -> near_origin (slipping f a) /\ forall i, is_integer (value (part (slipping f a) i) - part (slipped f a) i).
Proof.
  intros Hf. destruct eighth7 as [F7 V7], eighth1 as [F1 V1], zero_value as [F0 V0]. unfold slipping, slipped, near_origin.
  assert (f = 0 \/ f = 1)%nat as [-> | ->] by lia; cbn [Nat.eqb]; (split; [intros []|intros []]; cbn [part vx vy vz]; rewrite ?V7, ?V1, ?V0;
    try (split; [assumption|rewrite Rabs_pos_eq; lra]); try (exists 0; cbn; lra); try (exists (-1); cbn; lra)).
Qed.
(** A cell that changes: 4 x 4 x 4, then (5, 0, 0), (2, 4, 0), (0, 0, 4). *)
Definition changing (f : nat) : M3 spec_float := let o := S754_zero false in
  match f with
  | O => mkM (mkV (SFofZ 4) o o) (mkV o (SFofZ 4) o) (mkV o o (SFofZ 4))
  | _ => mkM (mkV (SFofZ 5) o o) (mkV (SFofZ 2) (SFofZ 4) o) (mkV o o (SFofZ 4))
  end.
Lemma changing_compact f : compact_cell 2 5 (changing f).
Proof.
  destruct f as [|f]; (split; [unfold changing; entries|]); unfold cell_volume, stored_cell, stored, changing; cbn [mr0 mr1 mr2 vx vy vz];
  rewrite ?(proj2 (small_value 5 eq_refl)), (proj2 (small_value 4 eq_refl)), ?(proj2 (small_value 2 eq_refl)), (proj2 zero_value); rewrite Rabs_pos_eq; lra.
Qed.
Definition gliding (f a : nat) : V3 spec_float := mkV (if Nat.eqb f 0 then eighths 5 else eighths 6) (S754_zero false) (S754_zero false).
Lemma eighth5 : fv (eighths 5) (5 / 8).
Proof. split; [apply finite_compute; vm_compute; auto|]. change (eighths 5) with (S754_finite false 5629499534213120 (-53)). cbn [value]. rewrite powers. cbn. lra. Qed.
Lemma eighth6 : fv (eighths 6) (6 / 8).
Proof. split; [apply finite_compute; vm_compute; auto|]. change (eighths 6) with (S754_finite false 6755399441055744 (-53)). cbn [value]. rewrite powers. cbn. lra. Qed.
Lemma gliding_ok f a : near_origin (gliding f a).
Proof.
  destruct eighth5 as [F5 V5], eighth6 as [F6 V6], zero_value as [F0 V0]. unfold near_origin, gliding.
  destruct f; cbn [Nat.eqb]; intros []; cbn [part vx vy vz]; rewrite ?V5, ?V6, ?V0; (split; [assumption|rewrite Rabs_pos_eq; lra]).
Qed.
Lemma gliding_clear a : clear_step (68 * 2 ^ 2 * / 2 ^ 44) (changing 0) (changing 1) (gliding 0 a) (gliding 1 a).
Proof.
  exists (mkV (1 / 4)%R 0%R 0%R), (mkV 0 0 0). split.
  - unfold cart, minus3, stored_cell, stored, changing, gliding. cbn [mr0 mr1 mr2 vx vy vz Nat.eqb].
    rewrite (proj2 (small_value 5 eq_refl)), (proj2 (small_value 4 eq_refl)), (proj2 (small_value 2 eq_refl)), (proj2 zero_value), (proj2 eighth5), (proj2 eighth6).
    f_equal; lra.
  - intros []; cbn [part vx vy vz]; split; rewrite Rabs_pos_eq; lra.
Qed.
