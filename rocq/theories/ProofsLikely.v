(** * ProofsLikely: the likelihood in double precision (C122) *)
From Verif Require Import Base ModelParser ModelDiffusion Spec SpecParser SpecStats SpecDouble SpecUnwrap SpecRun SpecRound SpecChain SpecCollRound Lemmas ProofsDisp ProofsParser ProofsWindows ProofsTraj ProofsFloat ProofsUnwrap ProofsBoot ProofsStats ProofsCollective ProofsRound ProofsSpread ProofsChain ProofsCollRound SpecLikely.
From Coq Require Import Reals Lra Lia Psatz Sorting.Permutation.
From Coq.Floats Require Import SpecFloat.
From Flocq Require Import Core.
Open Scope R_scope.

Definition u52 : R := / 4503599627370496.
Lemma u52_eps : u52 = 2 * eps.
Proof. unfold u52, eps. lra. Qed.
Lemma u52_pow : u52 = / 2 ^ 52.
Proof. unfold u52. f_equal. lra. Qed.
Definition low (B : R) : Prop := B = 0 \/ bpow radix2 (-1022) <= B.
(** [x] is [r] up to [k] 2^-52 times the size [B]. *)
Record close (k : R) (x : spec_float) (r B : R) : Prop := {
  cl_fin : finite_double x; cl_size : Rabs r <= B; cl_low : low B; cl_err : Rabs (value x - r) <= k * u52 * B }.
Lemma close_pos k x r B : close k x r B -> 0 <= B.
Proof. intros [_ H _ _]. pose proof (Rabs_pos r). lra. Qed.
Lemma close_le k k' x r B : k <= k' -> close k x r B -> close k' x r B.
Proof. intros L H. pose proof (close_pos _ _ _ _ H). destruct H as [A1 A2 A3 A4]. split; try assumption. eapply Rle_trans; [exact A4|]. apply Rmult_le_compat_r; [assumption|]. apply Rmult_le_compat_r; [unfold u52; lra|assumption]. Qed.
Lemma close_bound k x r B : 0 <= k <= 4194304 -> close k x r B -> Rabs (value x) <= (1 + k * u52) * B /\ (1 + k * u52) <= 1.00000001.
Proof.
  intros K [_ H _ E]. split; [|unfold u52; lra]. replace (value x) with (r + (value x - r)) by ring. eapply Rle_trans; [apply Rabs_triang|]. lra.
Qed.
Lemma round_err z r B : rounds z r -> Rabs r <= 2 * B -> low B -> B <= bpow radix2 999 -> finite_double z /\ Rabs (value z - r) <= u52 * B.
Proof.
  intros Hz Hr HL HB. assert (E : bpow radix2 1000 = 2 * bpow radix2 999) by (change 1000%Z with (999 + 1)%Z; rewrite bpow_plus_1; reflexivity).
  destruct (bounded_finite z r Hz) as [F V]; [lra|]. split; [exact F|]. rewrite V. destruct HL as [->|HL].
  - assert (r = 0) as -> by (pose proof (Rabs_pos r); destruct (Req_dec r 0) as [?|N]; [assumption|apply Rabs_pos_lt in N; lra]). rewrite rnd_0, Rminus_0_r, Rabs_R0. lra.
  - pose proof (err_le r (2 * B) ltac:(pose proof (bpow_gt_0 radix2 (-1022)); lra) Hr). rewrite u52_eps. lra.
Qed.
Lemma close_exact x B : finite_double x -> Rabs (value x) <= B -> low B -> close 0 x (value x) B.
Proof. intros F H L. split; try assumption. rewrite Rminus_diag_eq, Rabs_R0 by reflexivity. lra. Qed.
Lemma close_mul k1 k2 x y r s B1 B2 : 0 <= k1 <= 4194304 -> 0 <= k2 <= 4194304 -> close k1 x r B1 -> close k2 y s B2 -> low (B1 * B2) -> B1 * B2 <= bpow radix2 999 ->
  close (k1 + k2 + 2) (SFmul fprec femax x y) (r * s) (B1 * B2).
Proof.
  intros K1 K2 C1 C2 L U. pose proof (close_pos _ _ _ _ C1) as P1. pose proof (close_pos _ _ _ _ C2) as P2.
  destruct (close_bound _ _ _ _ K1 C1) as [M1 N1]. destruct (close_bound _ _ _ _ K2 C2) as [M2 N2].
  destruct C1 as [F1 S1 _ E1], C2 as [F2 S2 _ E2]. pose proof (Rmult_le_pos _ _ P1 P2) as P.
  assert (A : Rabs (value x * value y) <= 2 * (B1 * B2)).
  { rewrite Rabs_mult. eapply Rle_trans; [apply Rmult_le_compat; [apply Rabs_pos|apply Rabs_pos|exact M1|exact M2]|].
    replace ((1 + k1 * u52) * B1 * ((1 + k2 * u52) * B2)) with ((1 + k1 * u52) * (1 + k2 * u52) * (B1 * B2)) by ring. apply Rmult_le_compat_r; [exact P|].
    apply Rle_trans with (1.00000001 * 1.00000001); [|lra]. apply Rmult_le_compat; try assumption; unfold u52; lra. }
  destruct (round_err _ _ (B1 * B2) (mul_rounds x y F1 F2) A L U) as [F E]. split; [exact F| |exact L|].
  - rewrite Rabs_mult. apply Rmult_le_compat; auto using Rabs_pos.
  - assert (D : Rabs (value x * value y - r * s) <= (k1 + k2 + 1) * u52 * (B1 * B2)).
    { replace (value x * value y - r * s) with ((value x - r) * value y + r * (value y - s)) by ring. eapply Rle_trans; [apply Rabs_triang|]. rewrite !Rabs_mult.
      apply Rle_trans with (k1 * u52 * B1 * ((1 + k2 * u52) * B2) + B1 * (k2 * u52 * B2)).
      { apply Rplus_le_compat; apply Rmult_le_compat; auto using Rabs_pos. }
      assert (Q : k1 * u52 * k2 <= 1).
      { apply Rle_trans with (4194304 * u52 * 4194304); [|unfold u52; lra]. apply Rmult_le_compat; try lra; [apply Rmult_le_pos; unfold u52; lra|]. apply Rmult_le_compat_r; [unfold u52|]; lra. }
      assert (Q' : k1 * u52 * k2 * (u52 * (B1 * B2)) <= 1 * (u52 * (B1 * B2))) by (apply Rmult_le_compat_r; [apply Rmult_le_pos; [unfold u52; lra|exact P]|exact Q]).
      replace (k1 * u52 * B1 * ((1 + k2 * u52) * B2) + B1 * (k2 * u52 * B2)) with ((k1 + k2) * u52 * (B1 * B2) + k1 * u52 * k2 * (u52 * (B1 * B2))) by ring. lra. }
    replace (value (SFmul fprec femax x y) - r * s) with ((value (SFmul fprec femax x y) - value x * value y) + (value x * value y - r * s)) by ring.
    eapply Rle_trans; [apply Rabs_triang|]. lra.
Qed.
Lemma low_add B1 B2 : 0 <= B1 -> 0 <= B2 -> low B1 -> low B2 -> low (B1 + B2).
Proof. unfold low. intros H1 H2 [->|L1] [->|L2]; [left; lra|right; lra|right; lra|right; lra]. Qed.
Lemma close_sum_gen k r s (a b z : R) B1 B2 zf : 0 <= k <= 4194304 -> rounds zf (a + b) -> z = r + s ->
  0 <= B1 -> 0 <= B2 -> low B1 -> low B2 -> Rabs r <= B1 -> Rabs s <= B2 -> Rabs (a - r) <= k * u52 * B1 -> Rabs (b - s) <= k * u52 * B2 ->
  B1 + B2 <= bpow radix2 999 -> close (k + 1) zf z (B1 + B2).
Proof.
  intros K Rz -> P1 P2 L1 L2 S1 S2 E1 E2 U. pose proof (low_add _ _ P1 P2 L1 L2) as L.
  assert (Ku : k * u52 <= 1) by (unfold u52; lra).
  assert (D : Rabs (a + b - (r + s)) <= k * u52 * (B1 + B2)). { replace (a + b - (r + s)) with ((a - r) + (b - s)) by ring. eapply Rle_trans; [apply Rabs_triang|]. lra. }
  assert (A0 : Rabs (r + s) <= B1 + B2) by (eapply Rle_trans; [apply Rabs_triang|lra]).
  assert (A : Rabs (a + b) <= 2 * (B1 + B2)).
  { replace (a + b) with ((a + b - (r + s)) + (r + s)) by ring. eapply Rle_trans; [apply Rabs_triang|].
    assert (k * u52 * (B1 + B2) <= 1 * (B1 + B2)) by (apply Rmult_le_compat_r; lra). lra. }
  destruct (round_err _ _ (B1 + B2) Rz A L U) as [F E]. split; [exact F|exact A0|exact L|].
  replace (value zf - (r + s)) with ((value zf - (a + b)) + (a + b - (r + s))) by ring. eapply Rle_trans; [apply Rabs_triang|]. lra.
Qed.
Lemma close_add k x y r s B1 B2 : 0 <= k <= 4194304 -> close k x r B1 -> close k y s B2 -> B1 + B2 <= bpow radix2 999 -> close (k + 1) (SFadd fprec femax x y) (r + s) (B1 + B2).
Proof.
  intros K C1 C2 U. pose proof (close_pos _ _ _ _ C1) as P1. pose proof (close_pos _ _ _ _ C2) as P2. destruct C1 as [F1 S1 L1 E1], C2 as [F2 S2 L2 E2].
  now apply (close_sum_gen k r s (value x) (value y)); try assumption; [now apply add_rounds|].
Qed.
Lemma close_sub k x y r s B1 B2 : 0 <= k <= 4194304 -> close k x r B1 -> close k y s B2 -> B1 + B2 <= bpow radix2 999 -> close (k + 1) (SFsub fprec femax x y) (r - s) (B1 + B2).
Proof.
  intros K C1 C2 U. pose proof (close_pos _ _ _ _ C1) as P1. pose proof (close_pos _ _ _ _ C2) as P2. destruct C1 as [F1 S1 L1 E1], C2 as [F2 S2 L2 E2].
  apply (close_sum_gen k r (- s) (value x) (- value y)); try assumption; try (rewrite ?Rabs_Ropp; assumption).
  - now apply sub_rounds.
  - reflexivity.
  - replace (- value y - - s) with (- (value y - s)) by ring. now rewrite Rabs_Ropp.
Qed.
(** Sums of terms given as double, exact value and size. *)
Definition term := (spec_float * (R * R))%type.
Definition tcl (k : R) (p : term) : Prop := close k (fst p) (fst (snd p)) (snd (snd p)).
Definition texact (ps : list term) : R := rsum (map (fun p => fst (snd p)) ps).
Definition tsize (ps : list term) : R := rsum (map (fun p => snd (snd p)) ps).
Lemma tsize_pos k ps : Forall (tcl k) ps -> 0 <= tsize ps.
Proof. unfold tsize. induction 1 as [|p ps H _ IH]; cbn [map rsum]; [lra|]. apply close_pos in H. lra. Qed.
Lemma close_sum : forall h l s, sum_of h l s -> forall k ps, 0 <= k -> k + INR h <= 4194304 -> l = map fst ps -> Forall (tcl k) ps -> tsize ps <= bpow radix2 999 ->
  close (k + INR h) s (texact ps) (tsize ps).
Proof.
  intros h l s S. induction S as [h|h x|h l l' s s' _ IH1 _ IH2|h l l' s P _ IH]; intros k ps K0 K El Hps U.
  - symmetry in El. apply map_eq_nil in El. subst ps. unfold texact, tsize. cbn. split; [apply zero_fv|rewrite Rabs_R0; lra|now left|]. cbn. rewrite Rminus_0_r, Rabs_R0. lra.
  - destruct ps as [|p [|p' ps]]; try discriminate. injection El as ->. apply Forall_inv in Hps. unfold texact, tsize in *. cbn [map rsum] in *. rewrite !Rplus_0_r in *.
    apply close_le with k; [pose proof (pos_INR h); lra|exact Hps].
  - symmetry in El. apply map_eq_app in El as (ps1 & ps2 & -> & E1 & E2). apply Forall_app in Hps as [H1 H2].
    unfold texact, tsize in *. rewrite !map_app, !rsum_app in *. rewrite S_INR in *. pose proof (tsize_pos _ _ H1) as Q1. pose proof (tsize_pos _ _ H2) as Q2. unfold tsize in *. pose proof (pos_INR h).
    replace (k + (INR h + 1)) with (k + INR h + 1) by ring. apply close_add; [lra|apply IH1|apply IH2|exact U]; try (first [assumption|lra|now symmetry]).
  - subst l'. apply Permutation_map_inv in P as (ps' & -> & P).
    assert (E : tsize ps = tsize ps' /\ texact ps = texact ps') by (split; apply rsum_perm, Permutation_map, P). destruct E as [-> ->].
    apply IH; try assumption; [reflexivity| |].
    + rewrite Forall_forall in *. intros p Hp. apply Hps. eapply Permutation_in; [symmetry; exact P|exact Hp].
    + unfold tsize in *. erewrite rsum_perm; [exact U|]. apply Permutation_map. now symmetry.
Qed.

(** ** Products of lists of terms *)
Definition tmul (p q : term) : term := (SFmul fprec femax (fst p) (fst q), (fst (snd p) * fst (snd q), snd (snd p) * snd (snd q))).
Definition texactly (a : spec_float) : term := (a, (value a, Rabs (value a))).
Record good (k : R) (e : Z) (M : R) (p : term) : Prop := {
  g_close : tcl k p; g_low : snd (snd p) = 0 \/ bpow radix2 e <= snd (snd p); g_up : snd (snd p) <= M }.
Lemma good_pos k e M p : good k e M p -> 0 <= snd (snd p).
Proof. intros [H _ _]. exact (close_pos _ _ _ _ H). Qed.
Lemma low_product e1 e2 a b : (a = 0 \/ bpow radix2 e1 <= a) -> (b = 0 \/ bpow radix2 e2 <= b) -> a * b = 0 \/ bpow radix2 (e1 + e2) <= a * b.
Proof. intros [->|L1] [->|L2]; [left; ring..|]. right. rewrite bpow_plus. apply Rmult_le_compat; auto using bpow_ge_0. Qed.
Lemma low_of e B : (-1022 <= e)%Z -> (B = 0 \/ bpow radix2 e <= B) -> low B.
Proof. intros H [->|L]; [now left|]. right. eapply Rle_trans; [apply bpow_le; exact H|exact L]. Qed.
Lemma zip_fst P : forall Q, map fst (zip_with tmul P Q) = zip_with (SFmul fprec femax) (map fst P) (map fst Q).
Proof. unfold zip_with. induction P as [|p P IH]; intros [|q Q]; cbn; try reflexivity. f_equal. apply IH. Qed.
Lemma zip_exact P : forall Q, texact (zip_with tmul P Q) = rsum (zip_with Rmult (map (fun p => fst (snd p)) P) (map (fun p => fst (snd p)) Q)).
Proof. unfold texact, zip_with. induction P as [|p P IH]; intros [|q Q]; cbn; try reflexivity. f_equal. apply IH. Qed.
Lemma zip_size P : forall Q, tsize (zip_with tmul P Q) = rsum (zip_with Rmult (map (fun p => snd (snd p)) P) (map (fun p => snd (snd p)) Q)).
Proof. unfold tsize, zip_with. induction P as [|p P IH]; intros [|q Q]; cbn; try reflexivity. f_equal. apply IH. Qed.
Lemma good_mul k1 k2 e1 e2 M1 M2 p q : 0 <= k1 <= 4194304 -> 0 <= k2 <= 4194304 -> (-1022 <= e1 + e2)%Z -> M1 * M2 <= bpow radix2 999 ->
  good k1 e1 M1 p -> good k2 e2 M2 q -> good (k1 + k2 + 2) (e1 + e2) (M1 * M2) (tmul p q).
Proof.
  intros K1 K2 He HM H1 H2. pose proof (good_pos _ _ _ _ H1) as P1. pose proof (good_pos _ _ _ _ H2) as P2. destruct H1 as [C1 L1 U1], H2 as [C2 L2 U2].
  pose proof (low_product _ _ _ _ L1 L2) as L. assert (U : snd (snd p) * snd (snd q) <= M1 * M2) by (apply Rmult_le_compat; lra).
  split; cbn [tmul fst snd]; [|exact L|exact U]. apply close_mul; try assumption; [now apply (low_of (e1 + e2))|lra].
Qed.
Lemma good_sum k e M ps h s : 0 <= k -> k + INR h <= 4194304 -> 0 <= M -> INR (length ps) * M <= bpow radix2 999 -> Forall (good k e M) ps -> sum_of h (map fst ps) s ->
  good (k + INR h) e (INR (length ps) * M) (s, (texact ps, tsize ps)).
Proof.
  intros K K' HM U H S. assert (B : 0 <= tsize ps <= INR (length ps) * M).
  { unfold tsize. apply rsum_range; [exact HM|]. eapply Forall_impl; [|exact H]. intros p Hp. split; [exact (good_pos _ _ _ _ Hp)|exact (g_up _ _ _ _ Hp)]. }
  split; cbn [fst snd]; [|unfold tsize; apply rsum_low|apply B].
  - apply (close_sum h (map fst ps) s S k ps K K' eq_refl); [|lra]. eapply Forall_impl; [|exact H]. intros p. apply g_close.
  - apply Forall_map. eapply Forall_impl; [|exact H]. intros p Hp. split; [exact (good_pos _ _ _ _ Hp)|exact (g_low _ _ _ _ Hp)].
Qed.
Lemma zip_good k1 k2 e1 e2 M1 M2 P : forall Q, 0 <= k1 <= 4194304 -> 0 <= k2 <= 4194304 -> (-1022 <= e1 + e2)%Z -> M1 * M2 <= bpow radix2 999 ->
  Forall (good k1 e1 M1) P -> Forall (good k2 e2 M2) Q -> Forall (good (k1 + k2 + 2) (e1 + e2) (M1 * M2)) (zip_with tmul P Q).
Proof.
  intros Q K1 K2 He HM HP. revert Q. unfold zip_with. induction HP as [|p P Hp _ IH]; intros Q HQ; [constructor|]. destruct HQ as [|q Q Hq HQ]; [constructor|].
  cbn. constructor; [now apply good_mul|now apply IH].
Qed.
Lemma dot_good k1 k2 e1 e2 M1 M2 P Q h s : 0 <= k1 -> 0 <= k2 -> k1 + k2 + 2 + INR h <= 4194304 -> (-1022 <= e1 + e2)%Z -> 0 <= M1 -> 0 <= M2 -> (1 <= length P)%nat ->
  INR (length P) * (M1 * M2) <= bpow radix2 999 -> length P = length Q -> Forall (good k1 e1 M1) P -> Forall (good k2 e2 M2) Q ->
  sum_of h (zip_with (SFmul fprec femax) (map fst P) (map fst Q)) s ->
  good (k1 + k2 + 2 + INR h) (e1 + e2) (INR (length P) * (M1 * M2)) (s, (texact (zip_with tmul P Q), tsize (zip_with tmul P Q))).
Proof.
  intros K1 K2 K He H1 H2 HP U L GP GQ S. pose proof (pos_INR h). pose proof (Rmult_le_pos _ _ H1 H2) as HM.
  assert (M1 * M2 <= INR (length P) * (M1 * M2)).
  { rewrite <- (Rmult_1_l (M1 * M2)) at 1. apply Rmult_le_compat_r; [exact HM|]. now apply (le_INR 1). }
  assert (Z : length (zip_with tmul P Q) = length P) by (unfold zip_with; rewrite map_length, combine_length; lia).
  rewrite <- Z. apply good_sum; try lra; try (rewrite Z; lra).
  - apply zip_good; try assumption; lra.
  - now rewrite zip_fst.
Qed.
Lemma pow_bpow z : powerRZ 2 z = bpow radix2 z.
Proof. symmetry. exact (bpow_powerRZ radix2 z). Qed.
Lemma good_exactly e M x : (-1022 <= e)%Z -> finite_double x -> (value x = 0 \/ powerRZ 2 e <= Rabs (value x) <= M) -> 0 <= M -> good 0 e M (texactly x).
Proof.
  intros He F H HM. assert (L : Rabs (value x) = 0 \/ bpow radix2 e <= Rabs (value x)) by (rewrite <- pow_bpow; destruct H as [->|H]; [left; apply Rabs_R0|right; apply H]).
  split; cbn [texactly fst snd]; [|exact L|destruct H as [->|H]; [rewrite Rabs_R0; lra|apply H]].
  apply close_exact; cbn; [exact F|apply Rle_refl|exact (low_of _ _ He L)].
Qed.
Lemma tame_good x : tame x -> good 0 (-100) (bpow radix2 100) (texactly x).
Proof. intros [F H]. apply good_exactly; [lia|exact F| |apply bpow_ge_0]. rewrite <- (pow_bpow 100). exact H. Qed.
Lemma moderate_good x : moderate x -> good 0 (-300) (bpow radix2 300) (texactly x).
Proof. intros [F H]. apply good_exactly; [lia|exact F| |apply bpow_ge_0]. rewrite <- (pow_bpow 300). exact H. Qed.

(** ** The likelihood *)
Definition residual (g c t y : spec_float) : term :=
  (SFsub fprec femax (SFadd fprec femax (SFmul fprec femax g t) c) y,
   (value g * value t + value c - value y, Rabs (value g * value t) + Rabs (value c) + Rabs (value y))).
Lemma bpow_4 : bpow radix2 202 = 4 * bpow radix2 200.
Proof. change 202%Z with (2 + 200)%Z. rewrite bpow_plus. f_equal. Qed.
Lemma residual_good g c t y : tame g -> tame c -> tame t -> tame y -> good 4 (-200) (bpow radix2 202) (residual g c t y).
Proof.
  intros Hg Hc Ht Hy. apply tame_good in Hg, Hc, Ht, Hy.
  assert (B : bpow radix2 100 * bpow radix2 100 = bpow radix2 200) by now rewrite <- bpow_plus.
  assert (U : bpow radix2 202 <= bpow radix2 999) by (apply bpow_le; lia). assert (U1 : bpow radix2 100 <= bpow radix2 200) by (apply bpow_le; lia).
  pose proof bpow_4. pose proof (bpow_gt_0 radix2 200).
  assert (G1 : good (0 + 0 + 2) (-100 + -100) (bpow radix2 100 * bpow radix2 100) (tmul (texactly g) (texactly t))) by (apply good_mul; try assumption; try lra; lia).
  rewrite B in G1. change (-100 + -100)%Z with (-200)%Z in G1. destruct G1 as [C1 L1 M1]. destruct Hc as [Cc Lc Mc], Hy as [Cy Ly My].
  unfold tcl, tmul, texactly in *. cbn [fst snd] in *. rewrite <- Rabs_mult in *.
  pose proof (Rabs_pos (value g * value t)). pose proof (Rabs_pos (value c)). pose proof (Rabs_pos (value y)).
  assert (LL : bpow radix2 (-200) <= bpow radix2 (-100)) by (apply bpow_le; lia).
  unfold residual. split; cbn [fst snd].
  - unfold tcl. cbn [fst snd]. replace 4 with (0 + 0 + 2 + 1 + 1) by ring. apply close_sub; [lra| |apply close_le with 0; [lra|exact Cy]|lra].
    apply close_add; [lra|exact C1|apply close_le with 0; [lra|exact Cc]|lra].
  - destruct L1 as [->|L1]; [|right; lra]. destruct Lc as [->|Lc]; [|right; lra]. destruct Ly as [->|Ly]; [left; ring|right; lra].
  - lra.
Qed.
Definition residuals (g c : spec_float) (t y : list spec_float) : list term := zip_with (residual g c) t y.
Lemma residuals_good g c t y : tame g -> tame c -> Forall tame t -> Forall tame y -> Forall (good 4 (-200) (bpow radix2 202)) (residuals g c t y).
Proof.
  intros Hg Hc Ht. revert y. unfold residuals, zip_with. induction Ht as [|a t Ha _ IH]; intros y Hy; [constructor|]. destruct Hy as [|b y Hb Hy]; [constructor|].
  cbn. constructor; [now apply residual_good|now apply IH].
Qed.
Lemma residuals_fst g c t : forall y, map fst (residuals g c t y) = zip_with (fun t y => SFsub fprec femax (SFadd fprec femax (SFmul fprec femax g t) c) y) t y.
Proof. unfold residuals, zip_with. induction t as [|a t IH]; intros [|b y]; cbn; try reflexivity. f_equal. apply IH. Qed.
Lemma residuals_exact g c t : forall y, map (fun p => fst (snd p)) (residuals g c t y) = distances (value g) (value c) (map value t) (map value y).
Proof. unfold residuals, distances, zip_with. induction t as [|a t IH]; intros [|b y]; cbn; try reflexivity. f_equal. apply IH. Qed.
Lemma residuals_size g c t : forall y, map (fun p => snd (snd p)) (residuals g c t y) = sizes (value g) (value c) (map value t) (map value y).
Proof. unfold residuals, sizes, zip_with. induction t as [|a t IH]; intros [|b y]; cbn; try reflexivity. f_equal. apply IH. Qed.
Lemma residuals_length g c t y : length y = length t -> length (residuals g c t y) = length t.
Proof. intros L. unfold residuals, zip_with. rewrite map_length, combine_length. lia. Qed.
Lemma exactly_fst l : map fst (map texactly l) = l.
Proof. induction l as [|a l IH]; cbn; [reflexivity|]. now rewrite IH. Qed.
Definition row_term (D : list term) (row : list spec_float) (s : spec_float) : term := (s, (texact (zip_with tmul (map texactly row) D), tsize (zip_with tmul (map texactly row) D))).
Lemma rows_good h D w u : INR h <= 1048576 -> (1 <= length D)%nat -> INR (length D) <= 1048576 -> Forall (good 4 (-200) (bpow radix2 202)) D -> Forall (Forall moderate) w -> Forall (fun row => length row = length D) w ->
  Forall2 (fun row s => sum_of h (zip_with (SFmul fprec femax) row (map fst D)) s) w u ->
  Forall (good (6 + INR h) (-500) (bpow radix2 522)) (zip_with (row_term D) w u).
Proof.
  intros H1 HD HD' GD GW LW F. unfold zip_with. induction F as [|row s w u S F IH]; [constructor|]. apply Forall_cons_iff in GW as [G0 GW], LW as [L0 LW]. cbn. constructor; [|now apply IH].
  assert (H2 : INR (length D) <= bpow radix2 20) by (eapply Rle_trans; [exact HD'|]; cbn; lra).
  assert (B : bpow radix2 300 * bpow radix2 202 = bpow radix2 502) by now rewrite <- bpow_plus.
  assert (B' : INR (length (map texactly row)) * (bpow radix2 300 * bpow radix2 202) <= bpow radix2 522).
  { rewrite B, map_length, L0. change 522%Z with (20 + 502)%Z. rewrite (bpow_plus radix2 20 502). apply Rmult_le_compat_r; [apply bpow_ge_0|exact H2]. }
  assert (U : bpow radix2 522 <= bpow radix2 999) by (apply bpow_le; lia).
  assert (X : good (0 + 4 + 2 + INR h) (-300 + -200) (INR (length (map texactly row)) * (bpow radix2 300 * bpow radix2 202)) (s, (texact (zip_with tmul (map texactly row) D), tsize (zip_with tmul (map texactly row) D)))).
  { apply dot_good; [lra|lra|lra|lia|apply bpow_ge_0|apply bpow_ge_0|rewrite map_length; lia|lra|now rewrite map_length| |exact GD|now rewrite exactly_fst].
    apply Forall_map. eapply Forall_impl; [|exact G0]. exact moderate_good. }
  destruct X as [C L M].
  split; cbn [row_term fst snd] in *; [unfold row_term, tcl in *; cbn [fst snd] in *; replace (6 + INR h) with (0 + 4 + 2 + INR h) by ring; exact C|exact L|exact (Rle_trans _ _ _ M B')].
Qed.

Lemma form_exact D w u : length u = length w -> map (fun p => fst (snd p)) (zip_with (row_term D) w u) = map (fun row => rsum (zip_with Rmult row (map (fun p => fst (snd p)) D))) (map (map value) w).
Proof.
  revert u. unfold zip_with. induction w as [|row w IH]; intros [|s u] L; try discriminate; [reflexivity|]. cbn [map combine]. injection L as L. f_equal; [|now apply IH]. unfold row_term at 1. cbn [fst snd].
  pose proof (zip_exact (map texactly row) D) as E. unfold zip_with in *. rewrite E. rewrite !map_map. reflexivity.
Qed.
Lemma form_size D w u : length u = length w -> map (fun p => snd (snd p)) (zip_with (row_term D) w u) = map (fun row => rsum (zip_with Rmult row (map (fun p => snd (snd p)) D))) (map (map Rabs) (map (map value) w)).
Proof.
  revert u. unfold zip_with. induction w as [|row w IH]; intros [|s u] L; try discriminate; [reflexivity|]. cbn [map combine]. injection L as L. f_equal; [|now apply IH]. unfold row_term at 1. cbn [fst snd].
  pose proof (zip_size (map texactly row) D) as E. unfold zip_with in *. rewrite E. rewrite !map_map. reflexivity.
Qed.
Lemma rows_fst D w u : length u = length w -> map fst (zip_with (row_term D) w u) = u.
Proof. revert u. unfold zip_with. induction w as [|row w IH]; intros [|s u] L; try discriminate; cbn; [reflexivity|]. injection L as L. f_equal. now apply IH. Qed.
Lemma nilsum_close h s : sum_of h [] s -> 0 <= INR h <= 4194304 -> close (INR h) s 0 0.
Proof.
  intros S H. pose proof (close_sum h [] s S 0 [] (Rle_refl _) ltac:(lra) eq_refl (Forall_nil _) (bpow_ge_0 _ _)) as C. unfold texact, tsize in C. cbn [map rsum fold_right] in C. rewrite Rplus_0_l in C. exact C.
Qed.
Lemma number_le n : (Z.of_nat n <= 2 ^ 20)%Z -> INR n <= 1048576.
Proof. intros H. rewrite INR_IZR_INZ. apply IZR_le in H. exact H. Qed.
Lemma minus_half : fv (S754_finite true 4503599627370496 (-53)) (- / 2).
Proof. split; [split; [vm_compute; reflexivity|exact I]|]. vm_compute. lra. Qed.
Lemma C122_any_order_proof g c t y ld w v : usual_fit g c t y ld w -> computed_likelihood g c t y ld w v ->
  finite_double v /\ (Rabs (value v - gaussian_log (value g) (value c) (map value t) (map value y) (value ld) (map (map value) w))
    <= allowed_error (value g) (value c) (map value t) (map value y) (value ld) (map (map value) w))%R.
Proof.
  intros [[Hg Hc] Ht Hy Hl Hw Ly [Lw Lr] Hn] (d & u & q & -> & Hu & Hq & ->). apply number_le in Hn. set (n := length t) in *.
  set (D := residuals g c t y). assert (LD : length D = n) by now apply residuals_length. pose proof (residuals_good g c t y Hg Hc Ht Hy) as GD. fold D in GD.
  assert (Ed : map fst D = zip_with (fun t y => SFsub fprec femax (SFadd fprec femax (SFmul fprec femax g t) c) y) t y) by apply residuals_fst.
  change 53%Z with fprec in *. change 1024%Z with femax in *. rewrite <- Ed in Hu, Hq.
  assert (Lu : length u = length w) by (clear - Hu; induction Hu as [|? ? ? ? _ _ IH]; [reflexivity|cbn; now rewrite IH]).
  pose proof (pos_INR n) as Pn.
  assert (K : exists F Q, close (12 + 2 * INR n) q F Q /\ Q <= bpow radix2 744 /\ (Q = 0 \/ bpow radix2 (-700) <= Q)
     /\ F = form (map (map value) w) (distances (value g) (value c) (map value t) (map value y)) (distances (value g) (value c) (map value t) (map value y))
     /\ Q = form (map (map Rabs) (map (map value) w)) (sizes (value g) (value c) (map value t) (map value y)) (sizes (value g) (value c) (map value t) (map value y))).
  { set (U := zip_with (row_term D) w u). assert (LU : length U = n) by (unfold U, zip_with; rewrite map_length, combine_length; lia).
    assert (X : close (12 + 2 * INR n) q (texact (zip_with tmul D U)) (tsize (zip_with tmul D U)) /\ tsize (zip_with tmul D U) <= bpow radix2 744 /\ (tsize (zip_with tmul D U) = 0 \/ bpow radix2 (-700) <= tsize (zip_with tmul D U))).
    { destruct (Nat.eq_dec n 0) as [Z|Z].
      - assert (ED : D = []) by (destruct D; [reflexivity|cbn in LD; lia]). rewrite ED in Hq |- *. unfold zip_with, texact, tsize in *. cbn [combine map rsum fold_right] in *. split; [|split; [apply bpow_ge_0|now left]].
        apply close_le with (INR n); [lra|]. apply nilsum_close; [exact Hq|]. rewrite Z. cbn. lra.
      - assert (GU : Forall (good (6 + INR n) (-500) (bpow radix2 522)) U) by (apply rows_good; [lra|lia|rewrite LD; lra|exact GD|exact Hw|rewrite LD; exact Lr|exact Hu]).
        assert (B : bpow radix2 202 * bpow radix2 522 = bpow radix2 724) by (now rewrite <- bpow_plus).
        assert (B' : INR (length D) * (bpow radix2 202 * bpow radix2 522) <= bpow radix2 744).
        { rewrite B, LD. change 744%Z with (20 + 724)%Z. rewrite (bpow_plus radix2 20 724). apply Rmult_le_compat_r; [apply bpow_ge_0|]. eapply Rle_trans; [exact Hn|]. cbn. lra. }
        assert (B'' : bpow radix2 744 <= bpow radix2 999) by (apply bpow_le; lia).
        assert (X : good (4 + (6 + INR n) + 2 + INR n) (-200 + -500) (INR (length D) * (bpow radix2 202 * bpow radix2 522)) (q, (texact (zip_with tmul D U), tsize (zip_with tmul D U)))).
        { apply dot_good; [lra|lra|lra|lia|apply bpow_ge_0|apply bpow_ge_0|lia|lra|lia|exact GD|exact GU|unfold U; rewrite rows_fst by exact Lu; exact Hq]. }
        destruct X as [C L M]; unfold tcl in C; cbn [fst snd] in C, L, M. split; [|split; [exact (Rle_trans _ _ _ M B')|exact L]].
        replace (12 + 2 * INR n) with (4 + (6 + INR n) + 2 + INR n) by ring. exact C. }
    destruct X as (X1 & X2 & X3). exists (texact (zip_with tmul D U)), (tsize (zip_with tmul D U)). split; [exact X1|]. split; [exact X2|]. split; [exact X3|]. split.
    - rewrite zip_exact. unfold form. f_equal. f_equal; [apply residuals_exact|]. unfold U. rewrite form_exact by exact Lu. unfold D. now rewrite residuals_exact.
    - rewrite zip_size. unfold form. f_equal. f_equal; [apply residuals_size|]. unfold U. rewrite form_size by exact Lu. unfold D. now rewrite residuals_size. }
  destruct K as (F & Q & C & U & LQ & EF & EQ). unfold gaussian_log, allowed_error. rewrite <- EF, <- EQ, map_length. fold n. clear EF EQ.
  destruct (moderate_good ld Hl) as [Cl Ll Ul]. unfold tcl, texactly in Cl, Ll, Ul. cbn [fst snd] in Cl, Ll, Ul.
  pose proof (close_pos _ _ _ _ C) as PQ. pose proof (Rabs_pos (value ld)) as Pl.
  assert (E : bpow radix2 745 = 2 * bpow radix2 744) by (change 745%Z with (744 + 1)%Z; rewrite bpow_plus_1; reflexivity).
  assert (U1 : bpow radix2 300 <= bpow radix2 744) by (apply bpow_le; lia). assert (U2 : bpow radix2 745 <= bpow radix2 999) by (apply bpow_le; lia).
  assert (C2 : close (12 + 2 * INR n + 1) (SFadd fprec femax ld q) (value ld + F) (Rabs (value ld) + Q)) by (apply close_add; [lra|apply close_le with 0; [lra|exact Cl]|exact C|lra]).
  assert (Pd : 0 <= Rabs (value ld) + Q) by lra.
  assert (C3 : close (0 + (12 + 2 * INR n + 1) + 2) (SFmul fprec femax (S754_finite true 4503599627370496 (-53)) (SFadd fprec femax ld q)) (- / 2 * (value ld + F)) (/ 2 * (Rabs (value ld) + Q))).
  { destruct minus_half as [F0 V0]. apply close_mul; [lra|lra| |exact C2| |lra].
    - rewrite <- V0. apply close_exact; [exact F0|rewrite V0, Rabs_Ropp, Rabs_pos_eq; lra|]. right. apply Rle_trans with (bpow radix2 (-1)); [apply bpow_le; lia|cbn; lra].
    - assert (L : Rabs (value ld) + Q = 0 \/ bpow radix2 (-700) <= Rabs (value ld) + Q) by (assert (bpow radix2 (-700) <= bpow radix2 (-300)) by (apply bpow_le; lia); destruct Ll as [->|Ll]; destruct LQ as [->|LQ]; [left; ring|right; lra|right; lra|right; lra]).
      destruct L as [->|L]; [left; ring|]. right. apply Rle_trans with (/ 2 * bpow radix2 (-700)); [|lra]. replace (/ 2) with (bpow radix2 (-1)) by (cbn; lra). rewrite <- bpow_plus. apply bpow_le. lia. }
  destruct C3 as [F3 _ _ E3]. split; [exact F3|]. eapply Rle_trans; [exact E3|]. rewrite u52_pow. apply Req_le. ring.
Qed.

(** ** The code *)
Lemma below_zero g : finite_double g -> (value g < 0 -> SFltb g (S754_zero false) = true) /\ (0 <= value g -> SFltb g (S754_zero false) = false).
Proof.
  intros [_ F]. destruct g as [s| | |s m e]; try contradiction; cbn.
  - split; [lra|reflexivity].
  - pose proof (powerRZ_lt 2 e ltac:(lra)) as P. destruct s; (split; [|]); intros H; try reflexivity; exfalso.
    + assert (IZR (Z.neg m) * powerRZ 2 e < 0) by (rewrite <- (Rmult_0_l (powerRZ 2 e)); apply Rmult_lt_compat_r; [exact P|now apply IZR_lt]). lra.
    + assert (0 < IZR (Z.pos m) * powerRZ 2 e) by (apply Rmult_lt_0_compat; [now apply IZR_lt|exact P]). lra.
Qed.
Lemma zip_model g c t : forall y : list spec_float, zip_with nsub (map (fun x => nadd (nmul g x) c) t) y = zip_with (fun t y => SFsub 53 1024 (SFadd 53 1024 (SFmul 53 1024 g t) c) y) t y.
Proof. unfold zip_with. induction t as [|a t IH]; intros [|b y]; cbn [map combine]; try reflexivity. f_equal. apply IH. Qed.
Lemma rows_sums (d : list spec_float) w n : length d = n -> Forall (fun row => length row = n) w ->
  Forall2 (fun row s => sum_of n (zip_with (SFmul 53 1024) row d) s) w (mat_vec_mul w d).
Proof.
  intros L. induction 1 as [|row w Hr _ IH]; [constructor|]. cbn [mat_vec_mul map]. constructor; [|exact IH].
  assert (E : length (zip_with (SFmul 53 1024) row d) = n) by (unfold zip_with; rewrite map_length, combine_length; lia). rewrite <- E at 1. apply nsum_sum.
Qed.
Lemma model_computes g c t y ld w : length y = length t -> length w = length t -> Forall (fun row => length row = length t) w ->
  let diff := zip_with nsub (map (fun x => nadd (nmul g x) c) t) y in
  computed_likelihood g c t y ld w (nmul (nopp nhalf) (nadd ld (ModelDiffusion.dot diff (mat_vec_mul w diff)))).
Proof.
  intros Ly Lw Lr diff. assert (L : length diff = length t) by (unfold diff, zip_with; rewrite map_length, combine_length, map_length; lia).
  exists diff, (mat_vec_mul w diff), (ModelDiffusion.dot diff (mat_vec_mul w diff)). split; [apply zip_model|]. split; [now apply rows_sums|]. split.
  - unfold ModelDiffusion.dot. set (l := zip_with nmul diff (mat_vec_mul w diff)). change (zip_with (SFmul 53 1024) diff (mat_vec_mul w diff)) with l.
    assert (E : length l = length t) by (unfold l, zip_with, mat_vec_mul; rewrite map_length, combine_length, map_length; lia). rewrite <- E. apply nsum_sum.
  - reflexivity.
Qed.
Lemma C122_line_proof g c t y ld w : usual_fit g c t y ld w ->
  (value g < 0 -> log_likelihood t y ld w [g; c] = Ok None)
  /\ (0 <= value g -> exists v, log_likelihood t y ld w [g; c] = Ok (Some v) /\ finite_double v
      /\ Rabs (value v - gaussian_log (value g) (value c) (map value t) (map value y) (value ld) (map (map value) w))
         <= allowed_error (value g) (value c) (map value t) (map value y) (value ld) (map (map value) w)).
Proof.
  intros U. assert (H := U). destruct H as [[[Fg _] _] _ _ _ _ Ly [Lw Lr] _]. destruct (below_zero g Fg) as [B1 B2]. unfold log_likelihood. cbn [py_index]. split; intros H.
  - change (py_index [g; c] 0) with (Ok g). cbn [bind]. numSF. now rewrite (B1 H).
  - change (py_index [g; c] 0) with (Ok g). cbn [bind straight_line]. eexists. split.
    + change (nltb g n0) with (SFltb g (S754_zero false)). rewrite (B2 H). reflexivity.
    + apply C122_any_order_proof; [exact U|]. now apply model_computes.
Qed.
Lemma C122_origin_proof g t y ld w : usual_fit g (S754_zero false) t y ld w ->
  (value g < 0 -> log_likelihood t y ld w [g] = Ok None)
  /\ (0 <= value g -> exists v, log_likelihood t y ld w [g] = Ok (Some v) /\ finite_double v
      /\ Rabs (value v - gaussian_log (value g) 0 (map value t) (map value y) (value ld) (map (map value) w))
         <= allowed_error (value g) 0 (map value t) (map value y) (value ld) (map (map value) w)).
Proof. intros U. destruct (C122_line_proof _ _ _ _ _ _ U) as [H1 H2]. split; [exact H1|exact H2]. Qed.
Lemma C122_choice_proof g c h e t y ld w v v' : usual_fit g c t y ld w -> usual_fit h e t y ld w ->
  log_likelihood t y ld w [g; c] = Ok (Some v) -> log_likelihood t y ld w [h; e] = Ok (Some v') -> value v <= value v' ->
  let exactly g c := gaussian_log (value g) (value c) (map value t) (map value y) (value ld) (map (map value) w) in
  let allowed g c := allowed_error (value g) (value c) (map value t) (map value y) (value ld) (map (map value) w) in
  exactly g c <= exactly h e + (allowed g c + allowed h e).
Proof.
  intros U U' H H' L exactly allowed. unfold exactly, allowed. destruct (C122_line_proof _ _ _ _ _ _ U) as [A1 A2]. destruct (C122_line_proof _ _ _ _ _ _ U') as [A1' A2'].
  destruct (Rlt_or_le (value g) 0) as [N|N]; [rewrite (A1 N) in H; discriminate|]. destruct (Rlt_or_le (value h) 0) as [N'|N']; [rewrite (A1' N') in H'; discriminate|].
  destruct (A2 N) as (x & E & _ & D). destruct (A2' N') as (x' & E' & _ & D'). rewrite E in H. rewrite E' in H'. injection H as <-. injection H' as <-.
  apply Rabs_le_inv in D, D'. lra.
Qed.
(** One datum, lying so close to the line that its distance is lost. *)
Definition near_one : spec_float := S754_finite false 4503599627370496 (-112).    (* 2^-60 *)
Lemma near_one_value : value near_one = / 2 ^ 60.
Proof. unfold near_one. cbn [value]. replace (powerRZ 2 (-112)) with (/ 2 ^ 112) by reflexivity. replace (2 ^ 112) with (2 ^ 52 * 2 ^ 60) by (rewrite <- pow_add; reflexivity). replace (IZR (Z.pos 4503599627370496)) with (2 ^ 52) by lra. field; repeat split; apply pow_nonzero; lra. Qed.
Lemma one_value : finite_double (SFofZ 1) /\ value (SFofZ 1) = 1.
Proof. exact (ofZ_small 1 ltac:(reflexivity)). Qed.
Lemma moderate_small z : (Z.abs z <= 8)%Z -> moderate (SFofZ z).
Proof. apply moderate_int. Qed.
Lemma near_one_tame : tame near_one.
Proof.
  split; [split; [vm_compute; reflexivity|exact I]|]. right. rewrite near_one_value, Rabs_pos_eq by (left; apply Rinv_0_lt_compat, pow_lt; lra).
  change (powerRZ 2 (-100)) with (/ 2 ^ 100). split; [apply Rinv_le_contravar; [apply pow_lt; lra|apply Rle_pow; [lra|lia]]|].
  apply Rle_trans with 1; [rewrite <- Rinv_1; apply Rinv_le_contravar; [lra|apply pow_R1_Rle; lra]|]. change (powerRZ 2 100) with (2 ^ 100). apply pow_R1_Rle. lra.
Qed.
Lemma tame_ints l : Forall (fun z => Z.abs z <= 8)%Z l -> Forall tame (map SFofZ l).
Proof. intros H. apply Forall_map. eapply Forall_impl; [|exact H]. exact tame_int. Qed.
Lemma moderate_ints l : Forall (fun z => Z.abs z <= 8)%Z l -> Forall moderate (map SFofZ l).
Proof. intros H. apply Forall_map. eapply Forall_impl; [|exact H]. exact moderate_int. Qed.
Lemma C122_refuted_proof : exists g c t y ld w v, usual_fit g c t y ld w /\ log_likelihood t y ld w [g; c] = Ok (Some v)
  /\ value v = 0 /\ gaussian_log (value g) (value c) (map value t) (map value y) (value ld) (map (map value) w) < 0.
Proof.
  exists (SFofZ 1), near_one, [SFofZ 1], [SFofZ 1], (SFofZ 0), [[SFofZ 1]], (S754_zero true).
  split; [|split; [vm_compute; reflexivity|split; [reflexivity|]]].
  - split.
    + split; [apply tame_int; cbn; lia|exact near_one_tame].
    + apply (tame_ints [1%Z]). repeat constructor; cbn; lia.
    + apply (tame_ints [1%Z]). repeat constructor; cbn; lia.
    + apply moderate_int. cbn. lia.
    + constructor; [|constructor]. apply (moderate_ints [1%Z]). repeat constructor; cbn; lia.
    + reflexivity.
    + split; [reflexivity|repeat constructor].
    + cbn. lia.
  - cbn [map]. rewrite (proj2 one_value), near_one_value. replace (value (SFofZ 0)) with 0 by reflexivity. unfold gaussian_log, form, distances, zip_with. cbn [combine map fst snd rsum fold_right].
    assert (0 < / 2 ^ 60) by (apply Rinv_0_lt_compat, pow_lt; lra). set (r := / 2 ^ 60) in *. clearbody r. assert (0 < r * r) by now apply Rmult_lt_0_compat. lra.
Qed.
Lemma C122_example_proof : let t := [SFofZ 1; SFofZ 2] in let y := [SFofZ 2; SFofZ 5] in let w := [[SFofZ 2; SFofZ (-1)]; [SFofZ (-1); SFofZ 2]] in
  usual_fit (SFofZ 2) (SFofZ 1) t y (SFofZ 3) w /\ usual_fit (SFofZ 3) (S754_zero false) t y (SFofZ 3) w
  /\ exists v, log_likelihood t y (SFofZ 3) w [SFofZ 2; SFofZ 1] = Ok (Some v) /\ value v = - 5 / 2
  /\ gaussian_log 2 1 [1; 2] [2; 5] 3 [[2; -1]; [-1; 2]] = - 5 / 2.
Proof.
  intros t y w. assert (Z : tame (S754_zero false)) by (split; [apply zero_fv|now left]).
  split; [|split].
  1,2: split; [split; [apply tame_int; cbn; lia|first [exact Z|apply tame_int; cbn; lia]]
    |apply (tame_ints [1%Z; 2%Z]); repeat constructor; cbn; lia|apply (tame_ints [2%Z; 5%Z]); repeat constructor; cbn; lia|apply moderate_int; cbn; lia
    |constructor; [apply (moderate_ints [2%Z; (-1)%Z]); repeat constructor; cbn; lia|constructor; [apply (moderate_ints [(-1)%Z; 2%Z]); repeat constructor; cbn; lia|constructor]]
    |reflexivity|split; [reflexivity|repeat constructor]|cbn; lia].
  eexists. split; [vm_compute; reflexivity|]. split; [vm_compute; lra|]. unfold gaussian_log, form, distances, zip_with. cbn. lra.
Qed.
