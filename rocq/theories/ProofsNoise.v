(** * ProofsNoise: positions with uncorrelated errors (C119) *)
From Verif Require Import Base Spec SpecParser SpecStats SpecFit SpecAnalyzer ModelParser ModelDiffusion ModelHdf ModelAnalyzer
  Lemmas ProofsDisp ProofsIntervals ProofsWindows ProofsParser ProofsTraj ProofsBoot ProofsStats ProofsStats2 ProofsFit ProofsShape ProofsAnalyzer
  SpecRun SpecSym ProofsSym SpecGrid ProofsGrid SpecPool ProofsCollective ProofsPool SpecTrue ProofsTrue SpecColl ProofsColl ProofsUnwrap ProofsChain SpecStable ProofsStable SpecNoise.
From Coq Require Import Reals Lra Lia Sorting.Sorted.
Open Scope R_scope.

(** ** Averages *)
Section Expect.
  Context {E : Type} (es : list E) (w : E -> R).
  Notation ex := (expected es w).
  Lemma ex_ext h h' : (forall e, In e es -> h e = h' e) -> ex h = ex h'.
  Proof. intros H. unfold expected. f_equal. apply map_ext_in. intros e He. now rewrite H. Qed.
  Lemma ex_plus h h' : ex (fun e => h e + h' e) = ex h + ex h'.
  Proof. unfold expected. rewrite <- rsum_map_plus. f_equal. apply map_ext. intros e. ring. Qed.
  Lemma ex_scale c h : ex (fun e => c * h e) = c * ex h.
  Proof. unfold expected. rewrite <- rsum_map_scal. f_equal. apply map_ext. intros e. ring. Qed.
  Lemma ex_minus h h' : ex (fun e => h e - h' e) = ex h - ex h'.
  Proof. rewrite (ex_ext _ (fun e => h e + (-1) * h' e)) by (intros; ring). rewrite ex_plus, ex_scale. ring. Qed.
  Lemma ex_sum {T} (h : E -> T -> R) l : ex (fun e => rsum (map (h e) l)) = rsum (map (fun t => ex (fun e => h e t)) l).
  Proof.
    unfold expected. rewrite (map_ext _ (fun e => rsum (map (fun t => w e * h e t) l))) by (intros e; now rewrite rsum_map_scal).
    apply rsum_swap.
  Qed.
  Lemma ex_average {T} (h : E -> T -> R) l : ex (fun e => average (map (h e) l)) = average (map (fun t => ex (fun e => h e t)) l).
  Proof.
    unfold average. rewrite map_length, <- ex_sum. unfold Rdiv. rewrite Rmult_comm, <- ex_scale. apply ex_ext. intros e _. rewrite map_length. ring.
  Qed.
  Lemma ex_const c : rsum (map w es) = 1 -> ex (fun _ => c) = c.
  Proof. intros H. rewrite (ex_ext _ (fun _ => c * 1)) by (intros; ring). rewrite ex_scale. unfold expected. rewrite (map_ext _ w) by (intros; ring). rewrite H. ring. Qed.
  Lemma ex_square c A B : rsum (map w es) = 1 -> ex A = 0 -> ex B = 0 -> ex (fun e => A e * B e) = 0 ->
    ex (fun e => (c + (B e - A e)) * (c + (B e - A e))) = c * c + (ex (fun e => B e * B e) + ex (fun e => A e * A e)).
  Proof.
    intros Hw HA HB HAB. rewrite (ex_ext _ (fun e => c * c + (2 * c * B e + ((- 2 * c) * A e + (B e * B e + (A e * A e + (- 2) * (A e * B e))))))) by (intros; ring).
    rewrite !ex_plus, !ex_scale, ex_const, HA, HB, HAB by exact Hw. ring.
  Qed.
End Expect.

(** ** Linear combinations of the atoms' errors *)
Definition comb (l : list (R * nat)) (q : nat -> V3 R) (d : axis) : R := rsum (map (fun t => fst t * coord (q (snd t)) d) l).
Lemma comb_app l l' q d : comb (l ++ l')%list q d = comb l q d + comb l' q d.
Proof. unfold comb. now rewrite map_app, rsum_app. Qed.
Lemma comb_scale c l q d : comb (map (fun t => (c * fst t, snd t)) l) q d = c * comb l q d.
Proof. unfold comb. rewrite map_map, <- rsum_map_scal. f_equal. apply map_ext. intros t. cbn. ring. Qed.
(** The error of one atom relative to the framework. *)
Definition one_error (natoms : nat) (q : nat -> V3 R) (fw : list Z) (i : Z) : V3 R :=
  match fw with [] => q (site natoms i) | _ => minus3 (q (site natoms i)) (average3 (map (fun i => q (site natoms i)) fw)) end.
Definition weights_of (natoms : nat) (fw : list Z) (i : Z) : list (R * nat) :=
  (1, site natoms i) :: map (fun j => (- / INR (length fw), site natoms j)) fw.
Lemma coord_average (l : list (V3 R)) d : coord (average3 l) d = average (map (fun v => coord v d) l).
Proof. destruct d; reflexivity. Qed.
Lemma coord_sum3 (l : list (V3 R)) d : coord (sum3 l) d = rsum (map (fun v => coord v d) l).
Proof. destruct d; reflexivity. Qed.
Lemma coord_scale c v d : coord (scale3 c v) d = c * coord v d.
Proof. destruct d; reflexivity. Qed.
Lemma one_error_comb natoms q fw i d : coord (one_error natoms q fw i) d = comb (weights_of natoms fw i) q d.
Proof.
  unfold one_error, weights_of, comb. cbn [map rsum fst snd]. rewrite map_map. cbn [fst snd].
  rewrite (rsum_map_scal (- / INR (length fw)) (fun j => coord (q (site natoms j)) d)).
  destruct fw as [|j fw]; [cbn; ring|]. rewrite coord_minus, coord_average. unfold average. rewrite !map_length, map_map. unfold Rdiv. ring.
Qed.
Definition within (natoms : nat) (l : list (R * nat)) : Prop := Forall (fun t => (snd t < natoms)%nat) l.
Lemma weights_within natoms fw i : valid_site natoms i -> Forall (valid_site natoms) fw -> within natoms (weights_of natoms fw i).
Proof.
  intros Hi HF. constructor; [cbn; now apply ProofsDisp.site_lt|]. apply Forall_map. eapply Forall_impl; [|exact HF]. intros j Hj. cbn. now apply ProofsDisp.site_lt.
Qed.
Section Noisy.
  Context {E : Type} (es : list E) (w : E -> R) (axes : list axis) (natoms k T : nat) (noise : E -> nat -> nat -> V3 R).
  Hypothesis W : white_noise es w axes natoms k T noise.
  Notation ex := (expected es w).
  Notation at_ e f := (noise e (f * k)%nat).
  Lemma comb_mean l f d : within natoms l -> (f < T)%nat -> In d axes -> ex (fun e => comb l (at_ e f) d) = 0.
  Proof.
    intros HL Hf Hd. unfold comb. rewrite ex_sum. rewrite (map_ext_in _ (fun _ => 0)); [rewrite rsum_const; ring|].
    intros t Ht. unfold within in HL. rewrite Forall_forall in HL. rewrite ex_scale, (wn_mean _ _ _ _ _ _ _ W f (snd t) d Hf (HL t Ht) Hd). ring.
  Qed.
  Lemma comb_uncorrelated l f g d : within natoms l -> (f < T)%nat -> (g < T)%nat -> f <> g -> In d axes -> ex (fun e => comb l (at_ e f) d * comb l (at_ e g) d) = 0.
  Proof.
    intros HL Hf Hg Hfg Hd. unfold within in HL. rewrite Forall_forall in HL.
    rewrite (ex_ext _ _ _ (fun e => rsum (map (fun t => rsum (map (fun t' => fst t * fst t' * (coord (at_ e f (snd t)) d * coord (at_ e g (snd t')) d)) l)) l))).
    2:{ intros e _. unfold comb at 1. rewrite Rmult_comm, <- rsum_map_scal. f_equal. apply map_ext. intros t. unfold comb. rewrite Rmult_comm, <- rsum_map_scal.
        f_equal. apply map_ext. intros t'. ring. }
    rewrite ex_sum, (map_ext_in _ (fun _ => 0)); [rewrite rsum_const; ring|]. intros t Ht.
    rewrite ex_sum, (map_ext_in _ (fun _ => 0)); [rewrite rsum_const; ring|]. intros t' Ht'.
    rewrite ex_scale, (wn_uncorrelated _ _ _ _ _ _ _ W f g (snd t) (snd t') d Hf Hg Hfg (HL t Ht) (HL t' Ht') Hd). ring.
  Qed.
  (** A vector each of whose coordinates is a combination [l] of the atoms' errors. *)
  Lemma vector_square l (c : V3 R) (v : E -> nat -> V3 R) f g : within natoms l -> (f < T)%nat -> (g < T)%nat -> f <> g ->
    (forall e f d, coord (v e f) d = comb l (at_ e f) d) ->
    ex (fun e => sqlen axes (plus3 c (minus3 (v e g) (v e f)))) = sqlen axes c + (ex (fun e => sqlen axes (v e g)) + ex (fun e => sqlen axes (v e f))).
  Proof.
    intros HL Hf Hg Hfg Hv. unfold sqlen. rewrite !ex_sum, <- !rsum_map_plus. f_equal. apply map_ext_in. intros d Hd.
    rewrite (ex_ext _ _ _ (fun e => (coord c d + (comb l (at_ e g) d - comb l (at_ e f) d)) * (coord c d + (comb l (at_ e g) d - comb l (at_ e f) d)))).
    2:{ intros e _. now rewrite coord_plus, coord_minus, !Hv. }
    rewrite (ex_square es w (coord c d) (fun e => comb l (at_ e f) d) (fun e => comb l (at_ e g) d)).
    - f_equal. f_equal; apply ex_ext; intros e _; now rewrite Hv.
    - exact (wn_weights _ _ _ _ _ _ _ W).
    - now apply comb_mean.
    - now apply comb_mean.
    - now apply comb_uncorrelated.
  Qed.
End Noisy.

(** ** One window *)
Lemma relative_noise natoms (pos pos0 : nat -> nat -> V3 R) (N : nat -> nat -> V3 R) fw i f g : valid_site natoms i -> Forall (valid_site natoms) fw ->
  (forall b, (b < natoms)%nat -> pos f b = plus3 (pos0 f b) (N f b)) -> (forall b, (b < natoms)%nat -> pos g b = plus3 (pos0 g b) (N g b)) ->
  relative_displacement natoms pos fw (site natoms i) f g
  = plus3 (relative_displacement natoms pos0 fw (site natoms i) f g) (minus3 (one_error natoms (N g) fw i) (one_error natoms (N f) fw i)).
Proof.
  intros Hi HF Hf Hg. unfold relative_displacement, one_error.
  assert (Hs : (site natoms i < natoms)%nat) by now apply ProofsDisp.site_lt.
  destruct fw as [|j0 fw]; [rewrite (Hf _ Hs), (Hg _ Hs); v3eq|]. set (l := j0 :: fw) in *. clearbody l.
  rewrite (map_ext_in (fun i => minus3 (pos g (site natoms i)) (pos f (site natoms i)))
    (fun i => plus3 (minus3 (pos0 g (site natoms i)) (pos0 f (site natoms i))) (minus3 (N g (site natoms i)) (N f (site natoms i))))).
  2:{ intros j Hj. rewrite Forall_forall in HF. assert (Hj' : (site natoms j < natoms)%nat) by (apply ProofsDisp.site_lt; now apply HF). rewrite (Hf _ Hj'), (Hg _ Hj'). v3eq. }
  rewrite (average3_plus (fun i => minus3 (pos0 g (site natoms i)) (pos0 f (site natoms i))) (fun i => minus3 (N g (site natoms i)) (N f (site natoms i))) l).
  rewrite (average3_minus (fun i => N g (site natoms i)) (fun i => N f (site natoms i)) l).
  rewrite (Hf _ Hs), (Hg _ Hs). v3eq.
Qed.
Section Windows.
  Context {E : Type} (es : list E) (w : E -> R) (axes : list axis) (natoms k T : nat) (noise : E -> nat -> nat -> V3 R).
  Hypothesis W : white_noise es w axes natoms k T noise.
  Context (pos : E -> nat -> nat -> V3 R) (pos0 : nat -> nat -> V3 R) (idx fw : list Z).
  Hypothesis HP : forall e f b, In e es -> (f < T)%nat -> (b < natoms)%nat -> pos e (f * k)%nat b = plus3 (pos0 (f * k)%nat b) (noise e (f * k)%nat b).
  Hypothesis HI : Forall (valid_site natoms) idx.
  Hypothesis HF : Forall (valid_site natoms) fw.
  Notation ex := (expected es w).
  Notation err e f := (errors natoms (noise e (f * k)%nat) idx fw).
  Lemma relative_run e f g i : In e es -> (f < T)%nat -> (g < T)%nat -> In i idx ->
    relative_displacement natoms (pos e) fw (site natoms i) (f * k) (g * k)
    = plus3 (relative_displacement natoms pos0 fw (site natoms i) (f * k) (g * k)) (minus3 (one_error natoms (noise e (g * k)%nat) fw i) (one_error natoms (noise e (f * k)%nat) fw i)).
  Proof.
    intros He Hf Hg Hi. apply relative_noise; [|exact HF|intros b Hb; now apply HP|intros b Hb; now apply HP]. rewrite Forall_forall in HI. now apply HI.
  Qed.
  Lemma noise_square_between f g : (f < T)%nat -> (g < T)%nat -> f <> g ->
    ex (fun e => square_between axes natoms k (pos e) idx fw f g)
    = square_between axes natoms k pos0 idx fw f g + (ex (fun e => error_square axes (err e g)) + ex (fun e => error_square axes (err e f))).
  Proof.
    intros Hf Hg Hfg. unfold square_between, error_square, errors.
    rewrite (ex_ext es w (fun e => average (map (sqlen axes) _)) (fun e => average (map (fun i => sqlen axes (one_error natoms (noise e (g * k)%nat) fw i)) idx)))
      by (intros e _; rewrite map_map; reflexivity).
    rewrite (ex_ext es w (fun e => average (map (sqlen axes) _)) (fun e => average (map (fun i => sqlen axes (one_error natoms (noise e (f * k)%nat) fw i)) idx)))
      by (intros e _; rewrite map_map; reflexivity).
    rewrite !ex_average. unfold average. rewrite !map_length. unfold Rdiv. rewrite <- !Rmult_plus_distr_r. f_equal. rewrite <- !rsum_map_plus. f_equal.
    apply map_ext_in. intros i Hi. assert (Vi : valid_site natoms i) by (rewrite Forall_forall in HI; now apply HI).
    rewrite (ex_ext _ _ _ _ (fun e He => f_equal (sqlen axes) (relative_run e f g i He Hf Hg Hi))).
    apply (vector_square es w axes natoms k T noise W (weights_of natoms fw i) _ (fun e f => one_error natoms (noise e (f * k)%nat) fw i)); auto.
    - now apply weights_within.
    - intros. apply one_error_comb.
  Qed.
  (** Sums weighted with [c]. *)
  Notation weigh c l := (sum3 (map (fun p : R * V3 R => scale3 (fst p) (snd p)) (combine c l))).
  Definition weigh_comb (c : list R) (is : list Z) : list (R * nat) :=
    List.concat (map (fun p => map (fun t => (fst p * fst t, snd t)) (weights_of natoms fw (snd p))) (combine c is)).
  Lemma weigh_error (c : list R) q d : forall is, coord (weigh c (map (one_error natoms q fw) is)) d = comb (weigh_comb c is) q d.
  Proof.
    induction c as [|y c IH]; intros [|i is]; cbn [combine map List.concat weigh_comb]; try (rewrite coord_sum3; reflexivity).
    unfold weigh_comb in *. cbn [combine map List.concat fst snd]. rewrite comb_app, comb_scale, <- IH, <- one_error_comb, !coord_sum3. cbn [map rsum]. now rewrite coord_scale.
  Qed.
  Lemma weigh_within c : forall is, Forall (valid_site natoms) is -> within natoms (weigh_comb c is).
  Proof.
    induction c as [|y c IH]; intros [|i is] H; try (cbn; constructor; fail). inversion H as [|? ? Hi His]; subst. unfold within, weigh_comb in *. cbn [combine map List.concat fst snd]. apply Forall_app. split; [|now apply IH].
    apply Forall_map. cbn. exact (weights_within _ _ _ Hi HF).
  Qed.
  Lemma weigh_split (c : list R) (u v : Z -> V3 R) : forall is, weigh c (map (fun i => plus3 (u i) (v i)) is) = plus3 (weigh c (map u is)) (weigh c (map v is)).
  Proof.
    induction c as [|y c IH]; intros [|i is]; cbn [combine map]; [v3eq|v3eq|v3eq|]. rewrite !sum3_cons, IH. cbn [fst snd]. v3eq.
  Qed.
  Lemma weigh_minus (c : list R) (u v : Z -> V3 R) : forall is, weigh c (map (fun i => minus3 (u i) (v i)) is) = minus3 (weigh c (map u is)) (weigh c (map v is)).
  Proof.
    induction c as [|y c IH]; intros [|i is]; cbn [combine map]; [v3eq|v3eq|v3eq|]. rewrite !sum3_cons, IH. cbn [fst snd]. v3eq.
  Qed.
  Lemma noise_weighted c f g : (f < T)%nat -> (g < T)%nat -> f <> g ->
    ex (fun e => sqlen axes (weigh c (moves natoms k (pos e) idx fw f g)))
    = sqlen axes (weigh c (moves natoms k pos0 idx fw f g)) + (ex (fun e => sqlen axes (weigh c (err e g))) + ex (fun e => sqlen axes (weigh c (err e f)))).
  Proof.
    intros Hf Hg Hfg. rewrite (ex_ext _ _ _ (fun e => sqlen axes (plus3 (weigh c (moves natoms k pos0 idx fw f g)) (minus3 (weigh c (err e g)) (weigh c (err e f)))))).
    2:{ intros e He. f_equal. unfold moves. rewrite (map_ext_in _ _ _ (fun i Hi => relative_run e f g i He Hf Hg Hi)). now rewrite weigh_split, weigh_minus. }
    apply (vector_square es w axes natoms k T noise W (weigh_comb c idx) _ (fun e f => weigh c (err e f))); auto.
    - now apply weigh_within.
    - intros e f' d. apply weigh_error.
  Qed.
  Lemma noise_total_between f g : (f < T)%nat -> (g < T)%nat -> f <> g ->
    ex (fun e => total_between axes natoms k (pos e) idx fw f g)
    = total_between axes natoms k pos0 idx fw f g + (ex (fun e => error_total axes (err e g)) + ex (fun e => error_total axes (err e f))).
  Proof.
    intros Hf Hg Hfg. pose proof (noise_weighted (repeat 1 (length idx)) f g Hf Hg Hfg) as H. unfold total_between, error_total.
    assert (L : forall l : list (V3 R), length l = length idx -> weigh (repeat 1 (length idx)) l = sum3 l) by (intros l Hl; rewrite <- Hl; now rewrite weigh_ones).
    rewrite L in H by apply map_length.
    rewrite (ex_ext _ _ _ (fun e => sqlen axes (sum3 (moves natoms k (pos e) idx fw f g)))) in H by (intros e _; rewrite L; [reflexivity|apply map_length]).
    rewrite (ex_ext es w (fun e => sqlen axes (weigh _ (err e g))) (fun e => sqlen axes (sum3 (err e g)))) in H by (intros e _; rewrite L; [reflexivity|apply map_length]).
    rewrite (ex_ext es w (fun e => sqlen axes (weigh _ (err e f))) (fun e => sqlen axes (sum3 (err e f)))) in H by (intros e _; rewrite L; [reflexivity|apply map_length]).
    exact H.
  Qed.
End Windows.

(** ** All windows of an interval *)
Lemma noise_reported {E} (es : list E) w T m (B : E -> nat -> nat -> R) (B0 : nat -> nat -> R) s : (0 < m <= T)%nat -> rsum (map w es) = 1 ->
  (forall e f, B e f f = 0) -> (forall f, B0 f f = 0) ->
  (forall f g, (f < T)%nat -> (g < T)%nat -> f <> g -> expected es w (fun e => B e f g) = B0 f g + 2 * s) ->
  expected es w (fun e => reported T m (B e)) = reported T m B0 + added T m s.
Proof.
  intros Hm Hw HB HB0 H. rewrite reported_average by exact Hm.
  rewrite (ex_ext _ _ _ (fun e => / INR (S (T - m)) * rsum (map (fun o => B e (match o with O => 0 | S j => j end)%nat (match o with O => m - 1 | S j => j + m end)%nat) (seq 0 (S (T - m)))))).
  2:{ intros e _. rewrite reported_average by exact Hm. unfold average. rewrite map_length, seq_length. unfold Rdiv. apply Rmult_comm. }
  rewrite ex_scale, ex_sum. unfold average. rewrite map_length, seq_length. rewrite <- cons_seq. cbn [map rsum].
  rewrite (map_ext_in (fun t => expected es w _) (fun o => B0 (match o with O => 0 | S j => j end)%nat (match o with O => m - 1 | S j => j + m end)%nat + 2 * s)).
  2:{ intros [|o] Ho; apply in_seq in Ho; [lia|]. apply H; lia. }
  rewrite rsum_map_plus, rsum_const, seq_length. unfold added.
  assert (P : INR (S (T - m)) <> 0) by (apply not_0_INR; lia).
  destruct (Nat.eqb_spec m 1) as [->|M].
  - cbn [Nat.sub]. rewrite (ex_ext _ _ _ (fun _ => 0)) by (intros; apply HB). rewrite ex_const by exact Hw. rewrite HB0.
    replace (S (T - 1))%nat with T in * by lia. unfold Rdiv. ring.
  - rewrite H by lia. rewrite S_INR in *. field. exact P.
Qed.
Lemma relative_same natoms (pos : nat -> nat -> V3 R) fw b f : relative_displacement natoms pos fw b f f = zero3.
Proof.
  unfold relative_displacement. destruct fw as [|i0 fw]; [v3eq|]. set (l := i0 :: fw).
  rewrite (average3_minus (fun i => pos f (site natoms i)) (fun i => pos f (site natoms i)) l). v3eq.
Qed.
Lemma square_same axes natoms k pos idx fw f : square_between axes natoms k pos idx fw f f = 0.
Proof.
  unfold square_between, average. rewrite (map_ext _ (fun _ => 0)) by (intros i; now rewrite relative_same, sqlen_zero). rewrite rsum_const. unfold Rdiv. ring.
Qed.
Lemma total_same axes natoms k pos idx fw f : total_between axes natoms k pos idx fw f f = 0.
Proof. unfold total_between, moves. rewrite (map_ext _ (fun _ => zero3)) by (intros; apply relative_same). now rewrite sum3_zero, sqlen_zero. Qed.
Lemma charge_same q natoms k pos idx fw f : charge_between q natoms k pos idx fw f f = 0.
Proof.
  unfold charge_between, moves. rewrite (map_ext (fun i => relative_displacement natoms pos fw (site natoms i) (f * k) (f * k)) (fun _ => zero3)) by (intros; apply relative_same).
  assert (K : forall is : list Z, sum3 (map (fun p : R * V3 R => scale3 (fst p) (snd p)) (combine q (map (fun _ => zero3) is))) = zero3).
  { induction q as [|c q IH]; intros [|i is]; try reflexivity. specialize (IH is). unfold sum3 in *. cbn [combine map rsum fst snd] in *. injection IH as I1 I2 I3.
    rewrite I1, I2, I3. v3eq. }
  now rewrite K, sqlen_zero.
Qed.

(** ** The analysers *)
Open Scope Z_scope.
Section Analysers.
  Context {G Seed RS : Type} (X : Ext R G Seed RS) {E : Type} (es : list E) (w : E -> R) (x : E -> nat -> nat -> V3 R) (p : E -> Parsed R) (an : E -> Analyzer R) (v : E -> R).
  Context (y : nat -> nat -> V3 R) (p0 : Parsed R) (an0 : Analyzer R) (v0 : R) (noise : E -> nat -> nat -> V3 R).
  Context (i : interface) (circ : option (list R) -> list R -> Res R) (cell : M3 R) (types : list string) (vol : R) (n natoms k : nat) (a : ModelParser.Params R) (u : BootParams R).
  Hypotheses (F0 : faithful_read i circ cell types vol n natoms k y a p0) (F : forall e, In e es -> faithful_read i circ cell types vol n natoms k (x e) a (p e))
    (HX : forall e f b, In e es -> (f < kept n k)%nat -> (b < natoms)%nat -> cart cell (x e (f * k)%nat b) = plus3 (cart cell (y (f * k)%nat b)) (noise e (f * k)%nat b))
    (Hk : 0 < u_sub_sample_dt u) (Hb : u_block u = false).
  Notation err e f := (errors natoms (noise e (f * k)%nat) (p_indices p0) (p_drift_indices p0)).
  Notation T := (kept n k).
  Lemma C119_msd_proof axes j s : names (pystr_text (u_dimension u)) axes -> white_noise es w axes natoms k T noise ->
    (forall f, (f < T)%nat -> expected es w (fun e => error_square axes (err e f)) = s) ->
    (exists g g' t, diffusion_analyzer X (of_parsed p0) u g = Ok (an0, g') /\ nth_error (b_dt (an_diff an0)) j = Some t /\ nth_error (b_n (an_diff an0)) j = Some v0) ->
    (forall e, In e es -> exists g g' t, diffusion_analyzer X (of_parsed (p e)) u g = Ok (an e, g') /\ nth_error (b_dt (an_diff (an e))) j = Some t
       /\ nth_error (b_n (an_diff (an e))) j = Some (v e)) ->
    exists m, nth_error (p_intervals p0) (j * Z.to_nat (u_sub_sample_dt u)) = Some (Z.of_nat m) /\ (0 < m <= T)%nat /\ expected es w v = (v0 + added T m s)%R.
  Proof.
    intros Hn W Hs (g & g' & t & R1 & R2 & R3) R.
    destruct (C81_reported_proof X _ _ _ _ _ _ _ _ _ _ _ _ _ _ _ _ F0 Hk Hb Hn R1 j t R2) as (m & E1 & _ & Hm & E3). exists m. split; [exact E1|]. split; [exact Hm|].
    set (B := fun e => square_between axes natoms k (fun f b => cart cell (x e f b)) (p_indices p0) (p_drift_indices p0)).
    set (B0 := square_between axes natoms k (fun f b => cart cell (y f b)) (p_indices p0) (p_drift_indices p0)).
    assert (V0 : v0 = reported T m B0) by (rewrite R3 in E3; injection E3 as E3; exact E3).
    rewrite (ex_ext _ _ _ (fun e => reported T m (B e))).
    2:{ intros e He. destruct (R e He) as (h & h' & t' & Q1 & Q2 & Q3).
        destruct (C81_reported_proof X _ _ _ _ _ _ _ _ _ _ _ _ _ _ _ _ (F e He) Hk Hb Hn Q1 j t' Q2) as (m' & D1 & _ & _ & D3).
        destruct (same_reading _ _ _ _ _ _ _ _ _ _ _ _ _ _ _ F0 (F e He)) as (S1 & _ & S3 & S4).
        rewrite <- S1, E1 in D1. injection D1 as D1. apply Nat2Z.inj in D1. subst m'. rewrite <- S3, <- S4, Q3 in D3. injection D3 as D3. exact D3. }
    rewrite V0. apply noise_reported; [exact Hm|exact (wn_weights _ _ _ _ _ _ _ W)|intros; apply square_same|intros; apply square_same|].
    intros f h Hf Hh Hfh. unfold B, B0.
    rewrite (noise_square_between es w axes natoms k T noise W (fun e f b => cart cell (x e f b)) (fun f b => cart cell (y f b)) (p_indices p0) (p_drift_indices p0) HX
      (fr_indices _ _ _ _ _ _ _ _ _ _ _ F0) (fr_drift _ _ _ _ _ _ _ _ _ _ _ F0) f h Hf Hh Hfh).
    rewrite (Hs f Hf), (Hs h Hh). ring.
  Qed.
  Lemma C119_mstd_proof axes j s : names (pystr_text (u_dimension u)) axes -> white_noise es w axes natoms k T noise ->
    (forall f, (f < T)%nat -> expected es w (fun e => error_total axes (err e f)) = s) ->
    (exists g g' t, jump_diffusion_analyzer X (of_parsed p0) u g = Ok (an0, g') /\ nth_error (b_dt (an_diff an0)) j = Some t /\ nth_error (b_n (an_diff an0)) j = Some v0) ->
    (forall e, In e es -> exists g g' t, jump_diffusion_analyzer X (of_parsed (p e)) u g = Ok (an e, g') /\ nth_error (b_dt (an_diff (an e))) j = Some t
       /\ nth_error (b_n (an_diff (an e))) j = Some (v e)) ->
    exists m, nth_error (p_intervals p0) (j * Z.to_nat (u_sub_sample_dt u)) = Some (Z.of_nat m) /\ (0 < m <= T)%nat /\ expected es w v = (v0 + added T m s)%R.
  Proof.
    intros Hn W Hs (g & g' & t & R1 & R2 & R3) R.
    destruct (C85_mstd_proof X _ _ _ _ _ _ _ _ _ _ _ _ _ _ _ _ F0 Hk Hb Hn R1 j t R2) as (m & E1 & _ & Hm & E3). exists m. split; [exact E1|]. split; [exact Hm|].
    set (B := fun e => total_between axes natoms k (fun f b => cart cell (x e f b)) (p_indices p0) (p_drift_indices p0)).
    set (B0 := total_between axes natoms k (fun f b => cart cell (y f b)) (p_indices p0) (p_drift_indices p0)).
    assert (V0 : v0 = reported T m B0) by (cbv zeta in E3; rewrite R3 in E3; injection E3 as E3; exact E3).
    rewrite (ex_ext _ _ _ (fun e => reported T m (B e))).
    2:{ intros e He. destruct (R e He) as (h & h' & t' & Q1 & Q2 & Q3).
        destruct (C85_mstd_proof X _ _ _ _ _ _ _ _ _ _ _ _ _ _ _ _ (F e He) Hk Hb Hn Q1 j t' Q2) as (m' & D1 & _ & _ & D3).
        destruct (same_reading _ _ _ _ _ _ _ _ _ _ _ _ _ _ _ F0 (F e He)) as (S1 & _ & S3 & S4).
        rewrite <- S1, E1 in D1. injection D1 as D1. apply Nat2Z.inj in D1. subst m'. cbv zeta in D3. rewrite <- S3, <- S4, Q3 in D3. injection D3 as D3. exact D3. }
    rewrite V0. apply noise_reported; [exact Hm|exact (wn_weights _ _ _ _ _ _ _ W)|intros; apply total_same|intros; apply total_same|].
    intros f h Hf Hh Hfh. unfold B, B0.
    rewrite (noise_total_between es w axes natoms k T noise W (fun e f b => cart cell (x e f b)) (fun f b => cart cell (y f b)) (p_indices p0) (p_drift_indices p0) HX
      (fr_indices _ _ _ _ _ _ _ _ _ _ _ F0) (fr_drift _ _ _ _ _ _ _ _ _ _ _ F0) f h Hf Hh Hfh).
    rewrite (Hs f Hf), (Hs h Hh). ring.
  Qed.
  Lemma C119_mscd_proof q j s : (forall l, q = QArray l -> length l = length (p_indices p0)) -> white_noise es w all_axes natoms k T noise ->
    (forall f, (f < T)%nat -> expected es w (fun e => error_charge (charges q (length (p_indices p0))) (err e f)) = s) ->
    (exists g g' t, conductivity_analyzer X (of_parsed p0) q u g = Ok (an0, g') /\ nth_error (b_dt (an_diff an0)) j = Some t /\ nth_error (b_n (an_diff an0)) j = Some v0) ->
    (forall e, In e es -> exists g g' t, conductivity_analyzer X (of_parsed (p e)) q u g = Ok (an e, g') /\ nth_error (b_dt (an_diff (an e))) j = Some t
       /\ nth_error (b_n (an_diff (an e))) j = Some (v e)) ->
    exists m, nth_error (p_intervals p0) (j * Z.to_nat (u_sub_sample_dt u)) = Some (Z.of_nat m) /\ (0 < m <= T)%nat /\ expected es w v = (v0 + added T m s)%R.
  Proof.
    intros Hq W Hs (g & g' & t & R1 & R2 & R3) R.
    destruct (C85_mscd_proof X _ _ _ _ _ _ _ _ _ _ _ _ _ _ _ _ F0 Hk Hb Hq R1 j t R2) as (m & E1 & _ & Hm & E3). exists m. split; [exact E1|]. split; [exact Hm|].
    set (c := charges q (length (p_indices p0))) in *.
    set (B := fun e => charge_between c natoms k (fun f b => cart cell (x e f b)) (p_indices p0) (p_drift_indices p0)).
    set (B0 := charge_between c natoms k (fun f b => cart cell (y f b)) (p_indices p0) (p_drift_indices p0)).
    assert (V0 : v0 = reported T m B0) by (cbv zeta in E3; rewrite R3 in E3; injection E3 as E3; exact E3).
    rewrite (ex_ext _ _ _ (fun e => reported T m (B e))).
    2:{ intros e He. destruct (R e He) as (h & h' & t' & Q1 & Q2 & Q3).
        destruct (same_reading _ _ _ _ _ _ _ _ _ _ _ _ _ _ _ F0 (F e He)) as (S1 & _ & S3 & S4).
        assert (Hq' : forall l, q = QArray l -> length l = length (p_indices (p e))) by (rewrite <- S3; exact Hq).
        destruct (C85_mscd_proof X _ _ _ _ _ _ _ _ _ _ _ _ _ _ _ _ (F e He) Hk Hb Hq' Q1 j t' Q2) as (m' & D1 & _ & _ & D3).
        rewrite <- S1, E1 in D1. injection D1 as D1. apply Nat2Z.inj in D1. subst m'. cbv zeta in D3. rewrite <- S3, <- S4, Q3 in D3. injection D3 as D3. exact D3. }
    rewrite V0. apply noise_reported; [exact Hm|exact (wn_weights _ _ _ _ _ _ _ W)|intros; apply charge_same|intros; apply charge_same|].
    intros f h Hf Hh Hfh. unfold B, B0, charge_between.
    rewrite (noise_weighted es w all_axes natoms k T noise W (fun e f b => cart cell (x e f b)) (fun f b => cart cell (y f b)) (p_indices p0) (p_drift_indices p0) HX
      (fr_indices _ _ _ _ _ _ _ _ _ _ _ F0) (fr_drift _ _ _ _ _ _ _ _ _ _ _ F0) c f h Hf Hh Hfh).
    unfold error_charge in Hs. rewrite (Hs f Hf), (Hs h Hh). ring.
  Qed.
End Analysers.

(** ** The line *)
Lemma residuals_shift dt g c d : forall ns, residuals dt (map (Rplus d) ns) g (c + d)%R = residuals dt ns g c.
Proof.
  unfold residuals. induction dt as [|t dt IH]; intros [|y ns]; cbn [map combine]; [reflexivity..|]. rewrite IH. f_equal. cbn. ring.
Qed.
Lemma C119_line_proof W dt ns g c d : gls_solution W dt (map (Rplus d) ns) g (c + d)%R <-> gls_solution W dt ns g c.
Proof. unfold gls_solution. now rewrite residuals_shift. Qed.
Lemma C119_origin_proof : exists W dt ns d g g', positive_definite W /\ gls_solution_no_intercept W dt ns g /\ gls_solution_no_intercept W dt (map (Rplus d) ns) g' /\ g' <> g.
Proof.
  exists [[1;0];[0;1]]%R, [1;2]%R, [1;2]%R, 1%R, 1%R, (8/5)%R. split; [|split; [|split]].
  - intros z L (i & Hi & Hz). destruct z as [|z0 [|z1 [|]]]; try discriminate. cbn in L. unfold quadratic, bilinear, vec_entry in *. cbn in *.
    destruct i as [|[|i]]; cbn in Hz; [| |lia].
    + assert (0 < z0 * z0)%R by nra. nra.
    + assert (0 < z1 * z1)%R by nra. nra.
  - unfold gls_solution_no_intercept, residuals, bilinear. cbn. lra.
  - unfold gls_solution_no_intercept, residuals, bilinear. cbn. lra.
  - lra.
Qed.

(** ** An example: a Li atom moving steadily, with errors of 1/10 to the right or left in each frame *)
Definition four : list (bool * (bool * bool * bool)) := (map (pair true) tosses ++ map (pair false) tosses)%list.
Definition shaken (e : bool * (bool * bool * bool)) (f : nat) : R :=
  let '(a, (b, c, d)) := e in match f with O => toss a | S O => toss b | S (S O) => toss c | S (S (S O)) => toss d | _ => 0 end%R.
Definition shaken_walk e (f : nat) : R := (steady f + shaken e f)%R.
Lemma shaken_gentle e : gentle (shaken_walk e).
Proof.
  intros f. unfold shaken_walk, steady. rewrite S_INR. assert (B : forall f, (- (1/10) <= shaken e f <= 1/10)%R).
  { clear. destruct e as [a [[b c] d]]. intros [|[|[|[|f]]]]; cbn [shaken]; [destruct a|destruct b|destruct c|destruct d|]; cbn [toss]; lra. }
  pose proof (B f). pose proof (B (S f)). lra.
Qed.
Definition li_noise e (f b : nat) : V3 R := walk (shaken e) f b.
Lemma li_white : white_noise four (fun _ => 1 / 16)%R all_axes 2 1 4 li_noise.
Proof.
  assert (M : forall b d e f, coord (li_noise e f b) d = match b, d with O, AX => shaken e f | _, _ => 0%R end) by (intros [|b] [] e f; reflexivity).
  split.
  - unfold four, tosses. cbn. lra.
  - intros f b d Hf Hb _. unfold expected. rewrite (map_ext _ _ (fun e => f_equal (Rmult (1 / 16)) (M b d e (f * 1)%nat))). rewrite Nat.mul_1_r.
    destruct b, d; try (unfold four, tosses; cbn; lra).
    destruct f as [|[|[|[|f]]]]; try (exfalso; lia); unfold four, tosses; cbn [map app shaken toss rsum]; lra.
  - intros f g b c d Hf Hg Hfg Hb Hc _. unfold expected. rewrite (map_ext _ _ (fun e => f_equal (Rmult (1 / 16)) (f_equal2 Rmult (M b d e (f * 1)%nat) (M c d e (g * 1)%nat)))).
    rewrite !Nat.mul_1_r. destruct b, c, d; try (unfold four, tosses; cbn; lra).
    destruct f as [|[|[|[|f]]]], g as [|[|[|[|g]]]]; try (exfalso; lia); unfold four, tosses; cbn [map app shaken toss rsum]; lra.
Qed.
Lemma li_square f : (f < 4)%nat -> expected four (fun _ => 1 / 16)%R (fun e => error_square all_axes (errors 2 (li_noise e (f * 1)%nat) [0] [1])) = (1 / 100)%R.
Proof.
  intros Hf. rewrite (ex_ext _ _ _ (fun e => shaken e f * shaken e f)%R).
  2:{ intros e _. rewrite Nat.mul_1_r. unfold error_square, errors, average. cbn [map length]. change (site 2 0) with 0%nat. change (site 2 1) with 1%nat.
      unfold average3, average, sqlen. cbn. field. }
  unfold expected. destruct f as [|[|[|[|f]]]]; try (exfalso; lia); unfold four, tosses; cbn [map app shaken toss rsum]; lra.
Qed.
Lemma C119_example_proof : forall G Seed RS (X : Ext R G Seed RS) circ (g : G), exists p an p0 an0,
  faithful_read Ase circ unit_cell ["Li"; "O"]%string 1%R 4 2 1 (walk steady) walk_params p0
  /\ diffusion_analyzer X (of_parsed p0) (demo_boot 1 "xyz") g = Ok (an0, g) /\ b_dt (an_diff an0) = [1; 2]%R /\ p_intervals p0 = [1; 2]
  /\ (forall e, In e four -> faithful_read Ase circ unit_cell ["Li"; "O"]%string 1%R 4 2 1 (walk (shaken_walk e)) walk_params (p e)
       /\ diffusion_analyzer X (of_parsed (p e)) (demo_boot 1 "xyz") g = Ok (an e, g) /\ b_dt (an_diff (an e)) = [1; 2]%R)
  /\ (forall e f b, cart unit_cell (walk (shaken_walk e) f b) = plus3 (cart unit_cell (walk steady f b)) (li_noise e f b))
  /\ white_noise four (fun _ => 1 / 16)%R all_axes 2 1 4 li_noise
  /\ (forall f, (f < 4)%nat -> expected four (fun _ => 1 / 16)%R (fun e => error_square all_axes (errors 2 (li_noise e (f * 1)%nat) (p_indices p0) (p_drift_indices p0))) = (1 / 100)%R).
Proof.
  intros G Seed RS X circ g.
  assert (L : forall es, exists p an, forall e, In e es -> walked X circ g (shaken_walk e) (p e) (an e)).
  { induction es as [|e0 es (p & an & IH)].
    - destruct (walk_run G Seed RS X circ g steady steady_gentle) as (p & an & _). exists (fun _ => p), (fun _ => an). intros e [].
    - destruct (walk_run G Seed RS X circ g _ (shaken_gentle e0)) as (p0 & an0 & W).
      assert (D : forall e : bool * (bool * bool * bool), {e = e0} + {e <> e0}) by (intros; repeat decide equality).
      exists (fun e => if D e then p0 else p e), (fun e => if D e then an0 else an e). intros e [<-|He].
      + destruct (D e0); [exact W|congruence].
      + destruct (D e) as [->|_]; [exact W|now apply IH]. }
  destruct (L four) as (p & an & K). destruct (walk_run G Seed RS X circ g steady steady_gentle) as (p0 & an0 & F0 & I1 & I2 & I3 & A & Ht).
  exists p, an, p0, an0. split; [exact F0|]. split; [exact A|]. split; [exact Ht|]. split; [exact I1|]. split; [|split; [|split]].
  - intros e He. destruct (K e He) as (F & _ & _ & _ & H & Ht'). auto.
  - intros e f b. unfold li_noise, shaken_walk, walk. destruct b; v3eq.
  - exact li_white.
  - rewrite I2, I3. exact li_square.
Qed.
Lemma C119_refuted_proof : forall G Seed RS (X : Ext R G Seed RS) circ (g : G), exists p an v p0 an0 v0,
  faithful_read Ase circ unit_cell ["Li"; "O"]%string 1%R 4 2 1 (walk steady) walk_params p0
  /\ diffusion_analyzer X (of_parsed p0) (demo_boot 1 "xyz") g = Ok (an0, g) /\ nth_error (b_n (an_diff an0)) 0 = Some v0
  /\ (forall e, In e four -> faithful_read Ase circ unit_cell ["Li"; "O"]%string 1%R 4 2 1 (walk (shaken_walk e)) walk_params (p e)
       /\ diffusion_analyzer X (of_parsed (p e)) (demo_boot 1 "xyz") g = Ok (an e, g) /\ nth_error (b_n (an_diff (an e))) 0 = Some (v e))
  /\ (forall e f b, cart unit_cell (walk (shaken_walk e) f b) = plus3 (cart unit_cell (walk steady f b)) (li_noise e f b))
  /\ white_noise four (fun _ => 1 / 16)%R all_axes 2 1 4 li_noise
  /\ (forall f, (f < 4)%nat -> expected four (fun _ => 1 / 16)%R (fun e => error_square all_axes (errors 2 (li_noise e (f * 1)%nat) (p_indices p0) (p_drift_indices p0))) = (1 / 100)%R)
  /\ expected four (fun _ => 1 / 16)%R v <> (v0 + 2 * (1 / 100))%R.
Proof.
  intros G Seed RS X circ g. destruct (C119_example_proof G Seed RS X circ g) as (p & an & p0 & an0 & F0 & A0 & T0 & I0 & K & HX & HW & HS).
  destruct (C81_reported_proof X _ _ _ _ _ _ _ _ _ _ _ (demo_boot 1 "xyz") _ _ _ _ F0 eq_refl eq_refl names_xyz A0 0%nat 1%R ltac:(now rewrite T0)) as (m & M1 & _ & _ & V0).
  cbv zeta in V0. match type of V0 with _ = Some ?z => set (v0 := z) in V0 end.
  exists p, an, (fun e => match nth_error (b_n (an_diff (an e))) 0 with Some z => z | None => 0%R end), p0, an0, v0.
  split; [exact F0|]. split; [exact A0|]. split; [exact V0|].
  assert (N : forall e, In e four -> exists z, nth_error (b_n (an_diff (an e))) 0 = Some z).
  { intros e He. destruct (K e He) as (F & A & Ht).
    destruct (C81_reported_proof X _ _ _ _ _ _ _ _ _ _ _ (demo_boot 1 "xyz") _ _ _ _ F eq_refl eq_refl names_xyz A 0%nat 1%R ltac:(now rewrite Ht)) as (m' & _ & _ & _ & V).
    eexists. exact V. }
  split; [|split; [exact HX|split; [exact HW|split; [exact HS|]]]].
  { intros e He. destruct (K e He) as (F & A & Ht). split; [exact F|]. split; [exact A|]. destruct (N e He) as (z & ->). reflexivity. }
  destruct (C119_msd_proof X four (fun _ => 1 / 16)%R (fun e => walk (shaken_walk e)) p an (fun e => match nth_error (b_n (an_diff (an e))) 0 with Some z => z | None => 0%R end)
    (walk steady) p0 an0 v0 li_noise Ase circ unit_cell ["Li"; "O"]%string 1%R 4%nat 2%nat 1%nat walk_params (demo_boot 1 "xyz") F0 (fun e He => proj1 (K e He)) (fun e f b _ _ _ => HX e _ b) eq_refl eq_refl
    all_axes 0%nat (1 / 100)%R names_xyz) as (m' & D1 & _ & D2).
  - rewrite kept_one. exact HW.
  - rewrite kept_one. exact HS.
  - exists g, g, 1%R. rewrite T0. auto.
  - intros e He. destruct (K e He) as (_ & A & Ht). exists g, g, 1%R. rewrite Ht. destruct (N e He) as (z & ->). auto.
  - rewrite I0 in D1. cbn in D1. injection D1 as D1. assert (m' = 1%nat) by lia. subst m'. rewrite D2, kept_one. unfold added. cbn. lra.
Qed.
