(** * ProofsLaw: what measurements say about the laws (C106), default bounds (C107) *)
From Verif Require Import Base ModelArrhenius SpecArrhenius SpecLaw ProofsArrhenius.
From Coq Require Import Reals Lra Lia.
Open Scope R_scope.

Lemma inv_ne T1 T2 : 0 < T1 -> 0 < T2 -> T1 <> T2 -> / T1 - / T2 <> 0.
Proof.
  intros H1 H2 N E. apply N. apply Rmult_eq_reg_l with (/ T1 * / T2).
  - replace (/ T1 * / T2 * T1) with (/ T2) by (field; lra). replace (/ T1 * / T2 * T2) with (/ T1) by (field; lra). lra.
  - apply Rmult_integral_contrapositive_currified; apply Rinv_neq_0_compat; lra.
Qed.
Lemma ln_arr k T Ea pre : 0 < k -> 0 < T -> 0 < pre -> ln (arrhenius k T Ea pre) = ln pre - Ea / k * / T.
Proof. intros Hk HT Hp. rewrite C45_log_proof by assumption. unfold Rdiv. ring. Qed.
Lemma ln_super k T Ea pre T0 : 0 < k -> T0 < T -> 0 < pre -> ln (super_arrhenius k T Ea pre T0) = ln pre - Ea / k * / (T - T0).
Proof. intros Hk HT Hp. rewrite C45_super_shift_proof. apply ln_arr; lra. Qed.
Lemma arr_pos k T Ea pre : 0 < pre -> 0 < arrhenius k T Ea pre.
Proof. intros. apply Rmult_lt_0_compat; [assumption|apply exp_pos]. Qed.

(** *** Identifiability *)
Lemma C106_unique_proof k T1 T2 E E' p p' : 0 < k -> 0 < T1 -> 0 < T2 -> T1 <> T2 -> 0 < p -> 0 < p' ->
  arrhenius k T1 E p = arrhenius k T1 E' p' -> arrhenius k T2 E p = arrhenius k T2 E' p' -> E = E' /\ p = p'.
Proof.
  intros Hk H1 H2 N Hp Hp' A1 A2.
  assert (HE : E = E') by (rewrite (C45_recover_proof k T1 T2 E p), (C45_recover_proof k T1 T2 E' p') by assumption; now rewrite A1, A2).
  split; [exact HE|]. subst E'. unfold arrhenius in A1. apply Rmult_eq_reg_r in A1; [exact A1|]. pose proof (exp_pos (-1 * E / (k * T1))). lra.
Qed.
Lemma super_eq k T E E' p p' t t' : 0 < k -> t < T -> t' < T -> 0 < p -> 0 < p' ->
  super_arrhenius k T E p t = super_arrhenius k T E' p' t' -> ln p - E / k * / (T - t) = ln p' - E' / k * / (T - t').
Proof. intros. rewrite <- !ln_super by assumption. congruence. Qed.
Lemma C106_super_unique_proof k T1 T2 T3 E E' p p' t t' : 0 < k -> T1 <> T2 -> T2 <> T3 -> T1 <> T3 -> 0 < p -> 0 < p' -> 0 < E ->
  t < T1 -> t < T2 -> t < T3 -> t' < T1 -> t' < T2 -> t' < T3 ->
  super_arrhenius k T1 E p t = super_arrhenius k T1 E' p' t' -> super_arrhenius k T2 E p t = super_arrhenius k T2 E' p' t' ->
  super_arrhenius k T3 E p t = super_arrhenius k T3 E' p' t' -> E = E' /\ p = p' /\ t = t'.
Proof.
  intros Hk N12 N23 N13 Hp Hp' HE a1 a2 a3 b1 b2 b3 A1 A2 A3.
  pose proof A1 as A0.
  apply super_eq in A1, A2, A3; try assumption. set (e := E / k) in *. set (e' := E' / k) in *. set (q := ln p - ln p') in *.
  assert (He : 0 < e) by (now apply ratio_pos).
  (** e/(Ti-t) - e'/(Ti-t') = q at three temperatures *)
  assert (K : forall T, t < T -> t' < T -> ln p - e * / (T - t) = ln p' - e' * / (T - t') -> e * (T - t') - e' * (T - t) = q * ((T - t) * (T - t'))).
  { intros T h h' K. assert (Q : q = e * / (T - t) - e' * / (T - t')) by (unfold q; lra). rewrite Q. field. lra. }
  apply K in A1, A2, A3; try assumption. clear K.
  (** a polynomial of degree two in T with three roots *)
  set (f := fun T => q * ((T - t) * (T - t')) - (e * (T - t') - e' * (T - t))) in *.
  assert (F1 : f T1 = 0) by (unfold f; lra). assert (F2 : f T2 = 0) by (unfold f; lra). assert (F3 : f T3 = 0) by (unfold f; lra).
  assert (D12 : q * (T1 + T2 - t - t') - (e - e') = 0).
  { apply Rmult_eq_reg_l with (T1 - T2); [|lra]. transitivity (f T1 - f T2); [unfold f; ring|]. rewrite F1, F2. ring. }
  assert (D13 : q * (T1 + T3 - t - t') - (e - e') = 0).
  { apply Rmult_eq_reg_l with (T1 - T3); [|lra]. transitivity (f T1 - f T3); [unfold f; ring|]. rewrite F1, F3. ring. }
  assert (Q : q = 0). { apply Rmult_eq_reg_l with (T2 - T3); [|lra]. transitivity ((q * (T1 + T2 - t - t') - (e - e')) - (q * (T1 + T3 - t - t') - (e - e'))); [ring|]. rewrite D12, D13. ring. }
  assert (EE : e = e') by (rewrite Q in D12; lra).
  assert (TT : t = t'). { unfold f in F1. rewrite Q, <- EE in F1. apply Rmult_eq_reg_l with e; lra. }
  assert (EE' : E = E'). { apply Rmult_eq_reg_r with (/ k); [exact EE|]. apply Rinv_neq_0_compat. lra. }
  split; [exact EE'|]. split; [|exact TT].
  apply ln_inv; try assumption. unfold q in Q. lra.
Qed.
(** Two temperatures do not tell the three parameters. *)
Lemma C106_two_refuted_proof k : 0 < k -> exists T1 T2 E E' p p' t t', T1 <> T2 /\ 0 < E /\ 0 < E' /\ 0 < p /\ 0 < p' /\ 0 < t < T1 /\ t < T2 /\ 0 < t' < T1 /\ t' < T2
  /\ super_arrhenius k T1 E p t = super_arrhenius k T1 E' p' t' /\ super_arrhenius k T2 E p t = super_arrhenius k T2 E' p' t' /\ t <> t' /\ E <> E'.
Proof.
  intros Hk. (** T - t = 100, 200 and T - t' = 50, 150: 1/100 - 1/200 = 1/200 and 1/50 - 1/150 = 1/75 *)
  exists 300, 400, (8 * k), (3 * k), (exp 0), (exp (3 / 50 - 8 / 100)), 200, 250.
  pose proof (exp_pos 0) as P0. pose proof (exp_pos (3 / 50 - 8 / 100)) as P1.
  repeat split; try lra; try (apply Rmult_lt_0_compat; lra).
  - unfold super_arrhenius. rewrite <- !exp_plus. f_equal. field. lra.
  - unfold super_arrhenius. rewrite <- !exp_plus. f_equal. field. lra.
Qed.

(** *** Interpolation and extrapolation *)
Lemma place_convex T1 T2 T : 0 < T1 -> T1 < T2 -> / T = place T1 T2 T * / T1 + (1 - place T1 T2 T) * / T2.
Proof. intros H1 H2. unfold place. assert (N : / T1 - / T2 <> 0) by (apply inv_ne; lra). set (x := / T) in *. set (y := / T1) in *. set (z := / T2) in *. field. exact N. Qed.
Lemma place_range T1 T2 T : 0 < T1 -> T1 < T2 -> T1 <= T <= T2 -> 0 <= place T1 T2 T <= 1.
Proof.
  intros H1 H2 [HT HT']. unfold place. assert (P : 0 < / T1 - / T2) by (pose proof (inv_lt T1 T2 H1 H2); lra).
  assert (A : / T2 <= / T) by (apply Rinv_le_contravar; lra). assert (B : / T <= / T1) by (apply Rinv_le_contravar; lra).
  split; [apply Rmult_le_pos; [lra|]; left; now apply Rinv_0_lt_compat|].
  apply Rmult_le_reg_r with (/ T1 - / T2); [exact P|]. unfold Rdiv. rewrite Rmult_assoc, Rinv_l by lra. lra.
Qed.
Definition deviation (k E p E' p' T : R) : R := ln (arrhenius k T E' p') - ln (arrhenius k T E p).
Lemma deviation_mix k E p E' p' T1 T2 T : 0 < k -> 0 < T1 -> T1 < T2 -> 0 < T -> 0 < p -> 0 < p' ->
  deviation k E p E' p' T = place T1 T2 T * deviation k E p E' p' T1 + (1 - place T1 T2 T) * deviation k E p E' p' T2.
Proof.
  intros Hk H1 H2 HT Hp Hp'. unfold deviation. rewrite !ln_arr by lra. rewrite (place_convex T1 T2 T) at 1 2 by assumption. ring.
Qed.
Lemma C106_interpolation_proof k E p E' p' T1 T2 T eps : 0 < k -> 0 < T1 -> T1 < T2 -> T1 <= T <= T2 -> 0 < p -> 0 < p' ->
  Rabs (ln (arrhenius k T1 E' p') - ln (arrhenius k T1 E p)) <= eps -> Rabs (ln (arrhenius k T2 E' p') - ln (arrhenius k T2 E p)) <= eps ->
  Rabs (ln (arrhenius k T E' p') - ln (arrhenius k T E p)) <= eps.
Proof.
  intros Hk H1 H2 HT Hp Hp' A B. pose proof (place_range _ _ _ H1 H2 HT) as PR.
  fold (deviation k E p E' p' T1) in A. fold (deviation k E p E' p' T2) in B. fold (deviation k E p E' p' T).
  rewrite (deviation_mix k E p E' p' T1 T2 T) by lra. set (l := place T1 T2 T) in *.
  eapply Rle_trans; [apply Rabs_triang|]. rewrite !Rabs_mult, (Rabs_pos_eq l), (Rabs_pos_eq (1 - l)) by lra.
  replace eps with (l * eps + (1 - l) * eps) by ring. apply Rplus_le_compat; apply Rmult_le_compat_l; lra.
Qed.
Lemma C106_extrapolation_proof k E p E' p' T1 T2 T e1 e2 : 0 < k -> 0 < T1 -> T1 < T2 -> 0 < T -> 0 < p -> 0 < p' ->
  Rabs (ln (arrhenius k T1 E' p') - ln (arrhenius k T1 E p)) <= e1 -> Rabs (ln (arrhenius k T2 E' p') - ln (arrhenius k T2 E p)) <= e2 ->
  Rabs (ln (arrhenius k T E' p') - ln (arrhenius k T E p)) <= Rabs (place T1 T2 T) * e1 + Rabs (1 - place T1 T2 T) * e2.
Proof.
  intros Hk H1 H2 HT Hp Hp' A B.
  fold (deviation k E p E' p' T1) in A. fold (deviation k E p E' p' T2) in B. fold (deviation k E p E' p' T).
  rewrite (deviation_mix k E p E' p' T1 T2 T) by lra. eapply Rle_trans; [apply Rabs_triang|]. rewrite !Rabs_mult.
  apply Rplus_le_compat; (apply Rmult_le_compat_l; [apply Rabs_pos|assumption]).
Qed.
(** The bound is reached: for any law and any pair of errors there is a law with just these. *)
Lemma C106_sharp_proof k E p T1 T2 T d1 d2 : 0 < k -> 0 < T1 -> T1 < T2 -> 0 < T -> 0 < p -> exists E' p', 0 < p'
  /\ ln (arrhenius k T1 E' p') - ln (arrhenius k T1 E p) = d1 /\ ln (arrhenius k T2 E' p') - ln (arrhenius k T2 E p) = d2
  /\ ln (arrhenius k T E' p') - ln (arrhenius k T E p) = place T1 T2 T * d1 + (1 - place T1 T2 T) * d2.
Proof.
  intros Hk H1 H2 HT Hp. assert (N : / T1 - / T2 <> 0) by (apply inv_ne; lra).
  set (s := (d1 - d2) / (/ T1 - / T2)).
  exists (E - k * s), (exp (ln p + (d1 - s * / T1))). pose proof (exp_pos (ln p + (d1 - s * / T1))) as PP. split; [exact PP|].
  assert (K : forall x, 0 < x -> ln (arrhenius k x (E - k * s) (exp (ln p + (d1 - s * / T1)))) - ln (arrhenius k x E p) = d1 - s * / T1 + s * / x).
  { intros x Hx. rewrite !ln_arr by assumption. rewrite ln_exp. field. lra. }
  rewrite !K by lra. split; [ring|].
  assert (S2 : s * / T1 - s * / T2 = d1 - d2) by (unfold s; field_simplify_eq; [ring|]; lra).
  split; [lra|]. rewrite (place_convex T1 T2 T) at 1 by assumption. set (l := place T1 T2 T).
  replace (d1 - s * / T1 + s * (l * / T1 + (1 - l) * / T2)) with (d1 - (1 - l) * (s * / T1 - s * / T2)) by ring. rewrite S2. ring.
Qed.
(** *** The apparent activation energy of the super-Arrhenius law *)
Lemma C106_apparent_proof k T1 T2 E p t : 0 < k -> 0 < p -> 0 < T1 -> 0 < T2 -> t < T1 -> t < T2 -> T1 <> T2 ->
  apparent_energy k (fun T => super_arrhenius k T E p t) T1 T2 = E * (T1 / (T1 - t)) * (T2 / (T2 - t)).
Proof.
  intros Hk Hp H1 H2 h1 h2 N. unfold apparent_energy. rewrite !ln_super by assumption.
  field. repeat split; try lra.
Qed.
Lemma ratio_gt T t : 0 < t -> t < T -> 1 < T / (T - t).
Proof. intros. apply Rmult_lt_reg_r with (T - t); [lra|]. unfold Rdiv. rewrite Rmult_assoc, Rinv_l by lra. lra. Qed.
Lemma ratio_dec T T' t : 0 < t -> t < T -> T < T' -> T' / (T' - t) < T / (T - t).
Proof.
  intros. assert (E : forall x, t < x -> x / (x - t) = 1 + t * / (x - t)) by (intros; field; lra). rewrite !E by lra.
  apply Rplus_lt_compat_l, Rmult_lt_compat_l; [assumption|]. apply inv_lt; lra.
Qed.
Lemma C106_apparent_above_proof k T1 T2 E p t : 0 < k -> 0 < p -> 0 < E -> 0 < t -> t < T1 -> t < T2 -> T1 <> T2 ->
  E < apparent_energy k (fun T => super_arrhenius k T E p t) T1 T2.
Proof.
  intros Hk Hp HE Ht h1 h2 N. rewrite C106_apparent_proof by lra. pose proof (ratio_gt T1 t Ht h1). pose proof (ratio_gt T2 t Ht h2).
  rewrite Rmult_assoc. rewrite <- (Rmult_1_r E) at 1. apply Rmult_lt_compat_l; [assumption|].
  replace 1 with (1 * 1) by ring. apply Rmult_gt_0_lt_compat; lra.
Qed.
Lemma C106_apparent_falls_proof k T1 T2 T1' T2' E p t : 0 < k -> 0 < p -> 0 < E -> 0 < t -> t < T1 -> t < T2 -> T1 <> T2 -> T1' <> T2' -> T1 < T1' -> T2 < T2' ->
  apparent_energy k (fun T => super_arrhenius k T E p t) T1' T2' < apparent_energy k (fun T => super_arrhenius k T E p t) T1 T2.
Proof.
  intros Hk Hp HE Ht h1 h2 N N' L1 L2. rewrite !C106_apparent_proof by lra.
  pose proof (ratio_gt T1' t Ht ltac:(lra)). pose proof (ratio_gt T2' t Ht ltac:(lra)).
  pose proof (ratio_dec T1 T1' t Ht h1 L1). pose proof (ratio_dec T2 T2' t Ht h2 L2).
  rewrite !Rmult_assoc. apply Rmult_lt_compat_l; [assumption|]. apply Rmult_gt_0_lt_compat; lra.
Qed.
Lemma C106_apparent_plain_proof k T1 T2 E p : 0 < k -> 0 < p -> 0 < T1 -> 0 < T2 -> T1 <> T2 -> apparent_energy k (fun T => arrhenius k T E p) T1 T2 = E.
Proof.
  intros Hk Hp H1 H2 N. unfold apparent_energy. rewrite !ln_arr by assumption. pose proof (inv_ne T1 T2 H1 H2 N) as M.
  set (x := / T1) in *. set (y := / T2) in *. field. lra.
Qed.
(** All samples. *)
Lemma C106_samples_proof k E p T1 T2 T eps (chain : list (R * R)) : 0 < k -> 0 < T1 -> T1 < T2 -> T1 <= T <= T2 -> 0 < p -> Forall (fun s => 0 < snd s) chain ->
  Forall (fun d => Rabs (ln d - ln (arrhenius k T1 E p)) <= eps) (extrapolate k T1 chain) -> Forall (fun d => Rabs (ln d - ln (arrhenius k T2 E p)) <= eps) (extrapolate k T2 chain) ->
  Forall (fun d => Rabs (ln d - ln (arrhenius k T E p)) <= eps) (extrapolate k T chain).
Proof.
  intros Hk H1 H2 HT Hp HC. unfold extrapolate. rewrite !Forall_map. intros A B. rewrite Forall_forall in *. intros s Hs.
  eapply C106_interpolation_proof with (T1 := T1) (T2 := T2); try eassumption; [apply HC|apply A|apply B]; assumption.
Qed.
Lemma C106_example_proof : place 300 400 300 = 1 /\ place 300 400 400 = 0 /\ place 300 400 200 = 3 /\ place 300 400 (2400 / 7) = / 2.
Proof. unfold place. repeat split; field. Qed.

(** *** C107 *)
Lemma C107_physical_proof k (temps : list R) t0 rest bounds s : 0 < k -> temps = t0 :: rest -> Forall (fun T => t0 <= T) temps ->
  bounds = [(0, Some 1); (0, Some 1e20); (0, Some t0)] -> sampled_within s bounds ->
  Forall (fun T => 0 < super_arrhenius k T (fst (fst s)) (snd (fst s)) (snd s) < snd (fst s)) temps.
Proof.
  intros Hk -> HT -> HS. destruct s as [[E p] t]. unfold sampled_within, between_bounds in HS. cbn [fst snd] in *.
  inversion HS as [|? ? ? ? HE HS1]; subst. inversion HS1 as [|? ? ? ? Hp HS2]; subst. inversion HS2 as [|? ? ? ? Ht HS3]; subst. cbn [fst snd] in HE, Hp, Ht.
  eapply Forall_impl; [|exact HT]. intros T Hle. cbv beta in Hle. rewrite C45_super_shift_proof. apply C45_range_proof; lra.
Qed.
Lemma C107_init_proof k user t0 rest s bounds : 0 < k -> Forall (fun T => t0 <= T) (t0 :: rest) ->
  snd (super_init 0 (fresh_heap 0 1 1e20 user) BDefault (t0 :: rest)) = Ok bounds -> sampled_within s bounds ->
  Forall (fun T => 0 < super_arrhenius k T (fst (fst s)) (snd (fst s)) (snd s) < snd (fst s)) (t0 :: rest).
Proof.
  intros Hk HT HB HS. eapply C107_physical_proof; try eassumption; try reflexivity.
  assert (H : snd (super_init 0 (fst (super_history 0 (fresh_heap 0 1 1e20 user) [])) BDefault (t0 :: rest)) = Ok [(0, Some 1); (0, Some 1e20); (0, Some t0)])
    by (apply C46_own_proof; [constructor|reflexivity]).
  cbn [super_history fst] in H. congruence.
Qed.
(** Temperatures from hot to cold: within the bounds, above the prefactor at the lowest temperature. *)
Lemma C107_refuted_proof k user : 0 < k -> exists temps bounds s, temps = [400; 300] /\ snd (super_init 0 (fresh_heap 0 1 1e20 user) BDefault temps) = Ok bounds
  /\ sampled_within s bounds /\ exists T, In T temps /\ snd (fst s) < super_arrhenius k T (fst (fst s)) (snd (fst s)) (snd s).
Proof.
  intros Hk. exists [400; 300], [(0, Some 1); (0, Some 1e20); (0, Some 400)], ((/ 2, 1), 350).
  split; [reflexivity|]. split; [reflexivity|]. split.
  - unfold sampled_within, between_bounds. cbn [fst snd]. repeat constructor; cbn [fst snd]; lra.
  - exists 300. split; [right; now left|]. cbn [fst snd]. unfold super_arrhenius. rewrite Rmult_1_l. rewrite <- exp_0 at 1. apply exp_increasing.
    replace (-1 * / 2 / (k * (300 - 350))) with (/ (100 * k)) by (field; lra). apply Rinv_0_lt_compat. lra.
Qed.
(** And the law falls with temperature there, although the energy is positive. *)
Lemma C107_falls_proof k E p t T1 T2 : 0 < k -> 0 < E -> 0 < p -> T1 < t -> t < T2 -> super_arrhenius k T2 E p t < p < super_arrhenius k T1 E p t.
Proof.
  intros Hk HE Hp H1 H2. split; [rewrite C45_super_shift_proof; apply C45_range_proof; lra|].
  unfold super_arrhenius. rewrite <- (Rmult_1_r p) at 1. apply Rmult_lt_compat_l; [assumption|]. rewrite <- exp_0 at 1. apply exp_increasing.
  replace (-1 * E / (k * (T1 - t))) with (E * / (k * (t - T1))) by (field; lra). apply Rmult_lt_0_compat; [assumption|]. apply Rinv_0_lt_compat. apply Rmult_lt_0_compat; lra.
Qed.
(** The Arrhenius law's default bounds need no order. *)
Lemma C107_plain_proof k T E p : 0 < k -> 0 < T -> Forall2 between_bounds [E; p] [(0, Some 1); (0, Some 1e20)] -> 0 < arrhenius k T E p < p.
Proof.
  intros Hk HT HS. inversion HS as [|? ? ? ? HE HS1]; subst. inversion HS1 as [|? ? ? ? Hp HS2]; subst. destruct HE as [HE _], Hp as [Hp _]. cbn [fst snd] in HE, Hp. apply C45_range_proof; lra.
Qed.
Lemma C107_earlier_proof k user : 0 < k -> exists calls temps bounds s, calls = [(BDefault, [500; 600])] /\ temps = [300; 400]
  /\ snd (super_init 0 (fst (super_history 0 (fresh_heap 0 1 1e20 user) calls)) BDefault temps) = Ok bounds
  /\ sampled_within s bounds /\ exists T, In T temps /\ snd (fst s) < super_arrhenius k T (fst (fst s)) (snd (fst s)) (snd s).
Proof.
  intros Hk. exists [(BDefault, [500; 600])], [300; 400], [(0, Some 1); (0, Some 1e20); (0, Some 500)], ((/ 2, 1), 350).
  split; [reflexivity|]. split; [reflexivity|]. split; [reflexivity|]. split.
  - unfold sampled_within, between_bounds. cbn [fst snd]. repeat constructor; cbn [fst snd]; lra.
  - exists 300. split; [now left|]. cbn [fst snd]. apply (C107_falls_proof k (/ 2) 1 350 300 400); lra.
Qed.
Lemma C107_example_proof user : snd (super_init 0 (fresh_heap 0 1 1e20 user) BDefault [300; 400; 350]) = Ok [(0, Some 1); (0, Some 1e20); (0, Some 300)]
  /\ Forall (fun T => 300 <= T) [300; 400; 350] /\ sampled_within ((0.2, 1e-3), 150) [(0, Some 1); (0, Some 1e20); (0, Some 300)].
Proof.
  split; [reflexivity|]. split; [repeat constructor; lra|]. unfold sampled_within, between_bounds. cbn [fst snd]. repeat constructor; cbn [fst snd]; lra.
Qed.
