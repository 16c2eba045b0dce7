(** * PropertiesLaw: C106 and C107

    [k] is the Boltzmann constant, [place T1 T2 T] is the place of 1/T between 1/T2 (0) and 1/T1 (1). *)
From Verif Require Import Base ModelArrhenius SpecArrhenius SpecLaw ProofsArrhenius ProofsLaw.
From Coq Require Import Reals Lra.
Open Scope R_scope.

(** ** C106 *)
(** Two temperatures determine activation energy and prefactor. *)
Theorem C106_parameters_determined : forall (k : R) T1 T2 E E' p p',
  0 < k -> 0 < T1 -> 0 < T2 -> T1 <> T2 -> 0 < p -> 0 < p' ->
  arrhenius k T1 E p = arrhenius k T1 E' p' -> arrhenius k T2 E p = arrhenius k T2 E' p' -> E = E' /\ p = p'.
Proof. exact C106_unique_proof. Qed.
Print Assumptions C106_parameters_determined.
(** Three temperatures determine the parameters of the super-Arrhenius law; two do not. *)
Theorem C106_super_parameters_determined : forall (k : R) T1 T2 T3 E E' p p' t t',
  0 < k -> T1 <> T2 -> T2 <> T3 -> T1 <> T3 -> 0 < p -> 0 < p' -> 0 < E ->
  t < T1 -> t < T2 -> t < T3 -> t' < T1 -> t' < T2 -> t' < T3 ->
  super_arrhenius k T1 E p t = super_arrhenius k T1 E' p' t' -> super_arrhenius k T2 E p t = super_arrhenius k T2 E' p' t' ->
  super_arrhenius k T3 E p t = super_arrhenius k T3 E' p' t' -> E = E' /\ p = p' /\ t = t'.
Proof. exact C106_super_unique_proof. Qed.
Print Assumptions C106_super_parameters_determined.
Theorem C106_two_temperatures_refuted : forall (k : R),
  0 < k -> exists T1 T2 E E' p p' t t', T1 <> T2 /\ 0 < E /\ 0 < E' /\ 0 < p /\ 0 < p' /\ 0 < t < T1 /\ t < T2 /\ 0 < t' < T1 /\ t' < T2
  /\ super_arrhenius k T1 E p t = super_arrhenius k T1 E' p' t' /\ super_arrhenius k T2 E p t = super_arrhenius k T2 E' p' t' /\ t <> t' /\ E <> E'.
Proof. exact C106_two_refuted_proof. Qed.
Print Assumptions C106_two_temperatures_refuted.
(** Between two temperatures a law is known as well (in ln D) as at the worse of the two. *)
Theorem C106_interpolation : forall (k : R) E p E' p' T1 T2 T eps,
  0 < k -> 0 < T1 -> T1 < T2 -> T1 <= T <= T2 -> 0 < p -> 0 < p' ->
  Rabs (ln (arrhenius k T1 E' p') - ln (arrhenius k T1 E p)) <= eps -> Rabs (ln (arrhenius k T2 E' p') - ln (arrhenius k T2 E p)) <= eps ->
  Rabs (ln (arrhenius k T E' p') - ln (arrhenius k T E p)) <= eps.
Proof. exact C106_interpolation_proof. Qed.
Print Assumptions C106_interpolation.
(** The same for all samples of a posterior at once. *)
Theorem C106_samples : forall (k : R) E p T1 T2 T eps (chain : list (R * R)),
  0 < k -> 0 < T1 -> T1 < T2 -> T1 <= T <= T2 -> 0 < p -> Forall (fun s => 0 < snd s) chain ->
  Forall (fun d => Rabs (ln d - ln (arrhenius k T1 E p)) <= eps) (extrapolate k T1 chain) -> Forall (fun d => Rabs (ln d - ln (arrhenius k T2 E p)) <= eps) (extrapolate k T2 chain) ->
  Forall (fun d => Rabs (ln d - ln (arrhenius k T E p)) <= eps) (extrapolate k T chain).
Proof. exact C106_samples_proof. Qed.
Print Assumptions C106_samples.
(** At any other temperature the errors grow linearly in 1/T, and they may really be as large. *)
Theorem C106_extrapolation : forall (k : R) E p E' p' T1 T2 T e1 e2,
  0 < k -> 0 < T1 -> T1 < T2 -> 0 < T -> 0 < p -> 0 < p' ->
  Rabs (ln (arrhenius k T1 E' p') - ln (arrhenius k T1 E p)) <= e1 -> Rabs (ln (arrhenius k T2 E' p') - ln (arrhenius k T2 E p)) <= e2 ->
  Rabs (ln (arrhenius k T E' p') - ln (arrhenius k T E p)) <= Rabs (place T1 T2 T) * e1 + Rabs (1 - place T1 T2 T) * e2.
Proof. exact C106_extrapolation_proof. Qed.
Print Assumptions C106_extrapolation.
Theorem C106_extrapolation_sharp : forall (k : R) E p T1 T2 T d1 d2,
  0 < k -> 0 < T1 -> T1 < T2 -> 0 < T -> 0 < p -> exists E' p', 0 < p'
  /\ ln (arrhenius k T1 E' p') - ln (arrhenius k T1 E p) = d1 /\ ln (arrhenius k T2 E' p') - ln (arrhenius k T2 E p) = d2
  /\ ln (arrhenius k T E' p') - ln (arrhenius k T E p) = place T1 T2 T * d1 + (1 - place T1 T2 T) * d2.
Proof. exact C106_sharp_proof. Qed.
Print Assumptions C106_extrapolation_sharp.
(** The slope of the Arrhenius plot is the activation energy; for the super-Arrhenius law it is larger and falls with temperature. *)
Theorem C106_slope_is_energy : forall (k : R) T1 T2 E p,
  0 < k -> 0 < p -> 0 < T1 -> 0 < T2 -> T1 <> T2 -> apparent_energy k (fun T => arrhenius k T E p) T1 T2 = E.
Proof. exact C106_apparent_plain_proof. Qed.
Print Assumptions C106_slope_is_energy.
Theorem C106_super_slope : forall (k : R) T1 T2 E p t,
  0 < k -> 0 < p -> 0 < T1 -> 0 < T2 -> t < T1 -> t < T2 -> T1 <> T2 ->
  apparent_energy k (fun T => super_arrhenius k T E p t) T1 T2 = E * (T1 / (T1 - t)) * (T2 / (T2 - t)).
Proof. exact C106_apparent_proof. Qed.
Print Assumptions C106_super_slope.
Theorem C106_super_slope_above : forall (k : R) T1 T2 E p t,
  0 < k -> 0 < p -> 0 < E -> 0 < t -> t < T1 -> t < T2 -> T1 <> T2 ->
  E < apparent_energy k (fun T => super_arrhenius k T E p t) T1 T2.
Proof. exact C106_apparent_above_proof. Qed.
Print Assumptions C106_super_slope_above.
Theorem C106_super_slope_falls : forall (k : R) T1 T2 T1' T2' E p t,
  0 < k -> 0 < p -> 0 < E -> 0 < t -> t < T1 -> t < T2 -> T1 <> T2 -> T1' <> T2' -> T1 < T1' -> T2 < T2' ->
  apparent_energy k (fun T => super_arrhenius k T E p t) T1' T2' < apparent_energy k (fun T => super_arrhenius k T E p t) T1 T2.
Proof. exact C106_apparent_falls_proof. Qed.
Print Assumptions C106_super_slope_falls.
Example C106_example : place 300 400 300 = 1 /\ place 300 400 400 = 0 /\ place 300 400 200 = 3 /\ place 300 400 (2400 / 7) = / 2.
Proof. exact C106_example_proof. Qed.

(** ** C107
    With the default bounds (and no earlier object built with them) every parameter vector within the bounds gives diffusion
    coefficients between 0 and the prefactor at every measured temperature, if the first temperature is the lowest. *)
Theorem C107_default_bounds_partial : forall (k : R) user t0 rest s bounds,
  0 < k -> Forall (fun T => t0 <= T) (t0 :: rest) ->
  snd (super_init 0 (fresh_heap 0 1 1e20 user) BDefault (t0 :: rest)) = Ok bounds -> sampled_within s bounds ->
  Forall (fun T => 0 < super_arrhenius k T (fst (fst s)) (snd (fst s)) (snd s) < snd (fst s)) (t0 :: rest).
Proof. exact C107_init_proof. Qed.
Print Assumptions C107_default_bounds_partial.
Theorem C107_arrhenius_bounds : forall (k : R) T E p,
  0 < k -> 0 < T -> Forall2 between_bounds [E; p] [(0, Some 1); (0, Some 1e20)] -> 0 < arrhenius k T E p < p.
Proof. exact C107_plain_proof. Qed.
Print Assumptions C107_arrhenius_bounds.
(** False when the first temperature is not the lowest, and after an earlier object (C46). *)
Theorem C107_descending_refuted : forall (k : R) user,
  0 < k -> exists temps bounds s, temps = [400; 300] /\ snd (super_init 0 (fresh_heap 0 1 1e20 user) BDefault temps) = Ok bounds
  /\ sampled_within s bounds /\ exists T, In T temps /\ snd (fst s) < super_arrhenius k T (fst (fst s)) (snd (fst s)) (snd s).
Proof. exact C107_refuted_proof. Qed.
Print Assumptions C107_descending_refuted.
Theorem C107_earlier_object_refuted : forall (k : R) user,
  0 < k -> exists calls temps bounds s, calls = [(BDefault, [500; 600])] /\ temps = [300; 400]
  /\ snd (super_init 0 (fst (super_history 0 (fresh_heap 0 1 1e20 user) calls)) BDefault temps) = Ok bounds
  /\ sampled_within s bounds /\ exists T, In T temps /\ snd (fst s) < super_arrhenius k T (fst (fst s)) (snd (fst s)) (snd s).
Proof. exact C107_earlier_proof. Qed.
Print Assumptions C107_earlier_object_refuted.
(** Whenever T0 exceeds a temperature, the law is above the prefactor there. *)
Theorem C107_above_prefactor : forall (k : R) E p t T1 T2,
  0 < k -> 0 < E -> 0 < p -> T1 < t -> t < T2 -> super_arrhenius k T2 E p t < p < super_arrhenius k T1 E p t.
Proof. exact C107_falls_proof. Qed.
Print Assumptions C107_above_prefactor.
Example C107_example : forall user, snd (super_init 0 (fresh_heap 0 1 1e20 user) BDefault [300; 400; 350]) = Ok [(0, Some 1); (0, Some 1e20); (0, Some 300)]
  /\ Forall (fun T => 300 <= T) [300; 400; 350] /\ sampled_within ((0.2, 1e-3), 150) [(0, Some 1); (0, Some 1e20); (0, Some 300)].
Proof. exact C107_example_proof. Qed.
