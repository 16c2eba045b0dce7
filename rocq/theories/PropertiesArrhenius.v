(** * PropertiesArrhenius: C45, C46, C57

    [k] is the Boltzmann constant. *)
From Verif Require Import Base ModelArrhenius SpecArrhenius ProofsArrhenius SpecRun.
From Coq Require Import Reals Lra.

(** ** C45 *)
Theorem C45_range : forall k T Ea pre : R, (0 < k -> 0 < T -> 0 < Ea -> 0 < pre -> 0 < arrhenius k T Ea pre < pre)%R.
Proof. exact C45_range_proof. Qed.
Print Assumptions C45_range.
Theorem C45_increases_with_temperature : forall k T1 T2 Ea pre : R,
  (0 < k -> 0 < T1 -> T1 < T2 -> 0 < Ea -> 0 < pre -> arrhenius k T1 Ea pre < arrhenius k T2 Ea pre)%R.
Proof. exact C45_temperature_proof. Qed.
Print Assumptions C45_increases_with_temperature.
Theorem C45_decreases_with_energy : forall k T E1 E2 pre : R,
  (0 < k -> 0 < T -> E1 < E2 -> 0 < pre -> arrhenius k T E2 pre < arrhenius k T E1 pre)%R.
Proof. exact C45_energy_proof. Qed.
Print Assumptions C45_decreases_with_energy.
Theorem C45_proportional_to_prefactor : forall k T Ea pre c : R, (arrhenius k T Ea (c * pre) = c * arrhenius k T Ea pre)%R.
Proof. exact C45_prefactor_proof. Qed.
Print Assumptions C45_proportional_to_prefactor.
Theorem C45_log_linear : forall k T Ea pre : R, (0 < k -> 0 < T -> 0 < pre ->
  ln (arrhenius k T Ea pre) = ln pre + (- Ea / k) * (1 / T))%R.
Proof. exact C45_log_proof. Qed.
Print Assumptions C45_log_linear.
(** The activation energy can be read off any two temperatures. *)
Theorem C45_energy_recovered : forall k T1 T2 Ea pre : R, (0 < k -> 0 < T1 -> 0 < T2 -> T1 <> T2 -> 0 < pre ->
  Ea = k * (ln (arrhenius k T1 Ea pre) - ln (arrhenius k T2 Ea pre)) / (1 / T2 - 1 / T1))%R.
Proof. exact C45_recover_proof. Qed.
Print Assumptions C45_energy_recovered.
Theorem C45_hot_limit : forall k Ea pre eps : R, (0 < k -> 0 < Ea -> 0 < pre -> 0 < eps ->
  exists T1, 0 < T1 /\ forall T, T1 < T -> pre - eps < arrhenius k T Ea pre)%R.
Proof. exact C45_hot_proof. Qed.
Print Assumptions C45_hot_limit.
Theorem C45_cold_limit : forall k Ea pre eps : R, (0 < k -> 0 < Ea -> 0 < pre -> 0 < eps ->
  exists T1, 0 < T1 /\ forall T, 0 < T -> T < T1 -> arrhenius k T Ea pre < eps)%R.
Proof. exact C45_cold_proof. Qed.
Print Assumptions C45_cold_limit.
Theorem C45_super_at_zero : forall k T Ea pre : R, super_arrhenius k T Ea pre 0%R = arrhenius k T Ea pre.
Proof. exact C45_super_zero_proof. Qed.
Print Assumptions C45_super_at_zero.
Theorem C45_super_below : forall k T Ea pre T0 : R, (0 < k -> 0 < T0 -> T0 < T -> 0 < Ea -> 0 < pre ->
  0 < super_arrhenius k T Ea pre T0 < arrhenius k T Ea pre)%R.
Proof. exact C45_super_below_proof. Qed.
Print Assumptions C45_super_below.
(** Activation energies are in electronvolt: converted to joule per mole ([n_a] is Avogadro's number and [ev] the
    electronvolt in joule), the exponent is - E / (R T). With the CODATA 2018 values that scipy.constants holds, the constant
    is Boltzmann's in eV/K. *)
Theorem C45_units : forall gas_R n_a ev T Ea pre T0 : R, (0 < gas_R -> 0 < n_a -> 0 < ev -> T <> 0 -> T <> T0 ->
  arrhenius (R_eV gas_R n_a ev) T Ea pre = pre * exp (- (Ea * ev * n_a / (gas_R * T))) /\
  super_arrhenius (R_eV gas_R n_a ev) T Ea pre T0 = pre * exp (- (Ea * ev * n_a / (gas_R * (T - T0)))))%R.
Proof. exact C45_units_proof. Qed.
Print Assumptions C45_units.
Theorem C45_constant : (Rabs (R_eV 8.314462618 6.02214076e23 1.602176634e-19 - 8.617333262e-5) <= 1e-13)%R.
Proof. exact C45_constant_proof. Qed.
Print Assumptions C45_constant.
Example C45_example : (0 < 8.617e-5 /\ 0 < 300 /\ 300 < 400 /\ 0 < 0.2 /\ 0 < 1e-3)%R.
Proof. lra. Qed.

(** ** C46

    [calls] is any sequence of earlier constructor calls, [user] the lists the caller owns. *)
Theorem C46_without_earlier_default : forall (A : Type) (zero one big : A) user calls t0 t, own_lists calls -> first_default calls = None ->
  snd (super_init zero (fst (super_history zero (fresh_heap zero one big user) calls)) BDefault (t0 :: t))
  = Ok [(zero, Some one); (zero, Some big); (zero, Some t0)].
Proof. exact @C46_own_proof. Qed.
Print Assumptions C46_without_earlier_default.
(** In general the first object built without bounds decides. *)
Theorem C46_any_history : forall (A : Type) (zero one big : A) user calls t0 t, own_lists calls ->
  snd (super_init zero (fst (super_history zero (fresh_heap zero one big user) calls)) BDefault (t0 :: t))
  = Ok [(zero, Some one); (zero, Some big); (zero, Some (match first_default calls with Some x => x | None => t0 end))].
Proof. exact @C46_history_proof. Qed.
Print Assumptions C46_any_history.
Theorem C46_refuted : forall (A : Type) (zero one big : A) user (a b : A), a <> b -> exists calls t, own_lists calls
  /\ snd (super_init zero (fst (super_history zero (fresh_heap zero one big user) calls)) BDefault t)
     = Ok [(zero, Some one); (zero, Some big); (zero, Some a)]
  /\ t = [b] /\ calls = [(BDefault, [a])].
Proof. exact @C46_refuted_proof. Qed.
Print Assumptions C46_refuted.
(** A list given by the caller is overwritten, and used again keeps the temperature of its first use. *)
Theorem C46_callers_list : forall (A : Type) (zero : A) h addr x y l t0 t, h addr = x :: y :: (l, None) :: nil ->
  let '(h1, r) := super_init zero h (BList addr) (t0 :: t) in
  r = Ok [x; y; (zero, Some t0)] /\ h1 addr = [x; y; (zero, Some t0)]
  /\ forall t', super_init zero h1 (BList addr) t' = (h1, Ok [x; y; (zero, Some t0)]).
Proof. exact @C46_list_proof. Qed.
Print Assumptions C46_callers_list.
(** The documented tuple form cannot have an open bound. *)
Theorem C46_tuple : forall (A : Type) (zero : A) h x y l t0 t, super_init zero h (BTuple [x; y; (l, None)]) (t0 :: t) = (h, Raise TypeError).
Proof. exact @C46_tuple_proof. Qed.
Print Assumptions C46_tuple.
Theorem C46_explicit : forall (A : Type) (zero : A) h x y l u t,
  super_init zero h (BTuple [x; y; (l, Some u)]) t = (h, Ok [x; y; (l, Some u)]).
Proof. exact @C46_explicit_proof. Qed.
Print Assumptions C46_explicit.
Example C46_example : own_lists [(BTuple [(0, Some 1); (0, Some 9); (0, Some 3)], [7]); (BList 4, [5])]%nat
  /\ first_default [(BTuple [(0, Some 1); (0, Some 9); (0, Some 3)], [7]); (BList 4, [5])]%nat = None.
Proof. split; [|reflexivity]. repeat constructor; intros addr H; try discriminate H. injection H as <-. discriminate. Qed.

(** ** C57

    A sample is (activation energy, prefactor), for the super-Arrhenius law with T0 as third. *)
Theorem C57_one_value_per_sample : forall (k T : R) chain, length (extrapolate k T chain) = length chain.
Proof. exact C57_length_proof. Qed.
Print Assumptions C57_one_value_per_sample.
Theorem C57_measured_temperatures : forall (k : R) temps chain i T, nth_error temps i = Some T ->
  nth_error (arrhenius_distribution k temps chain) i = Some (extrapolate k T chain).
Proof. exact C57_measured_proof. Qed.
Print Assumptions C57_measured_temperatures.
Theorem C57_below_prefactor : forall (k T : R) (chain : list (R * R)), (0 < k)%R -> (0 < T)%R ->
  Forall (fun s => 0 < fst s /\ 0 < snd s)%R chain -> Forall2 (fun d s => 0 < d < snd s)%R (extrapolate k T chain) chain.
Proof. exact C57_range_proof. Qed.
Print Assumptions C57_below_prefactor.
Theorem C57_increases_with_temperature : forall (k T1 T2 : R) (chain : list (R * R)), (0 < k)%R -> (0 < T1)%R -> (T1 < T2)%R ->
  Forall (fun s => 0 < fst s /\ 0 < snd s)%R chain -> Forall2 Rlt (extrapolate k T1 chain) (extrapolate k T2 chain).
Proof. exact C57_monotone_proof. Qed.
Print Assumptions C57_increases_with_temperature.
Theorem C57_super : forall (k T : R) (chain : list (R * R * R)), (0 < k)%R ->
  Forall (fun s => 0 < fst (fst s) /\ 0 < snd (fst s) /\ 0 < snd s < T)%R chain ->
  Forall2 (fun d s => 0 < d < arrhenius k T (fst (fst s)) (snd (fst s)))%R (super_extrapolate k T chain) chain.
Proof. exact C57_super_proof. Qed.
Print Assumptions C57_super.
Example C57_example : (Forall (fun s : R * R => 0 < fst s /\ 0 < snd s) [(0.2, 1e-3); (0.3, 2e-3)])%R
  /\ (Forall (fun s : R * R * R => 0 < fst (fst s) /\ 0 < snd (fst s) /\ 0 < snd s < 400) [((0.2, 1e-3), 100); ((0.3, 2e-3), 150)])%R.
Proof. split; repeat constructor; cbn; lra. Qed.
