(** * PropertiesStop: C129, resampling until a normality test is passed *)
From Verif Require Import Base Spec SpecStats SpecFit SpecMarkov SpecResample ModelParser ModelDiffusion SpecStop ProofsStop.
From Coq Require Import Reals.
Open Scope nat_scope.

(** ** C129 *)
(** [V g]: the resampled values that sample_until_normal returns when the generator starts in the state [g]. The sum
    of the values is on average the average of the observations times the average number of resamples, whatever the
    normality test and however the number of resamples depends on the values. *)
Theorem C129_total : forall G Seed RS (X : Ext R G Seed RS) (gs : list G) (wt : G -> R) (l : list R) (ns : R) m n_re mr (alpha : R) (V : G -> list R),
  whole_part ns m -> 0 < m -> 0 < length l -> (0 <= n_re)%Z ->
  (forall g, In g gs -> exists w g', sample_until_normal X g l ns n_re mr alpha = Some (Ok (V g, w, g'))) ->
  independent_lists gs wt X (length l) m (most_resamples n_re mr) ->
  mean_over gs wt (fun g => rsum (V g)) = (average l * mean_over gs wt (fun g => INR (length (V g))))%R.
Proof. exact @C129_total_proof. Qed.
Print Assumptions C129_total.
(** The square of its excess over the number of resamples times the average of the observations is on average the
    variance of one resample times the average number of resamples. *)
Theorem C129_square : forall G Seed RS (X : Ext R G Seed RS) (gs : list G) (wt : G -> R) (l : list R) (ns : R) m n_re mr (alpha : R) (V : G -> list R),
  whole_part ns m -> 0 < m -> 0 < length l -> (0 <= n_re)%Z ->
  (forall g, In g gs -> exists w g', sample_until_normal X g l ns n_re mr alpha = Some (Ok (V g, w, g'))) ->
  independent_lists gs wt X (length l) m (most_resamples n_re mr) ->
  mean_over gs wt (fun g => (rsum (V g) - INR (length (V g)) * average l) * (rsum (V g) - INR (length (V g)) * average l))%R
  = (population_variance l / INR m * mean_over gs wt (fun g => INR (length (V g))))%R.
Proof. exact @C129_square_proof. Qed.
Print Assumptions C129_square.
(** More generally: any function of the values, summed, is on average its average over all possible resamples times
    the average number of resamples. *)
Theorem C129_any_statistic : forall G Seed RS (X : Ext R G Seed RS) (gs : list G) (wt : G -> R) (l : list R) (ns : R) m n_re mr (alpha : R) (V : G -> list R),
  whole_part ns m -> 0 < m -> 0 < length l -> (0 <= n_re)%Z ->
  (forall g, In g gs -> exists w g', sample_until_normal X g l ns n_re mr alpha = Some (Ok (V g, w, g'))) ->
  independent_lists gs wt X (length l) m (most_resamples n_re mr) -> forall f : R -> R,
  mean_over gs wt (fun g => rsum (map f (V g)))
  = (average (map (fun ix => f (average (map (fun j => nth j l 0%R) ix))) (all_lists (length l) m)) * mean_over gs wt (fun g => INR (length (V g))))%R.
Proof. exact @C129_any_proof. Qed.
Print Assumptions C129_any_statistic.
(** So the squared deviations of the values add up to what as many unstopped resamples would give. *)
Theorem C129_spread : forall G Seed RS (X : Ext R G Seed RS) (gs : list G) (wt : G -> R) (l : list R) (ns : R) m n_re mr (alpha : R) (V : G -> list R),
  whole_part ns m -> 0 < m -> 0 < length l -> (0 <= n_re)%Z ->
  (forall g, In g gs -> exists w g', sample_until_normal X g l ns n_re mr alpha = Some (Ok (V g, w, g'))) ->
  independent_lists gs wt X (length l) m (most_resamples n_re mr) ->
  mean_over gs wt (fun g => rsum (map (fun x => (x - average l) * (x - average l))%R (V g))) = (population_variance l / INR m * mean_over gs wt (fun g => INR (length (V g))))%R.
Proof. exact @C129_spread_proof. Qed.
Print Assumptions C129_spread.
(** The average of the resampled values can therefore miss the average of the observations only by so much. *)
Theorem C129_bias : forall G Seed RS (X : Ext R G Seed RS) (gs : list G) (wt : G -> R) (l : list R) (ns : R) m n_re mr (alpha : R) (V : G -> list R),
  whole_part ns m -> 0 < m -> 0 < length l -> (0 <= n_re)%Z ->
  (forall g, In g gs -> exists w g', sample_until_normal X g l ns n_re mr alpha = Some (Ok (V g, w, g'))) ->
  independent_lists gs wt X (length l) m (most_resamples n_re mr) ->
  (forall g, In g gs -> (0 <= wt g)%R) -> rsum (map wt gs) = 1%R -> (0 < n_re)%Z ->
  ((mean_over gs wt (fun g => average (V g)) - average l)²
   <= ((/ INR (Z.to_nat n_re) - / INR (most_resamples n_re mr)) / 2)² * (INR (most_resamples n_re mr) * (population_variance l / INR m)))%R.
Proof. exact @C129_bias_proof. Qed.
Print Assumptions C129_bias.
(** The reported variance of the resampled values, weighted with its degrees of freedom, is on average the variance of
    one resample, but for at most one part in n_resamples. *)
Theorem C129_variance : forall G Seed RS (X : Ext R G Seed RS) (gs : list G) (wt : G -> R) (l : list R) (ns : R) m n_re mr (alpha : R) (V : G -> list R),
  whole_part ns m -> 0 < m -> 0 < length l -> (0 <= n_re)%Z ->
  (forall g, In g gs -> exists w g', sample_until_normal X g l ns n_re mr alpha = Some (Ok (V g, w, g'))) ->
  independent_lists gs wt X (length l) m (most_resamples n_re mr) ->
  (forall g, In g gs -> (0 <= wt g)%R) -> rsum (map wt gs) = 1%R -> (1 < n_re)%Z ->
  let s2 := (population_variance l / INR m)%R in
  (s2 * (1 - / INR (Z.to_nat n_re)) * mean_over gs wt (fun g => INR (length (V g)))
   <= mean_over gs wt (fun g => (INR (length (V g)) - 1) * sample_variance (V g)) <= s2 * mean_over gs wt (fun g => INR (length (V g))))%R.
Proof. exact @C129_variance_proof. Qed.
Print Assumptions C129_variance.
(** With the default numbers of resamples: by at most 4.53 % of the standard deviation of one resample. *)
Theorem C129_defaults : forall G Seed RS (X : Ext R G Seed RS) (gs : list G) (wt : G -> R) (l : list R) (ns : R) m (alpha : R) (V : G -> list R),
  whole_part ns m -> 0 < m -> l <> [] ->
  (forall g, In g gs -> exists w g', sample_until_normal X g l ns 1000 10000 alpha = Some (Ok (V g, w, g'))) ->
  independent_lists gs wt X (length l) m (most_resamples 1000 10000) -> (forall g, In g gs -> (0 <= wt g)%R) -> rsum (map wt gs) = 1%R ->
  ((mean_over gs wt (fun g => average (V g)) - average l)² <= (453 / 10000)² * (population_variance l / INR m))%R.
Proof. exact @C129_defaults_proof. Qed.
Print Assumptions C129_defaults.
(** It does miss: of the observations 0 and 1 one is drawn for each of 100 resamples, or of 200 when the test rejects
    the first 100. The average of the resampled values is on average 401/800, not 1/2. *)
Theorem C129_unbiased_refuted : forall Seed RS (X : Ext R (list nat) Seed RS), let gs := all_lists 2 (1 * most_resamples 100 101) in exists V,
  independent_lists gs (equally_likely gs) (judged_by_first X) 2 1 (most_resamples 100 101)
  /\ (forall g, In g gs -> exists w g', sample_until_normal (judged_by_first X) g [0%R; 1%R] 1%R 100 101 (1 / 2)%R = Some (Ok (V g, w, g')))
  /\ mean_over gs (equally_likely gs) (fun g => average (V g)) = (401 / 800)%R.
Proof. exact C129_refuted_proof. Qed.
Print Assumptions C129_unbiased_refuted.
(** All rows of random numbers, equally likely, for any observations, sample size, numbers of resamples and normality test. *)
Example C129_example : forall Seed RS (X : Ext R (list nat) Seed RS) (l : list R) (ns : R) m n_re mr (alpha : R), l <> [] -> 0 < m -> whole_part ns m ->
  let gs := all_lists (length l) (m * most_resamples n_re mr) in
  independent_lists gs (equally_likely gs) (ideal X) (length l) m (most_resamples n_re mr) /\ rsum (map (equally_likely gs) gs) = 1%R /\ (forall g, In g gs -> (0 <= equally_likely gs g)%R)
  /\ exists V, forall g, In g gs -> exists w g', sample_until_normal (ideal X) g l ns n_re mr alpha = Some (Ok (V g, w, g')).
Proof. exact C129_example_proof. Qed.
