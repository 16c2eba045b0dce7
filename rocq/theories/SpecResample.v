(** * SpecResample: vocabulary of C91, bootstrap results on average over the random numbers *)
From Verif Require Import Base Spec SpecStats SpecFit SpecMarkov ModelParser ModelDiffusion.
From Coq Require Import Reals.

(** The lists of indices the generator returns when it is asked, one after the other, for [m] indices
    below [k] for each [(k, m)] in [reqs]; and its state afterwards. *)
Fixpoint drawn {G Seed RS} (X : Ext R G Seed RS) (g : G) (reqs : list (nat * nat)) : list (list nat) * G :=
  match reqs with
  | [] => ([], g)
  | (k, m) :: rest => let '(ix, g1) := x_randints X g k m in
                      let '(ixs, g2) := drawn X g1 rest in (ix :: ixs, g2)
  end.
(** The i-th index of the p-th list. *)
Definition slot {G Seed RS} (X : Ext R G Seed RS) (reqs : list (nat * nat)) (p i : nat) (g : G) : nat :=
  nth i (nth p (fst (drawn X g reqs)) []) 0%nat.
(** Over the initial states [gs] of the generator with the probabilities [wt], every index is equally
    likely and any two are independent; the lists have the requested lengths. *)
Definition fair_draws {G Seed RS} (gs : list G) (wt : G -> R) (X : Ext R G Seed RS) (reqs : list (nat * nat)) : Prop :=
  (forall g p k m, In g gs -> nth_error reqs p = Some (k, m) -> exists ix, nth_error (fst (drawn X g reqs)) p = Some ix /\ length ix = m)
  /\ (forall p i k m f, nth_error reqs p = Some (k, m) -> (i < m)%nat -> mean_over gs wt (fun g => f (slot X reqs p i g)) = average (tab k f))
  /\ (forall p i k m q j k' m' f h, nth_error reqs p = Some (k, m) -> (i < m)%nat -> nth_error reqs q = Some (k', m') -> (j < m')%nat ->
        (p <> q \/ i <> j) ->
        mean_over gs wt (fun g => f (slot X reqs p i g) * h (slot X reqs q j g))%R = (average (tab k f) * average (tab k' h))%R).
(** What a run asks for: [r] times for each interval with [k] observations of which [m] are drawn. *)
Fixpoint run_requests (r : nat) (sizes : list (nat * nat)) : list (nat * nat) :=
  match sizes with
  | [] => []
  | km :: rest => repeat km r ++ run_requests r rest
  end.
(** The whole part of a real number that is not negative. *)
Definition whole_part (x : R) (m : nat) : Prop := (INR m <= x < INR m + 1)%R.
(** At the i-th interval, with [K] observations of which [m] are drawn for each of [r] resamples and
    which count as [no]: the reported value [n] and variance [v] do not depend on the random numbers;
    the bootstrap value is [n] on average; the bootstrap variance is on average [v] but for two
    factors, (K-1)/K and no/m. *)
Definition agrees_on_average {G} (gs : list G) (wt : G -> R) (B : G -> Boot R) (r i K m : nat) (no : R) : Prop :=
  exists n v, (forall g, In g gs -> nth_error (b_n (B g)) i = Some n /\ nth_error (b_v (B g)) i = Some v)
    /\ mean_over gs wt (fun g => nth i (b_n_bootstrap (B g)) 0%R) = n
    /\ ((1 < r)%nat -> mean_over gs wt (fun g => nth i (b_v_bootstrap (B g)) 0%R) = ((INR K - 1) / INR K * (no / INR m) * v)%R).
(** Settings: the bootstrap is done with a fixed number of resamples. *)
Definition fixed_resamples (u : BootParams R) : Prop :=
  (0 < u_sub_sample_dt u)%Z /\ u_block u = false /\ u_bootstrap u = true /\ (u_max_resamples u <= u_n_resamples u)%Z /\ (0 < u_n_resamples u)%Z.
(** A generator whose state is a row of coins; it uses up one for each index (0 or 1) it returns. All
    16 rows of four coins are equally likely. The other routines are arbitrary. *)
Definition coins (X : Ext R nat nat nat) : Ext R nat nat nat :=
  mkExt (x_sqrt X) (fun g n m => (map (fun j => Nat.min (Nat.b2n (Nat.testbit g j)) (n - 1)) (seq 0 m), Nat.div g (Nat.pow 2 m)))
    (x_normaltest X) (x_reblock X) (x_seed_of X) (x_seed X) (x_curve_fit X) (x_eig X) (x_cov_nearest X) (x_logdet X) (x_log2pi X) (x_pinvh X)
    (x_linregress X) (x_minimize X) (x_randn X) (x_independent X) (x_propose X) (x_mvn X).
Definition rows_of_coins : list nat := seq 0 16.
Definition even_odds (g : nat) : R := (1 / 16)%R.
(** One atom, one interval, two observations: displacements 1 and 3. *)
Definition two_hops : list (Arr R) := [mkArr 2 [[mkV 1 0 0; mkV 3 0 0]%R]].
Definition two_resamples : BootParams R := mkBootParams 1 true false 2 2 (PyStr "xyz") (1 / 10)%R.
