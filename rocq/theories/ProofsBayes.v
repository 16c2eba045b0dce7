(** * ProofsBayes: the Bayesian bootstrap (C73) *)
From Verif Require Import Base Spec ModelBayes SpecBayes SpecFit Lemmas ProofsTraj.
From Coq Require Import Reals Lra Lia.
Open Scope Z_scope.

Lemma weighted_between lo hi : forall row l, length row = length l -> Forall (fun x => 0 <= x)%R row -> Forall (fun x => lo <= x <= hi)%R l ->
  (lo * rsum row <= weighted row l <= hi * rsum row)%R.
Proof.
  unfold weighted. induction row as [|w row IH]; intros [|x l] H F B; try discriminate; [cbn; lra|].
  cbn [combine map]. rewrite !rsum_cons. inversion F as [|? ? Fw F']; inversion B as [|? ? Bx B']; subst. specialize (IH l ltac:(cbn in H; lia) F' B'). cbn [fst snd].
  split; nra.
Qed.
Lemma rsum_zero_map {T} (l : list T) : rsum (map (fun _ => 0%R) l) = 0%R.
Proof. induction l as [|x l IH]; cbn; [reflexivity|]. rewrite IH. lra. Qed.
Lemma rsum_place k j : (j < k)%nat -> rsum (tab k (fun i => if Nat.eqb i j then 1%R else 0%R)) = 1%R.
Proof.
  unfold tab. intros H. assert (K : forall n s, (s <= j < s + n)%nat -> rsum (map (fun i => if Nat.eqb i j then 1%R else 0%R) (seq s n)) = 1%R).
  { induction n as [|n IH]; intros s Hs; [lia|]. cbn [seq map]. rewrite rsum_cons. destruct (Nat.eqb s j) eqn:E.
    - apply Nat.eqb_eq in E. subst s. rewrite (map_ext_in _ (fun _ => 0%R)).
      + rewrite rsum_zero_map. lra.
      + intros i Hi. apply in_seq in Hi. destruct (Nat.eqb i j) eqn:E; [apply Nat.eqb_eq in E; lia|reflexivity].
    - rewrite IH; [lra|]. apply Nat.eqb_neq in E. lia. }
  apply K. lia.
Qed.
Lemma one_place_weights k row : one_place k row -> weights_of k row.
Proof.
  intros (j & Hj & ->). split; [unfold tab; now rewrite map_length, seq_length|]. split; [|now apply rsum_place].
  apply Forall_forall. intros x Hx. unfold tab in Hx. apply in_map_iff in Hx as (i & <- & _). destruct (Nat.eqb i j); lra.
Qed.
Lemma weighted_place k j l : length l = k -> (j < k)%nat -> nth_error l j = Some (weighted (tab k (fun i => if Nat.eqb i j then 1%R else 0%R)) l).
Proof.
  intros <-. unfold weighted, tab. revert j. induction l as [|x l IH]; intros j Hj; [cbn in Hj; lia|]. cbn [length seq map combine]. rewrite rsum_cons. cbn [fst snd].
  destruct j as [|j].
  - cbn [Nat.eqb nth_error]. f_equal. rewrite <- seq_shift, map_map. cbn [Nat.eqb]. clear IH Hj.
    assert (Z : forall s, rsum (map (fun p : R * R => fst p * snd p)%R (combine (map (fun _ : nat => 0%R) s) l)) = 0%R).
    { clear. induction l as [|y l IH]; intros [|i s]; try reflexivity. cbn [map combine]. rewrite rsum_cons, IH. cbn. lra. }
    rewrite Z. lra.
  - cbn [nth_error Nat.eqb]. rewrite <- seq_shift, map_map. cbn [Nat.eqb]. rewrite (IH j) by (cbn in Hj; lia). f_equal. lra.
Qed.

Section Bayes.
  Context {G : Type} (dirichlet multinomial : G -> list R -> nat -> list (list R) * G).
  Notation boot := (bayesian_bootstrap dirichlet multinomial).
  Lemma weighted_nsum row l : nsum (zip_with nmul row l) = weighted row l.
  Proof. rewrite nsum_R. reflexivity. Qed.
  Lemma bayes_inv g l (ns : R) n r g' : boot g l ns n = Ok (r, g') ->
    length l <> 1%nat /\ exists w, r = map (fun row => weighted row l) w
      /\ ((exists alpha, length alpha = length l /\ (0 < (ns - 1) / IZR (Z.of_nat (length l) - 1))%R /\ dirichlet g alpha n = (w, g'))
          \/ (exists alpha, length alpha = length l /\ ~ (0 < (ns - 1) / IZR (Z.of_nat (length l) - 1))%R /\ multinomial g alpha n = (w, g'))).
  Proof.
    unfold bayesian_bootstrap. intros H. inv_bind H a E. unfold py_div in E. destruct (neqb _ n0) eqn:EZ; [discriminate|].
    apply neqb_R_false in EZ. injection E as <-. split.
    - intros E. apply EZ. rewrite E. reflexivity.
    - destruct (nltb n0 _) eqn:EL.
      + destruct (dirichlet _ _ _) as [w g1] eqn:ED. injection H as <- <-. exists w. split; [apply map_ext; intros; apply weighted_nsum|]. left.
        eexists. split; [|split; [|exact ED]]; [apply repeat_length|]. now apply Rltb_true in EL.
      + destruct (multinomial _ _ _) as [w g1] eqn:ED. injection H as <- <-. exists w. split; [apply map_ext; intros; apply weighted_nsum|]. right.
        eexists. split; [|split; [|exact ED]]; [apply repeat_length|]. now apply Rltb_false in EL; apply Rle_not_lt.
  Qed.
  Context (HD : draws_rows weights_of dirichlet) (HM : draws_rows one_place multinomial).
  Lemma nonempty {T} (l al : list T) : length al = length l -> l <> [] -> al <> [].
  Proof. destruct l, al; cbn; congruence. Qed.
  Lemma C73_means_proof g l (ns : R) n r g' : l <> [] -> boot g l ns n = Ok (r, g') ->
    exists w, length w = n /\ Forall (weights_of (length l)) w /\ r = map (fun row => weighted row l) w.
  Proof.
    intros Hl H. destruct (bayes_inv _ _ _ _ _ _ H) as (_ & w & -> & [(al & L & _ & E)|(al & L & _ & E)]).
    - destruct (HD g al n (nonempty l al L Hl)) as [A B]. rewrite E in A, B. rewrite L in B. now exists w.
    - destruct (HM g al n (nonempty l al L Hl)) as [A B]. rewrite E in A, B. rewrite L in B. exists w. split; [exact A|]. split; [|reflexivity].
      eapply Forall_impl; [|exact B]. intros row. apply one_place_weights.
  Qed.
  Lemma C73_range_proof g l (ns : R) n r g' lo hi : l <> [] -> boot g l ns n = Ok (r, g') -> Forall (fun x => lo <= x <= hi)%R l ->
    length r = n /\ Forall (fun x => lo <= x <= hi)%R r.
  Proof.
    intros Hl H B. destruct (C73_means_proof _ _ _ _ _ _ Hl H) as (w & L & W & ->). split; [now rewrite map_length|].
    apply Forall_forall. intros x Hx. apply in_map_iff in Hx as (row & <- & Hr). rewrite Forall_forall in W. destruct (W _ Hr) as (A1 & A2 & A3).
    pose proof (weighted_between lo hi row l A1 A2 B) as K. rewrite A3 in K. lra.
  Qed.
  Lemma C73_one_sample_proof g l (ns : R) n r g' : (2 <= length l)%nat -> (ns <= 1)%R -> boot g l ns n = Ok (r, g') -> Forall (fun x => In x l) r.
  Proof.
    intros Hl Hn H. destruct (bayes_inv _ _ _ _ _ _ H) as (_ & w & -> & [(al & L & P & E)|(al & L & _ & E)]).
    - exfalso. assert (K : (0 < IZR (Z.of_nat (length l) - 1))%R) by (apply IZR_lt; lia). apply Rlt_not_le in P. apply P.
      unfold Rdiv. assert (0 < / IZR (Z.of_nat (length l) - 1))%R by now apply Rinv_0_lt_compat. nra.
    - assert (Hne : l <> []) by (destruct l; cbn in Hl; [lia|discriminate]). destruct (HM g al n (nonempty l al L Hne)) as [_ B]. rewrite E, L in B. apply Forall_forall. intros x Hx. apply in_map_iff in Hx as (row & <- & Hr).
      cbn [fst] in B. rewrite Forall_forall in B. destruct (B _ Hr) as (j & Hj & ->). eapply nth_error_In. apply weighted_place; [reflexivity|exact Hj].
  Qed.
  Lemma C73_single_proof g (x ns : R) n : boot g [x] ns n = Raise ZeroDivisionError.
  Proof.
    unfold bayesian_bootstrap, py_div. change (nofZ (Z.of_nat (length [x]) - 1)) with 0%R.
    destruct (neqb 0%R n0) eqn:E; [reflexivity|]. apply neqb_R_false in E. cbn in E. lra.
  Qed.
  Lemma C73_runs_proof g l (ns : R) n : length l <> 1%nat -> exists r g', boot g l ns n = Ok (r, g').
  Proof.
    intros Hl. unfold bayesian_bootstrap, py_div. destruct (neqb _ n0) eqn:E.
    - exfalso. apply neqb_R_true in E. change (IZR (Z.of_nat (length l) - 1) = 0%R) in E. apply eq_IZR in E. lia.
    - cbn [bind]. destruct (nltb _ _); destruct (_ g _ n) as [w g1]; eauto.
  Qed.
  Lemma C73_affine_proof g l (ns : R) n r g' a b : l <> [] -> boot g l ns n = Ok (r, g') ->
    boot g (map (fun x => a * x + b)%R l) ns n = Ok (map (fun x => a * x + b)%R r, g').
  Proof.
    intros Hl H. unfold bayesian_bootstrap in *. rewrite map_length. inv_bind H al E. rewrite ?E. cbn [bind].
    assert (K : forall w, Forall (weights_of (length l)) w ->
      map (fun row => nsum (zip_with nmul row (map (fun x => a * x + b)%R l))) w = map (fun x => a * x + b)%R (map (fun row => nsum (zip_with nmul row l)) w)).
    { intros w HW. rewrite map_map. apply map_ext_in. intros row Hr. rewrite Forall_forall in HW. destruct (HW _ Hr) as (A1 & _ & A3).
      rewrite !weighted_nsum. unfold weighted. assert (Q : forall row l, length row = length l -> rsum (map (fun p : R * R => fst p * snd p)%R (combine row (map (fun x => a * x + b)%R l)))
        = (a * rsum (map (fun p : R * R => fst p * snd p)%R (combine row l)) + b * rsum row)%R).
      { clear. induction row as [|w row IH]; intros [|x l] H; try discriminate; [cbn; lra|]. cbn [map combine]. rewrite !rsum_cons, IH by (cbn in H; lia). cbn [fst snd]. lra. }
      rewrite Q by exact A1. rewrite A3. lra. }
    destruct (nltb _ _).
    - assert (Hne : repeat (n1 * al)%num (length l) <> []) by (destruct l; [congruence|discriminate]). destruct (HD g _ n Hne) as [_ B]. rewrite repeat_length in B. destruct (dirichlet _ _ _) as [w g1]. injection H as <- <-. cbn [fst] in B. now rewrite K.
    - assert (Hne : repeat ((n1 : R) / nofZ (Z.of_nat (length l)))%num (length l) <> []) by (destruct l; [congruence|discriminate]). destruct (HM g _ n Hne) as [_ B]. rewrite repeat_length in B. destruct (multinomial _ _ _) as [w g1]. injection H as <- <-. cbn [fst] in B.
      rewrite K; [reflexivity|]. eapply Forall_impl; [|exact B]. intros row. apply one_place_weights.
  Qed.
End Bayes.

(** Equal weights, and always the first place. *)
Definition equal_weights (g : unit) (alpha : list R) (n : nat) : list (list R) * unit :=
  (repeat (repeat (/ INR (length alpha))%R (length alpha)) n, g).
Definition first_place (g : unit) (alpha : list R) (n : nat) : list (list R) * unit :=
  (repeat (tab (length alpha) (fun i => if Nat.eqb i 0 then 1%R else 0%R)) n, g).
Lemma C73_example_proof : draws_rows weights_of equal_weights /\ draws_rows one_place first_place
  /\ bayesian_bootstrap equal_weights first_place tt [1; 3]%R 2%R 2 = Ok ([2; 2]%R, tt)
  /\ bayesian_bootstrap equal_weights first_place tt [1; 3]%R 1%R 2 = Ok ([1; 1]%R, tt).
Proof.
  split; [|split; [|split]].
  - intros g al n Ha. unfold equal_weights. cbn [fst]. split; [apply repeat_length|]. apply Forall_forall. intros row Hr. apply repeat_spec in Hr. subst row.
    destruct al as [|x al]; [congruence|]. set (k := length (x :: al)). assert (P : (0 < INR k)%R) by (apply lt_0_INR; cbn; lia).
    split; [apply repeat_length|]. split.
    + apply Forall_forall. intros y Hy. apply repeat_spec in Hy. subst y. left. now apply Rinv_0_lt_compat.
    + assert (Q : forall c m, rsum (repeat c m) = (INR m * c)%R) by (intros c m; induction m as [|m IH]; [cbn; lra|cbn [repeat]; rewrite rsum_cons, IH, S_INR; lra]).
      rewrite Q. field. lra.
  - intros g al n Ha. unfold first_place. cbn [fst]. split; [apply repeat_length|]. apply Forall_forall. intros row Hr. apply repeat_spec in Hr. subst row.
    exists 0%nat. split; [destruct al; [congruence|cbn; lia]|reflexivity].
  - unfold bayesian_bootstrap, py_div. cbn [length]. change (nofZ (Z.of_nat 2 - 1)) with 1%R. destruct (neqb 1%R n0) eqn:E; [apply neqb_R_true in E; cbn in E; lra|].
    cbn [bind]. assert (L : nltb (n0 : R) ((2%R - n1) / 1%R)%num = true) by (numR; apply Rltb_true; lra). rewrite L. cbn [equal_weights repeat length map].
    rewrite !weighted_nsum. unfold weighted. cbn. do 2 f_equal. f_equal; [|f_equal]; field.
  - unfold bayesian_bootstrap, py_div. cbn [length]. change (nofZ (Z.of_nat 2 - 1)) with 1%R. destruct (neqb 1%R n0) eqn:E; [apply neqb_R_true in E; cbn in E; lra|].
    cbn [bind]. assert (L : nltb (n0 : R) ((1%R - n1) / 1%R)%num = false) by (numR; apply Rltb_false; lra). rewrite L. cbn [first_place repeat length map tab seq Nat.eqb].
    rewrite !weighted_nsum. unfold weighted. cbn. do 2 f_equal. f_equal; [|f_equal]; ring.
Qed.
