(** * ProofsStop: resampling until a normality test is passed (C129) *)
From Verif Require Import Base Spec SpecParser SpecStats SpecRun SpecFit SpecMarkov SpecCalib SpecResample ModelParser ModelDiffusion ModelHdf Lemmas
  ProofsDisp ProofsCov ProofsBoot ProofsStats ProofsFit ProofsFit2 ProofsTrue SpecSym ProofsTime ProofsMarkov ProofsCalib ProofsResample SpecStop.
From Coq Require Import Reals Lra Lia.
Open Scope nat_scope.

(** ** Averages over all lists *)
Lemma all_lists_length k m ix : In ix (all_lists k m) -> length ix = m /\ Forall (fun j => j < k) ix.
Proof.
  revert ix. induction m as [|m IH]; intros ix H; cbn [all_lists] in H.
  - destruct H as [<-|[]]. split; [reflexivity|constructor].
  - apply in_flat_map in H as (j & Hj & H). apply in_map_iff in H as (iy & <- & H). apply in_seq in Hj. destruct (IH iy H) as [L F]. cbn. split; [lia|constructor; [lia|exact F]].
Qed.
Lemma flat_map_count {S T} (f : S -> list T) c l : (forall x, In x l -> length (f x) = c) -> length (flat_map f l) = length l * c.
Proof. induction l as [|a l IH]; intros H; [reflexivity|]. cbn [flat_map]. rewrite app_length, IH, H by (first [now left | intros; apply H; now right]). cbn. lia. Qed.
Lemma all_lists_count k m : length (all_lists k m) = k ^ m.
Proof.
  induction m as [|m IH]; [reflexivity|]. cbn [all_lists]. rewrite (flat_map_count _ (k ^ m)), seq_length by (intros; now rewrite map_length). reflexivity.
Qed.
Notation over k m F := (average (map F (all_lists k m))).
Lemma rsum_flat_map {S T} (F : T -> R) (f : S -> list T) l : rsum (map F (flat_map f l)) = rsum (map (fun x => rsum (map F (f x))) l).
Proof. induction l as [|a l IH]; [reflexivity|]. cbn [flat_map map]. rewrite map_app, rsum_app, IH. reflexivity. Qed.
Lemma over_zero k F : over k 0 F = F [].
Proof. cbn. unfold average. cbn. field. Qed.
Lemma over_succ k m F : 0 < k -> over k (S m) F = average (tab k (fun j => over k m (fun ix => F (j :: ix)))).
Proof.
  intros Hk. unfold average. rewrite !map_length, tab_length, all_lists_count. cbn [all_lists]. rewrite rsum_flat_map. unfold tab.
  rewrite (map_ext (fun j => rsum (map (fun ix => F (j :: ix)) (all_lists k m)) / INR (length (map (fun ix => F (j :: ix)) (all_lists k m))))%R
    (fun j => / INR (k ^ m) * rsum (map F (map (cons j) (all_lists k m))))%R).
  2:{ intros j. rewrite map_length, all_lists_count, map_map. unfold Rdiv. ring. }
  rewrite rsum_map_scale. rewrite Nat.pow_succ_r', mult_INR.
  assert (P : (INR (k ^ m) <> 0)%R) by (apply not_0_INR, Nat.pow_nonzero; lia). assert (INR k <> 0)%R by (apply not_0_INR; lia).
  field. now split.
Qed.
Lemma over_ext k m F F' : (forall ix, length ix = m -> Forall (fun j => j < k) ix -> F ix = F' ix) -> over k m F = over k m F'.
Proof. intros H. f_equal. apply map_ext_in. intros ix Hi. destruct (all_lists_length _ _ _ Hi). now apply H. Qed.
Lemma over_plus k m F F' : over k m (fun ix => F ix + F' ix)%R = (over k m F + over k m F')%R.
Proof. unfold average. rewrite !map_length, rsum_map_plus. unfold Rdiv. ring. Qed.
Lemma over_scale k m c F : over k m (fun ix => c * F ix)%R = (c * over k m F)%R.
Proof. unfold average. rewrite !map_length, rsum_map_scale. unfold Rdiv. ring. Qed.
Lemma over_const k m c : 0 < k -> over k m (fun _ => c) = c.
Proof. intros Hk. apply average_const. intros E. apply (f_equal (@length _)) in E. rewrite all_lists_count in E. cbn in E. assert (k ^ m <> 0) by (apply Nat.pow_nonzero; lia). lia. Qed.
Lemma over_split k F a b : 0 < k -> over k (a + b) (fun g => F (firstn a g) (skipn a g)) = over k a (fun x => over k b (fun y => F x y)).
Proof.
  intros Hk. revert F. induction a as [|a IH]; intros F.
  - rewrite over_zero. cbn [Nat.add]. apply over_ext. intros. reflexivity.
  - cbn [Nat.add]. rewrite !over_succ by exact Hk. f_equal. unfold tab. apply map_ext. intros j. cbn [firstn skipn]. apply (IH (fun x y => F (j :: x) y)).
Qed.
Section Centred.
  Context (k : nat) (c : nat -> R) (s2 : R).
  Hypotheses (Hk : 0 < k) (C0 : average (tab k c) = 0%R) (C2 : average (tab k (fun j => c j * c j)%R) = s2).
  Lemma over_sum m : over k m (fun ix => rsum (map c ix)) = 0%R.
  Proof.
    induction m as [|m IH]; [apply over_zero|]. rewrite over_succ by exact Hk. cbn [map]. rewrite <- C0. f_equal. unfold tab. apply map_ext. intros j.
    rewrite (over_ext k m _ (fun ix => c j + rsum (map c ix))%R) by (intros; now rewrite rsum_cons). rewrite over_plus, IH, over_const by exact Hk. ring.
  Qed.
  Lemma over_square m : over k m (fun ix => rsum (map c ix) * rsum (map c ix))%R = (INR m * s2)%R.
  Proof.
    induction m as [|m IH]; [rewrite over_zero; cbn; ring|]. rewrite over_succ by exact Hk. cbn [map].
    rewrite (f_equal average (y := tab k (fun j => c j * c j + INR m * s2)%R)).
    - assert (A : average (tab k (fun _ => INR m * s2)%R) = (INR m * s2)%R) by (apply average_const; destruct k; [lia|discriminate]).
      unfold tab in *. rewrite average_plus, A, C2, S_INR. ring.
    - unfold tab. apply map_ext. intros j.
      rewrite (over_ext k m _ (fun ix => c j * c j + (2 * c j * rsum (map c ix) + rsum (map c ix) * rsum (map c ix)))%R) by (intros; rewrite rsum_cons; ring).
      rewrite !over_plus, IH, over_const, over_scale, over_sum by exact Hk. ring.
  Qed.
End Centred.
Section Picks.
  Context (l : list R) (m : nat).
  Hypotheses (Hl : 0 < length l) (Hm : 0 < m).
  Let c j := (nth j l 0 - average l)%R.
  Lemma pick_off ix : length ix = m -> (pick l ix - average l = / INR m * rsum (map c ix))%R.
  Proof.
    intros E. unfold pick, c. rewrite (rsum_map_minus (fun j => nth j l 0%R) (fun _ => average l)), rsum_const, E. unfold average at 1. rewrite map_length, E. field. apply not_0_INR. lia.
  Qed.
  Lemma off_zero : average (tab (length l) c) = 0%R.
  Proof.
    unfold c. rewrite (tab_list l (fun x => x - average l)%R). rewrite (average_minus (fun x => x) (fun _ => average l)), map_id, average_const by (destruct l; [cbn in Hl; lia|discriminate]). ring.
  Qed.
  Lemma off_square : average (tab (length l) (fun j => c j * c j)%R) = population_variance l.
  Proof. unfold c. apply (tab_list l (fun x => (x - average l) * (x - average l))%R). Qed.
  Lemma over_pick : over (length l) m (pick l) = average l.
  Proof.
    rewrite (over_ext _ _ _ (fun ix => average l + / INR m * rsum (map c ix))%R) by (intros ix E _; rewrite <- pick_off by exact E; ring).
    rewrite over_plus, over_scale, over_const, (over_sum _ c) by (first [exact Hl | exact off_zero]). ring.
  Qed.
  Lemma over_pick_off : over (length l) m (fun ix => pick l ix - average l)%R = 0%R.
  Proof.
    rewrite (over_ext _ _ _ (fun ix => / INR m * rsum (map c ix))%R) by (intros ix E _; now apply pick_off). rewrite over_scale, (over_sum _ c) by (first [exact Hl | exact off_zero]). ring.
  Qed.
  Lemma over_pick_square : over (length l) m (fun ix => (pick l ix - average l) * (pick l ix - average l))%R = (population_variance l / INR m)%R.
  Proof.
    rewrite (over_ext _ _ _ (fun ix => / (INR m * INR m) * (rsum (map c ix) * rsum (map c ix)))%R).
    - rewrite over_scale, (over_square _ c (population_variance l)) by (first [exact Hl | exact off_zero | exact off_square]). field. apply not_0_INR. lia.
    - intros ix E _. rewrite pick_off by exact E. field. apply not_0_INR. lia.
  Qed.
End Picks.

(** ** Sums over lists that are drawn as long as the earlier ones ask for it *)
Section Draws.
  Context {G Seed RS : Type} (X : Ext R G Seed RS) (k m : nat).
  Notation H := (first_lists X k m).
  Lemma first_length p g : length (H p g) = p.
  Proof. unfold first_lists. now rewrite drawn_length, repeat_length. Qed.
  Lemma first_first a b g : firstn a (H (a + b) g) = H a g.
  Proof.
    unfold first_lists. rewrite repeat_app, drawn_app. cbn [fst]. rewrite firstn_app. rewrite drawn_length, repeat_length, Nat.sub_diag. cbn [firstn]. rewrite app_nil_r.
    apply firstn_all2. rewrite drawn_length, repeat_length. lia.
  Qed.
  Lemma first_le a n g : a <= n -> H a g = firstn a (H n g).
  Proof. intros L. replace n with (a + (n - a)) by lia. now rewrite first_first. Qed.
  Lemma first_nth p n g : p < n -> nth p (H n g) [] = nth p (H (S p) g) [].
  Proof. intros L. rewrite (first_le (S p) n) by lia. symmetry. rewrite <- (firstn_skipn (S p) (H n g)) at 2. rewrite app_nth1; [reflexivity|]. rewrite firstn_length, first_length. lia. Qed.
  Context (u : list (list nat) -> R) (z : list nat -> R).
  Definition asked (N : nat) (h : list (list nat)) : R := sumto N (fun p => u (firstn p h) * z (nth p h []))%R.
  Lemma asked_first n N g : N <= n -> asked N (H n g) = sumto N (fun p => u (H p g) * z (nth p (H (S p) g) []))%R.
  Proof.
    unfold asked. induction N as [|N IH]; intros L; [reflexivity|]. cbn [sumto]. rewrite IH by lia. rewrite <- first_le by lia. rewrite (first_nth N n) by lia. reflexivity.
  Qed.
  Context (gs : list G) (wt : G -> R) (n : nat).
  Hypothesis I : independent_lists gs wt X k m n.
  Notation M := (mean_over gs wt).
  Lemma mean_asked N : N <= n -> M (fun g => asked N (H n g)) = (over k m z * M (fun g => sumto N (fun p => u (H p g))))%R.
  Proof.
    intros L. rewrite (mean_ext gs wt _ (fun g => sumto N (fun p => u (H p g) * z (nth p (H (S p) g) []))%R)) by (intros; now apply asked_first).
    rewrite (mean_sumto gs wt N (fun p g => u (H p g) * z (nth p (H (S p) g) []))%R), (mean_sumto gs wt N (fun p g => u (H p g))).
    induction N as [|N IH]; cbn [sumto]; [ring|]. rewrite IH by lia. rewrite (I N u z ltac:(lia)). ring.
  Qed.
  Hypothesis Z0 : over k m z = 0%R.
  Hypothesis U : forall h, (u h * u h = u h)%R.
  Lemma mean_zero : M (fun _ => 0%R) = 0%R.
  Proof. exact (mean_sumto gs wt 0 (fun _ _ => 0%R)). Qed.
  Lemma mean_asked_square N : N <= n -> M (fun g => asked N (H n g) * asked N (H n g))%R = (over k m (fun ix => z ix * z ix)%R * M (fun g => sumto N (fun p => u (H p g))))%R.
  Proof.
    induction N as [|N IH]; intros L.
    - unfold asked. cbn [sumto]. transitivity (M (fun _ : G => 0%R)); [apply mean_ext; intros; ring|]. rewrite !mean_zero. ring.
    - assert (E : forall g, asked (S N) (H n g) = (asked N (H N g) + u (H N g) * z (nth N (H (S N) g) []))%R).
      { intros g. rewrite !asked_first by lia. reflexivity. }
      rewrite (mean_ext gs wt _ (fun g => asked N (H N g) * asked N (H N g) + (2 * ((asked N (H N g) * u (H N g)) * z (nth N (H (S N) g) [])) + u (H N g) * (z (nth N (H (S N) g) []) * z (nth N (H (S N) g) []))))%R).
      2:{ intros g _. rewrite E. set (zz := z (nth N (H (S N) g) [])). replace (u (H N g) * (zz * zz))%R with ((u (H N g) * u (H N g)) * (zz * zz))%R by (now rewrite U). ring. }
      rewrite !mean_plus, mean_scale. rewrite (I N (fun h => asked N h * u h)%R z ltac:(lia)), (I N u (fun ix => z ix * z ix)%R ltac:(lia)), Z0.
      cbn [sumto]. rewrite mean_plus. rewrite (mean_ext gs wt (fun g => asked N (H N g) * asked N (H N g))%R (fun g => asked N (H n g) * asked N (H n g))%R), IH by (first [lia | intros g _; now rewrite !asked_first by lia]).
      ring.
  Qed.
End Draws.

(** ** sample_until_normal *)
Section Sample.
  Context {G Seed RS : Type} (X : Ext R G Seed RS).
  Lemma loop_drawn' (l : list R) ns m mr alpha : py_int ns = Ok (Z.of_nat m) -> forall fuel g c values v w g',
    resample_loop X fuel (snd (drawn X g (repeat (length l, m) c))) l ns mr alpha values = Some (Ok (v, w, g')) -> values = map (pick l) (first_lists X (length l) m c g) ->
    v = map (pick l) (first_lists X (length l) m (length v) g).
  Proof.
    intros Hm. induction fuel as [|f IH]; intros g c values v w g' H E; cbn [resample_loop] in H; destruct (_ && _).
    - discriminate.
    - injection H as <- _ _. rewrite E at 1. now rewrite E, map_length, first_length.
    - destruct (bootstrap_n X _ l ns 100) as [[more g1]|] eqn:EB; [|discriminate]. destruct (bootstrap_drawn X l ns m Hm _ _ _ _ EB) as [-> ->].
      apply (IH g (c + 100) (values ++ map (pick l) (fst (drawn X (snd (drawn X g (repeat (length l, m) c))) (repeat (length l, m) 100))))%list v w g').
      + rewrite repeat_app, drawn_app. cbn [snd]. exact H.
      + unfold first_lists. rewrite repeat_app, drawn_app. cbn [fst]. rewrite map_app. now rewrite E.
    - injection H as <- _ _. rewrite E at 1. now rewrite E, map_length, first_length.
  Qed.
  Lemma sample_drawn (l : list R) ns m n_re mr alpha g v w g' : py_int ns = Ok (Z.of_nat m) -> sample_until_normal X g l ns n_re mr alpha = Some (Ok (v, w, g')) ->
    v = map (pick l) (first_lists X (length l) m (length v) g).
  Proof.
    intros Hm H. unfold sample_until_normal in H. destruct (bootstrap_n X g l ns (Z.to_nat n_re)) as [[vals g1]|] eqn:E; [|discriminate].
    destruct (bootstrap_drawn X l ns m Hm _ _ _ _ E) as [-> ->]. exact (loop_drawn' l ns m mr alpha Hm _ _ _ _ _ _ _ H eq_refl).
  Qed.
  (** Whether one more resample is drawn after the lists [h]. *)
  Definition wanted (l : list R) (n0 : nat) (mr : Z) (alpha : R) (h : list (list nat)) : bool :=
    forallb (fun j => negb (n0 + 100 * j <=? length h) || (Rltb (x_normaltest X (firstn (n0 + 100 * j) (map (pick l) h))) alpha && (Z.of_nat (n0 + 100 * j) <? mr)%Z)) (seq 0 (S (length h))).
  Definition want l n0 mr alpha h : R := if wanted l n0 mr alpha h then 1%R else 0%R.
  Lemma want_square l n0 mr alpha h : (want l n0 mr alpha h * want l n0 mr alpha h = want l n0 mr alpha h)%R.
  Proof. unfold want. destruct (wanted _ _ _ _ _); ring. Qed.
  Lemma wanted_spec (l : list R) ns m n_re mr alpha g v w g' p : py_int ns = Ok (Z.of_nat m) -> sample_until_normal X g l ns n_re mr alpha = Some (Ok (v, w, g')) ->
    wanted l (Z.to_nat n_re) mr alpha (first_lists X (length l) m p g) = (p <? length v).
  Proof.
    intros Hm H. pose proof (sample_drawn _ _ _ _ _ _ _ _ _ _ Hm H) as EV. destruct (C39_proof X g l ns n_re mr alpha) as (res & Er & Hr). rewrite H in Er. injection Er as <-.
    destruct (Hr v w g' eq_refl) as ((k & K1 & K2 & K3) & _). set (n0 := Z.to_nat n_re) in *. unfold wanted. rewrite first_length.
    assert (FV : forall c, c <= p -> c <= length v -> firstn c (map (pick l) (first_lists X (length l) m p g)) = firstn c v).
    { intros c L1 L2. rewrite EV at 1. rewrite !firstn_map, <- !first_le by lia. reflexivity. }
    destruct (p <? length v) eqn:E.
    - apply Nat.ltb_lt in E. apply forallb_forall. intros j _. destruct (Nat.leb_spec (n0 + 100 * j) p) as [L|L]; [|reflexivity]. cbn [negb orb].
      rewrite FV by lia. destruct (K2 j ltac:(lia)) as [A1 A2]. apply andb_true_iff. split; [now apply Rltb_true|apply Z.ltb_lt; exact A2].
    - apply Nat.ltb_ge in E. apply not_true_is_false. intros C. rewrite forallb_forall in C. specialize (C k). rewrite <- K1 in C.
      assert (In k (seq 0 (S p))) as IK by (apply in_seq; lia). specialize (C IK). destruct (Nat.leb_spec (length v) p) as [_|L]; [|lia]. cbn [negb orb] in C.
      rewrite FV, firstn_all in C by lia. apply andb_true_iff in C as [C1 C2]. apply Rltb_true in C1. apply Z.ltb_lt in C2. destruct K3 as [K3|K3]; [lra|lia].
  Qed.
  Lemma sample_most (l : list R) ns n_re mr alpha g v w g' : (0 <= n_re)%Z -> sample_until_normal X g l ns n_re mr alpha = Some (Ok (v, w, g')) ->
    Z.to_nat n_re <= length v <= most_resamples n_re mr.
  Proof.
    intros Hn H. destruct (C39_bound_proof X _ _ _ _ _ _ _ _ _ Hn H) as ((k & K1 & K2) & B & _). unfold most_resamples. destruct B; lia.
  Qed.
  Lemma sumto_below (f : nat -> R) N n : N <= n -> sumto n (fun p => (if p <? N then 1 else 0) * f p)%R = sumto N f.
  Proof.
    revert N. induction n as [|n IH]; intros N L; [replace N with 0 by lia; reflexivity|]. cbn [sumto]. destruct (Nat.eq_dec N (S n)) as [->|Hne].
    - replace (n <? S n) with true by (symmetry; apply Nat.ltb_lt; lia). cbn [sumto]. rewrite Rmult_1_l. f_equal.
      assert (Q : forall q, q <= n -> sumto q (fun p => (if p <? S n then 1 else 0) * f p)%R = sumto q f).
      { induction q as [|q IHq]; intros Lq; [reflexivity|]. cbn [sumto]. rewrite IHq by lia. replace (q <? S n) with true by (symmetry; apply Nat.ltb_lt; lia). ring. }
      apply Q. lia.
    - rewrite IH by lia. replace (n <? N) with false by (symmetry; apply Nat.ltb_ge; lia). ring.
  Qed.
  Lemma sumto_one N : sumto N (fun _ => 1%R) = INR N.
  Proof. induction N as [|N IH]; [reflexivity|]. cbn [sumto]. rewrite IH, S_INR. reflexivity. Qed.
  Lemma sumto_same n (f h : nat -> R) : (forall p, p < n -> f p = h p) -> sumto n f = sumto n h.
  Proof. induction n as [|n IH]; intros E; [reflexivity|]. cbn [sumto]. rewrite IH by (intros; apply E; lia). now rewrite E by lia. Qed.
  Lemma sumto_nth (F : list nat -> R) (h : list (list nat)) : sumto (length h) (fun p => F (nth p h [])) = rsum (map F h).
  Proof.
    induction h as [|a h IH] using rev_ind; [reflexivity|]. rewrite app_length, map_app, rsum_app. cbn [length map rsum]. rewrite Nat.add_1_r. cbn [sumto].
    rewrite (sumto_same _ _ (fun p => F (nth p h []))) by (intros p Hp; now rewrite app_nth1). rewrite IH. rewrite app_nth2, Nat.sub_diag by lia. cbn [nth]. ring.
  Qed.
  (** The sum of [z] over the lists used. *)
  Lemma asked_used (l : list R) ns m n_re mr alpha g v w g' n z : py_int ns = Ok (Z.of_nat m) -> sample_until_normal X g l ns n_re mr alpha = Some (Ok (v, w, g')) -> length v <= n ->
    asked (want l (Z.to_nat n_re) mr alpha) z n (first_lists X (length l) m n g) = rsum (map z (first_lists X (length l) m (length v) g))
    /\ sumto n (fun p => want l (Z.to_nat n_re) mr alpha (first_lists X (length l) m p g)) = INR (length v).
  Proof.
    intros Hm H L. assert (W : forall p, want l (Z.to_nat n_re) mr alpha (first_lists X (length l) m p g) = (if p <? length v then 1 else 0)%R).
    { intros p. unfold want. now rewrite (wanted_spec _ _ _ _ _ _ _ _ _ _ p Hm H). }
    split.
    - rewrite asked_first by lia. rewrite (sumto_same _ _ (fun p => (if p <? length v then 1 else 0) * z (nth p (first_lists X (length l) m (S p) g) []))%R) by (intros p _; now rewrite W).
      rewrite sumto_below by exact L. rewrite <- sumto_nth, first_length. apply sumto_same. intros p Hp. now rewrite (first_nth X (length l) m p (length v)) by lia.
    - rewrite (sumto_same _ _ (fun p => (if p <? length v then 1 else 0) * 1)%R) by (intros; rewrite W; ring). rewrite sumto_below by exact L. apply sumto_one.
  Qed.

  Context (gs : list G) (wt : G -> R) (l : list R) (ns : R) (m : nat) (n_re mr : Z) (alpha : R) (V : G -> list R).
  Hypotheses (Hns : whole_part ns m) (Hm : 0 < m) (Hl : 0 < length l) (Hre : (0 <= n_re)%Z)
    (HV : forall g, In g gs -> exists w g', sample_until_normal X g l ns n_re mr alpha = Some (Ok (V g, w, g')))
    (HI : independent_lists gs wt X (length l) m (most_resamples n_re mr)).
  Notation M := (mean_over gs wt).
  Notation n1 := (most_resamples n_re mr).
  Let U := want l (Z.to_nat n_re) mr alpha.
  Lemma used_facts g z : In g gs -> asked U z n1 (first_lists X (length l) m n1 g) = rsum (map z (first_lists X (length l) m (length (V g)) g))
    /\ sumto n1 (fun p => U (first_lists X (length l) m p g)) = INR (length (V g)) /\ V g = map (pick l) (first_lists X (length l) m (length (V g)) g) /\ Z.to_nat n_re <= length (V g) <= n1.
  Proof.
    intros Hg. destruct (HV g Hg) as (w & g' & H). pose proof (whole_int _ _ Hns) as Hi. pose proof (sample_most _ _ _ _ _ _ _ _ _ Hre H) as L.
    destruct (asked_used _ _ _ _ _ _ _ _ _ _ n1 z Hi H ltac:(lia)) as [A1 A2]. split; [exact A1|]. split; [exact A2|]. split; [exact (sample_drawn _ _ _ _ _ _ _ _ _ _ Hi H)|exact L].
  Qed.
  Lemma C129_total_proof : M (fun g => rsum (V g)) = (average l * M (fun g => INR (length (V g))))%R.
  Proof.
    rewrite <- (over_pick l m Hl Hm). rewrite (mean_ext gs wt (fun g => INR (length (V g))) (fun g => sumto n1 (fun p => U (first_lists X (length l) m p g)))) by (intros g Hg; symmetry; apply (used_facts g (pick l) Hg)).
    rewrite <- (mean_asked X (length l) m U (pick l) gs wt n1 HI n1 (Nat.le_refl _)). apply mean_ext. intros g Hg. destruct (used_facts g (pick l) Hg) as (-> & _ & E & _). now rewrite <- E.
  Qed.
  Lemma C129_any_proof (f : R -> R) :
    M (fun g => rsum (map f (V g))) = (average (map (fun ix => f (average (map (fun j => nth j l 0%R) ix))) (all_lists (length l) m)) * M (fun g => INR (length (V g))))%R.
  Proof.
    rewrite (mean_ext gs wt (fun g => INR (length (V g))) (fun g => sumto n1 (fun p => U (first_lists X (length l) m p g)))) by (intros g Hg; symmetry; apply (used_facts g (pick l) Hg)).
    etransitivity; [|exact (mean_asked X (length l) m U (fun ix => f (pick l ix)) gs wt n1 HI n1 (Nat.le_refl _))]. apply mean_ext. intros g Hg. destruct (used_facts g (fun ix => f (pick l ix)) Hg) as (-> & _ & E & _). rewrite E at 1. now rewrite map_map.
  Qed.
  Lemma C129_spread_proof : M (fun g => rsum (map (fun x => (x - average l) * (x - average l))%R (V g))) = (population_variance l / INR m * M (fun g => INR (length (V g))))%R.
  Proof. rewrite (C129_any_proof (fun x => (x - average l) * (x - average l))%R). f_equal. exact (over_pick_square l m Hl Hm). Qed.
  Definition excess g := (rsum (V g) - INR (length (V g)) * average l)%R.
  Lemma excess_asked g : In g gs -> excess g = asked U (fun ix => pick l ix - average l)%R n1 (first_lists X (length l) m n1 g).
  Proof.
    intros Hg. destruct (used_facts g (fun ix => pick l ix - average l)%R Hg) as (-> & _ & E & _). rewrite (rsum_map_minus (pick l) (fun _ => average l)), rsum_const, first_length, <- E. reflexivity.
  Qed.
  Lemma C129_square_proof : M (fun g => excess g * excess g)%R = (population_variance l / INR m * M (fun g => INR (length (V g))))%R.
  Proof.
    rewrite <- (over_pick_square l m Hl Hm). rewrite (mean_ext gs wt (fun g => INR (length (V g))) (fun g => sumto n1 (fun p => U (first_lists X (length l) m p g)))) by (intros g Hg; symmetry; apply (used_facts g (pick l) Hg)).
    rewrite <- (mean_asked_square X (length l) m U (fun ix => pick l ix - average l)%R gs wt n1 HI (over_pick_off l m Hl Hm) (want_square l _ mr alpha) n1 (Nat.le_refl _)).
    apply mean_ext. intros g Hg. now rewrite excess_asked by exact Hg.
  Qed.
  Hypotheses (Hw : forall g, In g gs -> (0 <= wt g)%R) (Hw1 : rsum (map wt gs) = 1%R) (Hr0 : (0 < n_re)%Z).
  Lemma mean_le f h : (forall g, In g gs -> (f g <= h g)%R) -> (M f <= M h)%R.
  Proof.
    intros E. unfold mean_over. revert Hw E. clear. induction gs as [|g l IH]; intros Hw E; cbn [map rsum]; [lra|]. pose proof (Hw g (or_introl eq_refl)). pose proof (E g (or_introl eq_refl)).
    specialize (IH (fun y Hy => Hw y (or_intror Hy)) (fun y Hy => E y (or_intror Hy))). cbn in *. nra.
  Qed.
  Lemma C129_bias_proof :
    ((M (fun g => average (V g)) - average l)² <= ((/ INR (Z.to_nat n_re) - / INR n1) / 2)² * (INR n1 * (population_variance l / INR m)))%R.
  Proof.
    set (n0 := Z.to_nat n_re). assert (P0 : 0 < n0) by (unfold n0; lia). assert (P1 : n0 <= n1) by (unfold most_resamples; fold n0; lia).
    assert (Q0 : (0 < INR n0)%R) by (apply lt_0_INR; exact P0). assert (Q1 : (0 < INR n1)%R) by (apply lt_0_INR; lia).
    set (c := ((/ INR n0 + / INR n1) / 2)%R). set (d := ((/ INR n0 - / INR n1) / 2)%R). set (e := fun g => (/ INR (length (V g)) - c)%R).
    assert (D0 : (0 <= d)%R). { unfold d. assert (/ INR n1 <= / INR n0)%R by (apply Rinv_le_contravar; [exact Q0|now apply le_INR]). lra. }
    assert (ED : forall g, In g gs -> (e g * e g <= d * d)%R).
    { intros g Hg. destruct (used_facts g (pick l) Hg) as (_ & _ & _ & L). fold n0 in L. assert (0 < INR (length (V g)))%R by (apply lt_0_INR; lia).
      assert (/ INR n1 <= / INR (length (V g)))%R by (apply Rinv_le_contravar; [lra|apply le_INR; lia]). assert (/ INR (length (V g)) <= / INR n0)%R by (apply Rinv_le_contravar; [lra|apply le_INR; lia]).
      unfold e, c, d in *. nra. }
    assert (T0 : M excess = 0%R).
    { unfold excess. rewrite (mean_ext gs wt _ (fun g => rsum (V g) + - average l * INR (length (V g)))%R) by (intros; ring). rewrite mean_plus, mean_scale, C129_total_proof. ring. }
    set (b := M (fun g => excess g * e g)%R).
    assert (B : (M (fun g => average (V g)) - average l)%R = b).
    { unfold b, e. rewrite (mean_ext gs wt (fun g => excess g * (/ INR (length (V g)) - c))%R (fun g => (average (V g) + - average l) + - c * excess g)%R).
      - rewrite !mean_plus, mean_scale, T0, mean_const by exact Hw1. ring.
      - intros g Hg. destruct (used_facts g (pick l) Hg) as (_ & _ & _ & L). fold n0 in L. unfold excess, average at 2. field. apply not_0_INR. lia. }
    rewrite B. set (T2 := M (fun g => excess g * excess g)%R).
    assert (T2b : (T2 <= INR n1 * (population_variance l / INR m))%R).
    { unfold T2. rewrite C129_square_proof. assert (PV : (0 <= population_variance l / INR m)%R).
      { apply Rmult_le_pos; [|apply Rlt_le, Rinv_0_lt_compat, lt_0_INR; exact Hm]. unfold population_variance. apply average_nonneg. apply Forall_map, Forall_forall. intros x _. apply Rle_0_sqr. }
      rewrite Rmult_comm. apply Rmult_le_compat_r; [exact PV|]. rewrite <- (mean_const gs wt (INR n1) Hw1). apply mean_le. intros g Hg. apply le_INR. apply (used_facts g (pick l) Hg). }
    assert (T2p : (0 <= T2)%R) by (apply mean_square; exact Hw).
    apply (Rle_trans _ (d² * T2)); [|apply Rmult_le_compat_l; [apply Rle_0_sqr|exact T2b]].
    assert (CS : (0 <= d * d * (d * d) * T2 - 2 * (d * d) * (b * b) + b * b * M (fun g => e g * e g)%R)%R).
    { replace (d * d * (d * d) * T2 - 2 * (d * d) * (b * b) + b * b * M (fun g => e g * e g)%R)%R with (M (fun g => (d * d * excess g - b * e g) * (d * d * excess g - b * e g))%R).
      - apply mean_square. exact Hw.
      - rewrite (mean_ext gs wt _ (fun g => d * d * (d * d) * (excess g * excess g) + (- (2 * (d * d) * b) * (excess g * e g) + b * b * (e g * e g)))%R) by (intros; ring).
        rewrite !mean_plus, !mean_scale. fold T2 b. ring. }
    assert (E2 : (M (fun g => e g * e g)%R <= d * d)%R) by (rewrite <- (mean_const gs wt (d * d)%R Hw1); apply mean_le; exact ED).
    unfold Rsqr. destruct (Req_dec d 0) as [Z|Z].
    - assert (b = 0%R); [|nra]. unfold b. rewrite <- (mean_const gs wt 0%R Hw1). apply mean_ext. intros g Hg. specialize (ED g Hg). rewrite Z in ED. assert (e g = 0%R) by nra. rewrite H. ring.
    - assert (0 < d * d)%R by nra. assert (0 <= d * d * (d * d * T2 - b * b))%R by nra. nra.
  Qed.
  Lemma dof_variance v : 1 < length v -> ((INR (length v) - 1) * sample_variance v
    = rsum (map (fun x => (x - average l) * (x - average l))%R v) - (rsum v - INR (length v) * average l) * (rsum v - INR (length v) * average l) / INR (length v))%R.
  Proof.
    intros L. assert (P : (1 < INR (length v))%R) by (apply (lt_INR 1); exact L).
    unfold sample_variance. rewrite !rsum_sq_dev. set (a := average l). unfold average. field. lra.
  Qed.
  Lemma C129_variance_proof : (1 < n_re)%Z -> let s2 := (population_variance l / INR m)%R in
    (s2 * (1 - / INR (Z.to_nat n_re)) * M (fun g => INR (length (V g))) <= M (fun g => (INR (length (V g)) - 1) * sample_variance (V g)) <= s2 * M (fun g => INR (length (V g))))%R.
  Proof.
    clear Hr0. intros Hr1 s2. assert (P0 : 1 < Z.to_nat n_re) by lia.
    assert (E : M (fun g => (INR (length (V g)) - 1) * sample_variance (V g))%R = (s2 * M (fun g => INR (length (V g))) - M (fun g => excess g * excess g / INR (length (V g)))%R)%R).
    { rewrite (mean_ext gs wt _ (fun g => rsum (map (fun x => (x - average l) * (x - average l))%R (V g)) + - 1 * (excess g * excess g / INR (length (V g))))%R).
      - rewrite mean_plus, mean_scale, C129_spread_proof. fold s2. ring.
      - intros g Hg. destruct (used_facts g (pick l) Hg) as (_ & _ & _ & L). rewrite dof_variance by lia. unfold excess. unfold Rdiv. ring. }
    assert (N0 : forall g, In g gs -> (0 < / INR (length (V g)) <= / INR (Z.to_nat n_re))%R).
    { intros g Hg. destruct (used_facts g (pick l) Hg) as (_ & _ & _ & L). split; [apply Rinv_0_lt_compat, lt_0_INR; lia|apply Rinv_le_contravar; [apply lt_0_INR; lia|apply le_INR; lia]]. }
    assert (A : (0 <= M (fun g => excess g * excess g / INR (length (V g)))%R)%R).
    { rewrite <- (mean_const gs wt 0%R Hw1) at 1. apply mean_le. intros g Hg. specialize (N0 g Hg). unfold Rdiv. pose proof (Rle_0_sqr (excess g)) as Q. unfold Rsqr in Q. nra. }
    assert (B : (M (fun g => excess g * excess g / INR (length (V g)))%R <= / INR (Z.to_nat n_re) * (s2 * M (fun g => INR (length (V g)))))%R).
    { unfold s2. rewrite <- C129_square_proof, <- mean_scale. apply mean_le. intros g Hg. specialize (N0 g Hg). unfold Rdiv. pose proof (Rle_0_sqr (excess g)) as Q. unfold Rsqr in Q. nra. }
    rewrite E. split; [|lra]. apply (Rle_trans _ (s2 * M (fun g => INR (length (V g))) - / INR (Z.to_nat n_re) * (s2 * M (fun g => INR (length (V g)))))%R); [apply Req_le; ring|lra].
  Qed.
End Sample.

(** ** The ideal generator *)
Section Ideal.
  Context {Seed RS : Type} (X : Ext R (list nat) Seed RS) (k m : nat).
  Hypotheses (Hk : 0 < k) (Rnd : forall g n s, x_randints X g n s = (map (fun i => Nat.modulo (nth i g 0) n) (seq 0 s), skipn s g)).
  Fixpoint chunks (p : nat) (g : list nat) : list (list nat) := match p with O => [] | S q => firstn m g :: chunks q (skipn m g) end.
  Lemma take_mod g : Forall (fun j => j < k) g -> m <= length g -> map (fun i => Nat.modulo (nth i g 0) k) (seq 0 m) = firstn m g.
  Proof.
    clear Rnd. revert g. induction m as [|q IH]; intros g F L; [reflexivity|]. destruct g as [|a g]; [cbn in L; lia|]. inversion F as [|? ? Fa Fg]; subst. cbn [seq map nth firstn]. f_equal; [now apply Nat.mod_small|].
    rewrite <- seq_shift, map_map. apply IH; [exact Fg|cbn in L; lia].
  Qed.
  Lemma Forall_skip (g : list nat) n : Forall (fun j => j < k) g -> Forall (fun j => j < k) (skipn n g).
  Proof. rewrite <- (firstn_skipn n g) at 1. intros F. apply Forall_app in F. tauto. Qed.
  Lemma first_chunks p : forall g, Forall (fun j => j < k) g -> m * p <= length g -> first_lists X k m p g = chunks p g.
  Proof.
    unfold first_lists. induction p as [|p IH]; intros g F L; [reflexivity|]. cbn [repeat drawn chunks]. rewrite Rnd. specialize (IH (skipn m g) (Forall_skip g m F)).
    destruct (drawn X (skipn m g) (repeat (k, m) p)) as [ixs g2]. cbn [fst] in *. f_equal; [apply take_mod; [exact F|lia]|]. apply IH. rewrite skipn_length. lia.
  Qed.
  Lemma chunks_first p : forall g, chunks p g = chunks p (firstn (m * p) g).
  Proof.
    induction p as [|p IH]; intros g; [reflexivity|]. cbn [chunks]. rewrite firstn_firstn. replace (Nat.min m (m * S p)) with m by lia. f_equal.
    rewrite (IH (skipn m g)), (IH (skipn m (firstn (m * S p) g))). f_equal. rewrite skipn_firstn_comm, firstn_firstn. f_equal. lia.
  Qed.
  Lemma chunks_nth p : forall g, nth p (chunks (S p) g) [] = firstn m (skipn (m * p) g).
  Proof.
    induction p as [|p IH]; intros g; [now rewrite Nat.mul_0_r|]. change (chunks (S (S p)) g) with (firstn m g :: chunks (S p) (skipn m g)). cbn [nth]. rewrite IH. f_equal. replace (m * S p) with (m + m * p) by lia. generalize (m * p). clear. intros b. revert g. induction m as [|a IHa]; intros g; [reflexivity|]. destruct g; cbn; [now destruct b|apply IHa].
  Qed.
  Lemma mean_equal {T} (gs : list T) f : mean_over gs (equally_likely gs) f = average (map f gs).
  Proof. unfold mean_over, equally_likely, average. rewrite rsum_map_scale, map_length. unfold Rdiv. ring. Qed.
  Lemma equal_total n : rsum (map (equally_likely (all_lists k n)) (all_lists k n)) = 1%R.
  Proof. unfold equally_likely. rewrite rsum_const, all_lists_count. field. apply not_0_INR. apply Nat.pow_nonzero. lia. Qed.
  Lemma ideal_independent n : independent_lists (all_lists k (m * n)) (equally_likely (all_lists k (m * n))) X k m n.
  Proof.
    intros p past next Hp. rewrite !mean_equal. assert (L : m * p + m <= m * n) by nia.
    rewrite (over_ext k (m * n) _ (fun g => past (chunks p (firstn (m * p) g)) * next (firstn m (skipn (m * p) g)))%R).
    2:{ intros g E F. rewrite !first_chunks by (try exact F; nia). rewrite chunks_nth. now rewrite <- chunks_first. }
    rewrite (over_ext k (m * n) (fun g => past _) (fun g => past (chunks p (firstn (m * p) g)))).
    2:{ intros g E F. rewrite first_chunks by (try exact F; nia). now rewrite <- chunks_first. }
    replace (m * n) with (m * p + (m + (m * n - m * p - m))) by lia.
    set (b := m * n - m * p - m).
    assert (E : over k (m * p + (m + b)) (fun g => past (chunks p (firstn (m * p) g))) = over k (m * p) (fun x => past (chunks p x))).
    { rewrite (over_split k (fun x _ => past (chunks p x))) by exact Hk. apply over_ext. intros; now apply over_const. }
    rewrite E. rewrite (over_split k (fun x y => past (chunks p x) * next (firstn m y))%R) by exact Hk.
    rewrite Rmult_comm, <- over_scale. apply over_ext. intros x _ _. rewrite over_scale, Rmult_comm. f_equal.
    rewrite (over_split k (fun x _ => next x)) by exact Hk. apply over_ext. intros; now apply over_const.
  Qed.
  Lemma ideal_range : draws_in_range X.
  Proof. clear Hk. intros g n s Hn. rewrite Rnd. cbn [fst]. apply Forall_map, Forall_forall. intros i _. apply Nat.mod_upper_bound. lia. Qed.
End Ideal.
Definition resampled {G Seed RS} (X : Ext R G Seed RS) (l : list R) ns n_re mr alpha (g : G) : list R :=
  match sample_until_normal X g l ns n_re mr alpha with Some (Ok (v, _, _)) => v | _ => [] end.
Lemma resampled_gives {G Seed RS} (X : Ext R G Seed RS) (l : list R) ns n_re mr alpha g : draws_in_range X -> l <> [] -> (1 <= ns)%R ->
  exists w g', sample_until_normal X g l ns n_re mr alpha = Some (Ok (resampled X l ns n_re mr alpha g, w, g')).
Proof. intros D Hl Hn. destruct (sample_total X D g l ns n_re mr alpha Hl Hn) as (v & w & g' & E). exists w, g'. unfold resampled. now rewrite E. Qed.
Lemma C129_example_proof Seed RS (X : Ext R (list nat) Seed RS) (l : list R) ns m n_re mr alpha : l <> [] -> 0 < m -> whole_part ns m ->
  let gs := all_lists (length l) (m * most_resamples n_re mr) in
  independent_lists gs (equally_likely gs) (ideal X) (length l) m (most_resamples n_re mr) /\ rsum (map (equally_likely gs) gs) = 1%R /\ (forall g, In g gs -> (0 <= equally_likely gs g)%R)
  /\ exists V, forall g, In g gs -> exists w g', sample_until_normal (ideal X) g l ns n_re mr alpha = Some (Ok (V g, w, g')).
Proof.
  intros Hl Hm Hn gs. assert (0 < length l) by (destruct l; [congruence|cbn; lia]). repeat split.
  - apply ideal_independent; [assumption|reflexivity].
  - now apply equal_total.
  - intros g Hg. apply Rlt_le, Rinv_0_lt_compat, lt_0_INR. destruct gs; [destruct Hg|cbn; lia].
  - exists (resampled (ideal X) l ns n_re mr alpha). intros g _. apply resampled_gives; [now apply ideal_range|exact Hl|]. destruct Hn as [Hn _]. apply (Rle_trans _ (INR m)); [|exact Hn]. apply (le_INR 1). lia.
Qed.
Lemma C129_defaults_proof G Seed RS (X : Ext R G Seed RS) gs wt l ns m alpha V : whole_part ns m -> 0 < m -> l <> [] ->
  (forall g, In g gs -> exists w g', sample_until_normal X g l ns 1000 10000 alpha = Some (Ok (V g, w, g'))) ->
  independent_lists gs wt X (length l) m (most_resamples 1000 10000) -> (forall g, In g gs -> (0 <= wt g)%R) -> rsum (map wt gs) = 1%R ->
  ((mean_over gs wt (fun g => average (V g)) - average l)² <= (453 / 10000)² * (population_variance l / INR m))%R.
Proof.
  intros Hns Hm Hl HV HI Hw Hw1. eapply Rle_trans; [apply (C129_bias_proof X gs wt l ns m 1000 10000 alpha V); try assumption; try lia; destruct l; [congruence|cbn; lia]|].
  assert (E0 : INR (Z.to_nat 1000) = 1000%R) by (rewrite INR_IZR_INZ, Z2Nat.id by lia; reflexivity).
  assert (E1 : INR (most_resamples 1000 10000) = 10099%R) by (unfold most_resamples; rewrite INR_IZR_INZ; f_equal; lia).
  rewrite E0, E1, <- Rmult_assoc. apply Rmult_le_compat_r; [|unfold Rsqr; lra]. apply Rmult_le_pos; [|apply Rlt_le, Rinv_0_lt_compat, lt_0_INR; exact Hm].
  unfold population_variance. apply average_nonneg. apply Forall_map, Forall_forall. intros x _. apply Rle_0_sqr.
Qed.
(** ** Stopping on success does move the average *)
Lemma C129_refuted_proof Seed RS (X : Ext R (list nat) Seed RS) : let gs := all_lists 2 (1 * most_resamples 100 101) in exists V,
  independent_lists gs (equally_likely gs) (judged_by_first X) 2 1 (most_resamples 100 101)
  /\ (forall g, In g gs -> exists w g', sample_until_normal (judged_by_first X) g [0%R; 1%R] 1%R 100 101 (1 / 2)%R = Some (Ok (V g, w, g')))
  /\ mean_over gs (equally_likely gs) (fun g => average (V g)) = (401 / 800)%R.
Proof.
  intros gs. set (J := judged_by_first X). set (l := [0%R; 1%R]).
  assert (HI : independent_lists gs (equally_likely gs) J 2 1 (most_resamples 100 101)) by (apply ideal_independent; [lia|reflexivity]).
  assert (DR : draws_in_range J) by (now apply ideal_range).
  assert (HV : forall g, In g gs -> exists w g', sample_until_normal J g l 1%R 100 101 (1 / 2)%R = Some (Ok (resampled J l 1%R 100 101 (1 / 2)%R g, w, g'))) by (intros g _; apply resampled_gives; [exact DR|discriminate|lra]).
  exists (resampled J l 1%R 100 101 (1 / 2)%R). split; [exact HI|]. split; [exact HV|]. set (V := resampled J l 1%R 100 101 (1 / 2)%R) in *. set (wt := equally_likely gs) in *.
  assert (Hns : whole_part 1 1) by (unfold whole_part; cbn; lra). assert (W1 : rsum (map wt gs) = 1%R) by (apply equal_total; lia). clearbody V wt gs.
  pose proof (C129_total_proof J gs wt l 1%R 1 100 101 (1 / 2)%R V Hns ltac:(lia) ltac:(cbn; lia) ltac:(lia) HV HI) as T. replace (average l) with (1 / 2)%R in T by (unfold average, l; cbn; field).
  assert (MM : 200 = most_resamples 100 101) by (unfold most_resamples; lia).
  set (z := fun p g => pick l (nth p (first_lists J 2 1 (S p) g) [])). set (s := z 0).
  assert (OP : average (map (pick l) (all_lists 2 1)) = (1 / 2)%R) by (etransitivity; [exact (over_pick l 1 ltac:(cbn; lia) ltac:(lia))|]; unfold average, l; cbn; field).
  assert (Es : mean_over gs wt s = (1 / 2)%R).
  { pose proof (HI 0 (fun _ => 1%R) (pick l) ltac:(lia)) as A. cbv beta in A. rewrite (mean_const gs wt 1%R W1), OP, Rmult_1_l in A. rewrite <- A. apply mean_ext. intros. unfold s, z. ring. }
  assert (S01 : forall g, s g = 0%R \/ s g = 1%R).
  { intros g. unfold s, z. assert (E : first_lists J 2 1 1 g = [[Nat.modulo (nth 0 g 0) 2]]) by reflexivity. rewrite E. cbn [nth]. clear E. pose proof (Nat.mod_upper_bound (nth 0 g 0) 2 ltac:(lia)) as B. destruct (Nat.modulo (nth 0 g 0) 2) as [|[|b]]; [left|right|lia]; unfold pick, average, l; cbn; field. }
  assert (P : forall g, In g gs -> average (V g) = (1 / 200 * rsum (V g) + 1 / 200 * sumto 100 (fun p => s g * z p g))%R /\ INR (length (V g)) = (200 + - 100 * s g)%R).
  { intros g Hg. destruct (HV g Hg) as (w & g' & H). pose proof (sample_drawn J l 1%R 1 100 101 (1 / 2)%R g _ w g' (whole_int _ _ Hns) H) as EV. destruct (C39_proof J g l 1%R 100 101 (1 / 2)%R) as (res & Er & Hr). rewrite H in Er. injection Er as <-.
    destruct (Hr _ w g' eq_refl) as ((q & K1 & K2 & K3) & _). change (Z.to_nat 100) with 100 in *.
    assert (H0 : nth 0 (V g) 0%R = s g). { rewrite EV. rewrite nth_indep with (d' := pick l []) by (rewrite map_length, first_length; lia). rewrite map_nth. unfold s, z. change (length l) with 2. rewrite (first_nth J 2 1 0) by lia. reflexivity. }
    destruct q as [|q].
    - replace (100 + 100 * 0) with 100 in K1 by lia. destruct K3 as [K3|K3]; [|lia]. unfold J in K3. cbn [judged_by_first x_normaltest] in K3. rewrite H0 in K3. destruct (S01 g) as [Z|Z]; rewrite Z in *; [lra|].
      assert (Q : rsum (V g) = sumto 100 (fun p => 1 * z p g)%R).
      { rewrite EV. rewrite <- sumto_nth, first_length, K1. apply sumto_same. intros p Hp. unfold z. change (length l) with 2. rewrite (first_nth J 2 1 p 100) by lia. ring. }
      rewrite <- Q. unfold average. rewrite K1. replace (INR 100) with 100%R by (rewrite INR_IZR_INZ; reflexivity). split; field.
    - destruct (K2 0 ltac:(lia)) as [A1 _]. destruct q as [|q]; [|destruct (K2 1 ltac:(lia)) as [_ A2]; lia].
      replace (100 + 100 * 1) with 200 in K1 by lia. unfold J in A1. cbn [judged_by_first x_normaltest] in A1. replace (nth 0 (firstn (100 + 100 * 0) (V g)) 0%R) with (s g) in A1.
      2:{ destruct (V g) as [|x t]; [cbn [length] in K1; lia|]. cbn [nth] in H0. cbn [Nat.add Nat.mul firstn nth]. now symmetry. }
      destruct (S01 g) as [Z|Z]; rewrite Z in *; [|lra]. rewrite (sumto_same 100 _ (fun p => (if p <? 0 then 1 else 0) * 1)%R) by (intros p _; cbn; ring). rewrite sumto_below by lia. cbn [sumto].
      unfold average. rewrite K1. replace (INR 200) with 200%R by (rewrite INR_IZR_INZ; reflexivity). split; field. }
  assert (EN : mean_over gs wt (fun g => INR (length (V g))) = 150%R).
  { rewrite (mean_ext gs wt _ (fun g => 200 + - 100 * s g)%R) by (intros g Hg; apply (P g Hg)). rewrite mean_plus, mean_scale, mean_const, Es by exact W1. field. }
  assert (ES : mean_over gs wt (fun g => sumto 100 (fun p => s g * z p g)%R) = (101 / 4)%R).
  { rewrite (mean_sumto gs wt 100 (fun p g => s g * z p g)%R). rewrite (sumto_same 100 _ (fun p => match p with O => 1 / 2 | S _ => 1 / 4 end)%R).
    - cbn [sumto]. lra.
    - intros [|p] Hp.
      + rewrite <- Es. apply mean_ext. intros g _. change (z 0 g) with (s g). destruct (S01 g) as [->| ->]; ring.
      + pose proof (HI (S p) (fun h => pick l (nth 0 h [])) (pick l) ltac:(lia)) as A. cbv beta in A. rewrite OP in A. rewrite (mean_ext gs wt (fun g => pick l (nth 0 _ [])) s) in A by (intros g _; unfold s, z; now rewrite (first_nth J 2 1 0 (S p)) by lia). rewrite Es in A.
        transitivity (1 / 2 * (1 / 2))%R; [|field]. rewrite <- A. apply mean_ext. intros g _. unfold s, z at 1. now rewrite (first_nth J 2 1 0 (S p)) by lia. }
  rewrite (mean_ext gs wt _ (fun g => 1 / 200 * rsum (V g) + 1 / 200 * sumto 100 (fun p => s g * z p g))%R) by (intros g Hg; apply (P g Hg)). rewrite mean_plus, !mean_scale, T, EN, ES. field.
Qed.
