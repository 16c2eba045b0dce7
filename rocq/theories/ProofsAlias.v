(** * ProofsAlias: trajectories stored too rarely (C116) *)
From Verif Require Import Base Spec SpecParser SpecStats SpecRun SpecTrue SpecAlias
  ModelParser ModelDiffusion ModelHdf ModelAnalyzer Lemmas ProofsDisp ProofsStats ProofsTraj ProofsAnalyzer ProofsCollective ProofsTrue ProofsCaged.
From Coq Require Import Reals Lra Lia Psatz.
Open Scope nat_scope.

Lemma plus_ivec (v : V3 R) z w : plus3 (plus3 v (ivec z)) (ivec w) = plus3 v (ivec (mkV (vx z + vx w) (vy z + vy w) (vz z + vz w))%Z).
Proof. destruct v, z, w. unfold plus3, ivec. cbn. rewrite !plus_IZR. f_equal; lra. Qed.
Lemma handed_over_ext i cell types vol n natoms (y y' : nat -> nat -> V3 R) :
  (forall f a, f < n -> a < natoms -> y f a = y' f a) -> handed_over i cell types vol n natoms y = handed_over i cell types vol n natoms y'.
Proof.
  intros H. unfold handed_over, frames_of. destruct i; apply tab_ext; intros f Hf; f_equal; apply tab_ext; intros b Hb; [| |apply (f_equal (cart cell))]; now apply H.
Qed.
Lemma choose_images (x y : nat -> nat -> V3 R) n natoms : same_images x y ->
  exists z : nat -> nat -> V3 Z, forall f a, f < n -> a < natoms -> y f a = plus3 (x f a) (ivec (z f a)).
Proof.
  intros H. assert (A : forall f, exists z : nat -> V3 Z, forall a, a < natoms -> y f a = plus3 (x f a) (ivec (z a))).
  { intros f. induction natoms as [|m [z IH]]; [exists (fun _ => mkV 0 0 0)%Z; intros; lia|]. destruct (H f m) as [w W].
    exists (fun a => if a =? m then w else z a). intros a Ha. destruct (Nat.eqb_spec a m) as [->|N]; [exact W|apply IH; lia]. }
  induction n as [|m [z IH]]; [exists (fun _ _ => mkV 0 0 0)%Z; intros; lia|]. destruct (A m) as [w W].
  exists (fun f => if f =? m then w else z f). intros f a Hf Ha. destruct (Nat.eqb_spec f m) as [->|N]; [now apply W|apply IH; lia].
Qed.
Lemma C116_read_proof : forall i circ cell types vol n natoms k x y a p,
  any_read i circ cell types vol n natoms k x a p -> shortest_path n natoms k x y -> faithful_read i circ cell types vol n natoms k y a p.
Proof.
  intros i circ cell types vol n natoms k x y a p A S. destruct A as [A1 A2 A3 A4 A5 A6 A7 A8 A9 A10 [img E]]. constructor; try assumption; [apply (sp_steps _ _ _ _ _ S)|].
  destruct (choose_images x y n natoms (sp_images _ _ _ _ _ S)) as [z Z].
  exists (fun f b => mkV (vx (img f b) - vx (z f b)) (vy (img f b) - vy (z f b)) (vz (img f b) - vz (z f b)))%Z. rewrite <- E. f_equal.
  apply handed_over_ext. intros f b Hf Hb. cbv beta. rewrite (Z f b Hf Hb), plus_ivec. do 2 f_equal. destruct (img f b), (z f b). cbn. f_equal; lia.
Qed.
(** Existence. *)
Definition nearest (r : R) : Z := Int_part (r + / 2).
Lemma nearest_ok r : (- / 2 <= r - IZR (nearest r) < / 2)%R.
Proof. unfold nearest. destruct (base_Int_part (r + / 2)). lra. Qed.
Definition nearest3 (v : V3 R) : V3 Z := mkV (nearest (vx v)) (nearest (vy v)) (nearest (vz v)).
Fixpoint wraps (k : nat) (x : nat -> nat -> V3 R) (a f : nat) : V3 Z :=
  match f with
  | O => mkV 0 0 0
  | S f' => let w := wraps k x a f' in let s := nearest3 (minus3 (x (S f' * k)%nat a) (x (f' * k)%nat a)) in mkV (vx w - vx s) (vy w - vy s) (vz w - vz s)
  end%Z.
Definition folded (k : nat) (x : nat -> nat -> V3 R) (f a : nat) : V3 R :=
  if (f / k * k =? f)%nat then plus3 (x f a) (ivec (wraps k x a (f / k))) else x f a.
Lemma folded_used k x f a : 0 < k -> folded k x (f * k) a = plus3 (x (f * k) a) (ivec (wraps k x a f)).
Proof. intros H. unfold folded. rewrite Nat.div_mul by lia. now rewrite Nat.eqb_refl. Qed.
Lemma C116_exists_proof : forall n natoms k (x : nat -> nat -> V3 R), 0 < k -> exists y, shortest_path n natoms k x y.
Proof.
  intros n natoms k x Hk. exists (folded k x). constructor.
  - intros a. rewrite <- (Nat.mul_0_l k), folded_used by exact Hk. cbn [wraps]. destruct (x (0 * k) a). unfold plus3, ivec. cbn. f_equal; lra.
  - intros f a. unfold folded. destruct (_ =? _); [eauto|]. exists (mkV 0 0 0)%Z. destruct (x f a). unfold plus3, ivec. cbn. f_equal; lra.
  - intros f a _ _. rewrite !folded_used by exact Hk. cbn [wraps]. set (w := wraps k x a f). set (u := x (S f * k) a). set (v := x (f * k) a). unfold within_half, nearest3.
    pose proof (nearest_ok (vx u - vx v)). pose proof (nearest_ok (vy u - vy v)). pose proof (nearest_ok (vz u - vz v)).
    unfold minus3, plus3, ivec. cbn [vx vy vz]. rewrite !minus_IZR. repeat split; lra.
Qed.
(** Uniqueness at the used frames. *)
Lemma within_unique (r : R) (z : Z) : (- / 2 <= r < / 2)%R -> (- / 2 <= r + IZR z < / 2)%R -> z = 0%Z.
Proof. intros H K. assert (A : (-1 < IZR z < 1)%R) by lra. destruct A as [A B]. apply lt_IZR in A, B. lia. Qed.
Lemma same_images_sym x y : same_images x y -> same_images y x.
Proof.
  intros H f a. destruct (H f a) as [z ->]. exists (mkV (- vx z) (- vy z) (- vz z))%Z. rewrite plus_ivec. destruct (x f a), z. unfold plus3, ivec. cbn. f_equal; rewrite Z.add_opp_diag_r; lra.
Qed.
Lemma same_images_trans x y w : same_images x y -> same_images y w -> same_images x w.
Proof. intros H K f a. destruct (H f a) as [z E]. destruct (K f a) as [z' ->]. rewrite E, plus_ivec. eauto. Qed.
Lemma step_images x y : same_images x y -> forall f g a, exists z : V3 Z, minus3 (y g a) (y f a) = plus3 (minus3 (x g a) (x f a)) (ivec z).
Proof.
  intros H f g a. destruct (H f a) as [z ->], (H g a) as [w ->]. exists (mkV (vx w - vx z) (vy w - vy z) (vz w - vz z))%Z.
  destruct (x f a), (x g a), z, w. unfold minus3, plus3, ivec. cbn. rewrite !minus_IZR. f_equal; lra.
Qed.
Lemma within_half_unique (u v : V3 R) z : within_half u -> within_half v -> v = plus3 u (ivec z) -> v = u.
Proof.
  intros (A1 & A2 & A3) (B1 & B2 & B3) ->. unfold plus3, ivec in *. cbn [vx vy vz] in *.
  rewrite (within_unique _ _ A1 B1), (within_unique _ _ A2 B2), (within_unique _ _ A3 B3). destruct u. cbn. f_equal; lra.
Qed.
Lemma C116_unique_proof : forall n natoms k x y y', shortest_path n natoms k x y -> shortest_path n natoms k x y' ->
  forall f a, (f = 0 \/ f * k < n) -> a < natoms -> y' (f * k) a = y (f * k) a.
Proof.
  intros n natoms k x y y' [S1 S2 S3] [T1 T2 T3] f a Hf Ha. assert (I : same_images y y') by (eapply same_images_trans; [apply same_images_sym, S2|exact T2]).
  induction f as [|f IH]; [cbn; now rewrite S1, T1|]. destruct Hf as [Hf|Hf]; [discriminate|]. assert (IH' := IH ltac:(right; nia)). clear IH.
  destruct (step_images _ _ I (f * k) (S f * k) a) as [z Z]. apply within_half_unique in Z; [|now apply S3|now apply T3]. rewrite IH' in Z.
  destruct (y' (S f * k) a), (y (S f * k) a), (y (f * k) a). unfold minus3 in Z. cbn in Z. injection Z as Z1 Z2 Z3. f_equal; lra.
Qed.
(** Its steps are the shortest. *)
Lemma within_least (r : R) (z : Z) : (- / 2 <= r < / 2)%R -> (Rabs r <= Rabs (r + IZR z))%R.
Proof.
  intros H. destruct (Z.eq_dec z 0) as [->|N]; [rewrite Rplus_0_r; lra|]. assert (A : (Rabs r <= / 2)%R) by (apply Rabs_le; lra).
  eapply Rle_trans; [exact A|]. assert (K : (z <= -1 \/ 1 <= z)%Z) by lia. destruct K as [K|K]; apply IZR_le in K; [rewrite Rabs_left1; lra|rewrite Rabs_right; lra].
Qed.
Lemma C116_shorter_proof : forall n natoms k x y, shortest_path n natoms k x y -> forall y', same_images x y' ->
  forall f a, S f * k < n -> a < natoms -> no_longer (minus3 (y (S f * k) a) (y (f * k) a)) (minus3 (y' (S f * k) a) (y' (f * k) a)).
Proof.
  intros n natoms k x y [S1 S2 S3] y' I f a Hf Ha. assert (J : same_images y y') by (eapply same_images_trans; [apply same_images_sym, S2|exact I]).
  destruct (step_images _ _ J (f * k) (S f * k) a) as [z ->]. destruct (S3 f a Hf Ha) as (A1 & A2 & A3). intros d. destruct d; cbn [coord plus3 ivec vx vy vz]; now apply within_least.
Qed.
(** A path already as short as that. *)
Lemma C116_same_proof : forall i circ cell types vol n natoms k x a p,
  faithful_read i circ cell types vol n natoms k x a p <-> any_read i circ cell types vol n natoms k x a p /\ shortest_path n natoms k x x.
Proof.
  intros. assert (R : same_images x x). { intros f b. exists (mkV 0 0 0)%Z. destruct (x f b). unfold plus3, ivec. cbn. f_equal; lra. } split.
  - intros []. split; [now constructor|]. now constructor.
  - intros [A S]. eapply C116_read_proof; eassumption.
Qed.
(** Uniform motion appears as the nearest alias. *)
Lemma C116_alias_proof : forall n natoms k x y (v w : nat -> V3 R), shortest_path n natoms k x y -> 0 < k ->
  (forall f a, f * k < n -> a < natoms -> x (f * k) a = plus3 (x 0 a) (scale3 (INR f) (v a))) ->
  (forall a, a < natoms -> within_half (w a) /\ exists z, v a = plus3 (w a) (ivec z)) ->
  forall f a, f * k < n -> a < natoms -> y (f * k) a = plus3 (x 0 a) (scale3 (INR f) (w a)).
Proof.
  intros n natoms k x y v w [S1 S2 S3] Hk Hx Hw f a. induction f as [|f IH]; intros Hf Ha.
  - cbn [Nat.mul]. rewrite S1. destruct (x 0 a). unfold plus3, scale3. cbn. f_equal; lra.
  - assert (Hf' : f * k < n) by nia. assert (IH' := IH Hf' Ha). destruct (Hw a Ha) as [Hh [z Hz]]. destruct (step_images _ _ S2 (f * k) (S f * k) a) as [z' E].
    rewrite (Hx (S f) a Hf Ha), (Hx f a Hf' Ha), Hz in E.
    assert (E' : minus3 (y (S f * k) a) (y (f * k) a) = plus3 (w a) (ivec (mkV (vx z + vx z') (vy z + vy z') (vz z + vz z'))%Z)).
    { rewrite E. rewrite S_INR. destruct (x 0 a), (w a), z, z'. unfold minus3, plus3, scale3, ivec. cbn. rewrite !plus_IZR. f_equal; ring. }
    apply within_half_unique in E'; [|exact Hh|now apply S3]. rewrite IH' in E'. rewrite S_INR. destruct (y (S f * k) a), (w a), (x 0 a).
    unfold minus3, plus3, scale3 in *. cbn in *. injection E' as E1 E2 E3. f_equal; lra.
Qed.
(** How large reported displacements can be. *)
Lemma path_bound n natoms k y f g a : small_steps n natoms k y -> f <= g -> (g = f \/ g * k < n) -> a < natoms ->
  forall d, (Rabs (coord (minus3 (y (g * k)%nat a) (y (f * k)%nat a)) d) <= INR (g - f)%nat / 2)%R.
Proof.
  intros Sm Hfg. induction g as [|g IH]; intros Hg Ha d.
  - assert (f = 0) by lia. subst f. cbn [Nat.sub INR]. replace (coord _ d) with 0%R by (destruct d; cbn; lra). rewrite Rabs_R0. lra.
  - destruct (Nat.eq_dec f (S g)) as [->|N].
    + rewrite Nat.sub_diag. replace (coord _ d) with 0%R by (destruct d; cbn; lra). rewrite Rabs_R0. cbn. lra.
    + destruct Hg as [Hg|Hg]; [lia|]. assert (IH' := IH ltac:(lia) ltac:(right; nia) Ha d). assert (W := Sm g a Hg Ha). replace (S g - f) with (S (g - f)) by lia. rewrite S_INR.
      replace (coord (minus3 (y (S g * k)%nat a) (y (f * k)%nat a)) d) with (coord (minus3 (y (S g * k)%nat a) (y (g * k)%nat a)) d + coord (minus3 (y (g * k)%nat a) (y (f * k)%nat a)) d)%R by (destruct d; cbn; lra).
      eapply Rle_trans; [apply Rabs_triang|]. assert (Rabs (coord (minus3 (y (S g * k)%nat a) (y (g * k)%nat a)) d) <= / 2)%R by (destruct W as (W1 & W2 & W3); destruct d; cbn [coord]; apply Rabs_le; lra). lra.
Qed.
Lemma cart_minus cell u v : minus3 (cart cell u) (cart cell v) = cart cell (minus3 u v).
Proof. destruct u, v. unfold cart, minus3. cbn. f_equal; ring. Qed.
Lemma cart_bound cell v b d : (forall e, Rabs (coord v e) <= b)%R -> (Rabs (coord (cart cell v) d) <= b * extent cell d)%R.
Proof.
  intros H. pose proof (H AX) as HX. pose proof (H AY) as HY. pose proof (H AZ) as HZ. unfold coord in HX, HY, HZ. unfold extent.
  replace (coord (cart cell v) d) with (vx v * coord (mr0 cell) d + vy v * coord (mr1 cell) d + vz v * coord (mr2 cell) d)%R by (destruct d; cbn; reflexivity).
  eapply Rle_trans; [apply Rabs_triang|]. eapply Rle_trans; [apply Rplus_le_compat_r, Rabs_triang|]. rewrite !Rabs_mult.
  pose proof (Rmult_le_compat_r _ _ _ (Rabs_pos (coord (mr0 cell) d)) HX). pose proof (Rmult_le_compat_r _ _ _ (Rabs_pos (coord (mr1 cell) d)) HY).
  pose proof (Rmult_le_compat_r _ _ _ (Rabs_pos (coord (mr2 cell) d)) HZ). lra.
Qed.
Lemma rsum_abs {T} (h : T -> R) B (l : list T) : (forall x, In x l -> Rabs (h x) <= B)%R -> (Rabs (rsum (map h l)) <= INR (length l) * B)%R.
Proof.
  induction l as [|x l IH]; intros H; [cbn; rewrite Rabs_R0; lra|]. cbn [map length]. rewrite rsum_cons, S_INR. eapply Rle_trans; [apply Rabs_triang|].
  pose proof (H x (or_introl eq_refl)). pose proof (IH (fun y Hy => H y (or_intror Hy))). lra.
Qed.
Lemma average3_bound {T} (h : T -> V3 R) B (l : list T) d : l <> [] -> (forall x, In x l -> Rabs (coord (h x) d) <= B)%R -> (Rabs (coord (average3 (map h l)) d) <= B)%R.
Proof.
  intros N H. assert (P : (0 < INR (length l))%R) by (apply lt_0_INR; destruct l; [congruence|cbn; lia]).
  assert (E : coord (average3 (map h l)) d = (rsum (map (fun x => coord (h x) d) l) / INR (length l))%R).
  { unfold average3, average. destruct d; cbn [coord vx vy vz]; rewrite !map_length, map_map; reflexivity. }
  rewrite E. unfold Rdiv. rewrite Rabs_mult, (Rabs_right (/ INR (length l))) by (apply Rle_ge, Rlt_le, Rinv_0_lt_compat, P).
  apply (Rmult_le_reg_r (INR (length l))); [exact P|]. rewrite Rmult_assoc, Rinv_l, Rmult_1_r by lra. rewrite Rmult_comm. now apply rsum_abs.
Qed.
Lemma sqlen_bound axes v cell b : (0 <= b)%R -> (forall d, Rabs (coord v d) <= b * extent cell d)%R -> (sqlen axes v <= b * b * squared_extent axes cell)%R.
Proof.
  intros Hb H. unfold sqlen, squared_extent. induction axes as [|d axes IH]; cbn [map]; [cbn; lra|]. rewrite !rsum_cons.
  assert (K : (coord v d * coord v d <= (b * extent cell d) * (b * extent cell d))%R).
  { assert (Q := H d). assert (A := Rabs_pos (coord v d)). replace (coord v d * coord v d)%R with (Rabs (coord v d) * Rabs (coord v d))%R by (rewrite <- Rabs_mult; apply Rabs_right, Rle_ge; exact (Rle_0_sqr (coord v d))).
    apply Rmult_le_compat; assumption. }
  lra.
Qed.
Lemma disp_bound n natoms k y cell f g a d : small_steps n natoms k y -> f <= g -> g * k < n -> a < natoms ->
  (Rabs (coord (minus3 (cart cell (y (g * k)%nat a)) (cart cell (y (f * k)%nat a))) d) <= INR (g - f)%nat / 2 * extent cell d)%R.
Proof. intros Sm Hf Hg Ha. rewrite cart_minus. apply cart_bound. apply (path_bound n natoms); auto. Qed.
Lemma relative_bound n natoms k y cell fw f g i axes : small_steps n natoms k y -> f <= g -> g * k < n -> valid_site natoms i -> Forall (valid_site natoms) fw ->
  (sqlen axes (relative_displacement natoms (fun f b => cart cell (y f b)) fw (site natoms i) (f * k)%nat (g * k)%nat) <= INR (g - f)%nat * INR (g - f)%nat * squared_extent axes cell / (if fw then 4 else 1))%R.
Proof.
  intros Sm Hf Hg Hi Hfw. pose proof (pos_INR (g - f)%nat) as P. assert (D := disp_bound n natoms k y cell f g (site natoms i)). destruct fw as [|j fw].
  - unfold relative_displacement. eapply Rle_trans; [apply (sqlen_bound axes _ cell (INR (g - f)%nat / 2)); [lra|intros d; apply D; auto; now apply ProofsDisp.site_lt]|]. apply Req_le. field.
  - eapply Rle_trans; [apply (sqlen_bound axes _ cell (INR (g - f)%nat)); [lra|]|apply Req_le; field]. intros d. cbn [relative_displacement].
    match goal with |- (Rabs (coord (minus3 ?A ?B) d) <= _)%R => assert (QA : (Rabs (coord A d) <= INR (g - f)%nat / 2 * extent cell d)%R); [|assert (QB : (Rabs (coord B d) <= INR (g - f)%nat / 2 * extent cell d)%R)];
      [| |replace (coord (minus3 A B) d) with (coord A d - coord B d)%R by (destruct d; reflexivity); unfold Rminus; eapply Rle_trans; [apply Rabs_triang|]; rewrite Rabs_Ropp; lra] end.
    + apply D; auto. now apply ProofsDisp.site_lt.
    + apply (average3_bound (fun i => minus3 (cart cell (y (g * k)%nat (site natoms i))) (cart cell (y (f * k)%nat (site natoms i)))) _ (j :: fw)); [discriminate|].
      intros z Hz. rewrite Forall_forall in Hfw. apply (disp_bound n natoms); auto. apply ProofsDisp.site_lt. auto.
Qed.
Lemma mixed_bound (b : nat -> nat -> R) T m B : 0 < m <= T -> (forall j, j + m < T -> (0 <= b j (j + m)%nat <= B)%R) -> (0 <= b 0%nat (m - 1)%nat <= B)%R ->
  (0 <= (INR (T - m) * average (tab (T - m) (fun j => b j (j + m)%nat)) + b 0%nat (m - 1)%nat) / INR (T - m + 1) <= B)%R.
Proof.
  intros Hm H H0. pose (b' := fun f g => if (g =? f + m) || ((f =? 0) && (g =? m - 1)) then b f g else 0%R).
  assert (K := mixed_between b' T m B Hm). unfold SpecColl.over_time in K.
  assert (E : tab (T - m) (fun j => b' j (j + m)%nat) = tab (T - m) (fun j => b j (j + m)%nat)) by (apply tab_ext; intros j _; unfold b'; now rewrite Nat.eqb_refl).
  assert (E0 : b' 0%nat (m - 1)%nat = b 0%nat (m - 1)%nat) by (unfold b'; rewrite !Nat.eqb_refl; cbn [andb]; now rewrite orb_true_r).
  rewrite E, E0 in K. refine (K _). intros f g Hf. unfold b'. destruct (Nat.eqb_spec g (f + m)) as [->|N]; cbn [orb]; [apply H; lia|].
  destruct (Nat.eqb_spec f 0) as [->|N0]; cbn [andb]; [|lra]. destruct (Nat.eqb_spec g (m - 1)) as [->|N1]; [exact H0|lra].
Qed.
Section Alias.
  Context {G Seed RS : Type} (X : Ext R G Seed RS).
  Lemma C116_bound_proof i circ cell types vol n natoms k x a p u axes g an g' :
    any_read i circ cell types vol n natoms k x a p -> (0 < u_sub_sample_dt u)%Z -> u_block u = false -> names (pystr_text (u_dimension u)) axes ->
    diffusion_analyzer X (of_parsed p) u g = Ok (an, g') -> forall j t, nth_error (b_dt (an_diff an)) j = Some t ->
    exists m v, nth_error (p_intervals p) (j * Z.to_nat (u_sub_sample_dt u)) = Some (Z.of_nat m) /\ 0 < m <= kept n k /\ nth_error (b_n (an_diff an)) j = Some v
      /\ (0 <= v <= INR m * INR m * squared_extent axes cell / (if p_drift_indices p then 4 else 1))%R.
  Proof.
    intros A Hk Hb Hn H j t Ht. destruct (C116_exists_proof n natoms k x (ar_k _ _ _ _ _ _ _ _ _ _ _ A)) as [y Y]. assert (F := C116_read_proof _ _ _ _ _ _ _ _ _ _ _ _ A Y).
    destruct (C81_reported_proof X _ _ _ _ _ _ _ _ _ _ _ _ _ _ _ _ F Hk Hb Hn H j t Ht) as (m & E1 & _ & E2 & E3). cbv zeta in E3. exists m. eexists. split; [exact E1|]. split; [exact E2|]. split; [exact E3|].
    set (fw := p_drift_indices p) in *. set (idx := p_indices p) in *. set (pos := fun f b => cart cell (y f b)) in *.
    assert (K : forall f l, f + l < kept n k -> l <= m -> (0 <= square_between axes natoms k pos idx fw f (f + l) <= INR m * INR m * squared_extent axes cell / (if fw then 4 else 1))%R).
    { intros f l Hf Hl. assert (SE : (0 <= squared_extent axes cell)%R) by (unfold squared_extent; apply rsum_nonneg, Forall_forall; intros q Hq; apply in_map_iff in Hq as (d & <- & _); apply Rle_0_sqr).
      assert (LM : (INR l * INR l * squared_extent axes cell / (if fw then 4 else 1) <= INR m * INR m * squared_extent axes cell / (if fw then 4 else 1))%R).
      { assert (INR l <= INR m)%R by (apply le_INR; lia). pose proof (pos_INR l). assert (INR l * INR l <= INR m * INR m)%R by (apply Rmult_le_compat; lra).
        assert (INR l * INR l * squared_extent axes cell <= INR m * INR m * squared_extent axes cell)%R by (apply Rmult_le_compat_r; lra). destruct fw; lra. }
      assert (Q : forall z, In z idx -> (0 <= sqlen axes (relative_displacement natoms pos fw (site natoms z) (f * k) ((f + l) * k)) <= INR m * INR m * squared_extent axes cell / (if fw then 4 else 1))%R).
      { intros z Hz. split; [apply sqlen_nonneg|]. eapply Rle_trans; [|exact LM]. replace (INR l) with (INR (f + l - f)) by (f_equal; lia).
        apply (relative_bound n); [apply (sp_steps _ _ _ _ _ Y)|lia|apply (kept_spec n k (ar_k _ _ _ _ _ _ _ _ _ _ _ A)); lia| |apply (ar_drift _ _ _ _ _ _ _ _ _ _ _ A)].
        pose proof (ar_indices _ _ _ _ _ _ _ _ _ _ _ A) as V. rewrite Forall_forall in V. now apply V. }
      unfold square_between, average. rewrite map_length. destruct (Nat.eq_dec (length idx) 0) as [Z0|N0].
      - destruct idx; [|discriminate]. cbn [map rsum length INR]. unfold Rdiv at 1 2. rewrite !Rmult_0_l. split; [lra|]. pose proof (pos_INR m).
        assert (0 <= INR m * INR m * squared_extent axes cell)%R by (apply Rmult_le_pos; [apply Rle_0_sqr|exact SE]). destruct fw; lra.
      - assert (P : (0 < INR (length idx))%R) by (apply lt_0_INR; lia). pose proof (rsum_bound _ _ idx Q) as RB. split; [apply Rmult_le_pos; [lra|apply Rlt_le, Rinv_0_lt_compat, P]|].
        apply (Rmult_le_reg_r (INR (length idx))); [exact P|]. unfold Rdiv at 1. rewrite Rmult_assoc, Rinv_l, Rmult_1_r by lra. lra. }
    unfold true_msd. apply (mixed_bound (square_between axes natoms k pos idx fw)); [exact E2| |].
    - intros f Hf. apply K; lia.
    - apply (K 0 (m - 1)); lia.
  Qed.
End Alias.
(** Using fewer frames of a slow trajectory. *)
Lemma slow_steps c n natoms x : slow c n natoms x -> forall l f a d, f + l < n -> a < natoms -> (INR c * Rabs (coord (minus3 (x (f + l)%nat a) (x f a)) d) <= INR l / 2)%R.
Proof.
  intros H l. induction l as [|l IH]; intros f a d Hf Ha.
  - rewrite Nat.add_0_r. replace (coord _ d) with 0%R by (destruct d; cbn; lra). rewrite Rabs_R0. cbn. lra.
  - assert (IH' := IH f a d ltac:(lia) Ha). assert (W := H (f + l) a d ltac:(lia) Ha). replace (f + S l) with (S (f + l)) by lia. rewrite S_INR.
    replace (coord (minus3 (x (S (f + l)) a) (x f a)) d) with (coord (minus3 (x (S (f + l)) a) (x (f + l)%nat a)) d + coord (minus3 (x (f + l)%nat a) (x f a)) d)%R by (destruct d; cbn; lra).
    assert (T := Rabs_triang (coord (minus3 (x (S (f + l)) a) (x (f + l)%nat a)) d) (coord (minus3 (x (f + l)%nat a) (x f a)) d)). pose proof (pos_INR c) as P.
    assert (M := Rmult_le_compat_l _ _ _ P T). lra.
Qed.
Lemma slow_small c k n natoms x : slow c n natoms x -> 0 < k <= c -> small_steps n natoms k x.
Proof.
  intros H Hk f a Hf Ha. assert (K : forall d, (Rabs (coord (minus3 (x (S f * k)%nat a) (x (f * k)%nat a)) d) < / 2)%R).
  { intros d. destruct k as [|k]; [lia|]. assert (A := slow_steps c n natoms x H k (f * S k) a d ltac:(lia) Ha). assert (B := H (f * S k + k) a d ltac:(lia) Ha).
    replace (S f * S k) with (S (f * S k + k)) by lia. replace (coord (minus3 (x (S (f * S k + k)) a) (x (f * S k)%nat a)) d) with
      (coord (minus3 (x (S (f * S k + k)) a) (x (f * S k + k)%nat a)) d + coord (minus3 (x (f * S k + k)%nat a) (x (f * S k)%nat a)) d)%R by (destruct d; cbn; lra).
    assert (T := Rabs_triang (coord (minus3 (x (S (f * S k + k)) a) (x (f * S k + k)%nat a)) d) (coord (minus3 (x (f * S k + k)%nat a) (x (f * S k)%nat a)) d)).
    assert (C : (INR (S k) <= INR c)%R) by (apply le_INR; lia). rewrite S_INR in C. pose proof (pos_INR k) as PK. assert (PC : (0 < INR c)%R) by lra.
    assert (M := Rmult_le_compat_l _ _ _ (Rlt_le _ _ PC) T). apply (Rmult_lt_reg_l (INR c)); [exact PC|]. eapply Rle_lt_trans; [exact M|]. lra. }
  pose proof (K AX) as KX. pose proof (K AY) as KY. pose proof (K AZ) as KZ. cbn [coord] in *. apply Rabs_def2 in KX, KY, KZ. unfold within_half. repeat split; lra.
Qed.
Lemma C116_thinning_proof : forall cell types vol n natoms c k (x : nat -> nat -> V3 R) (img : nat -> nat -> V3 Z), cell_volume cell <> 0%R -> 0 < n -> 0 < k -> 0 < c -> slow (c * k) n natoms x ->
  let frames := frames_of types vol n natoms (fun f a => plus3 (x f a) (ivec (img f a))) (fun _ => cell) in
  exists d d', displacements (Z.of_nat k) frames = Ok d /\ displacements (Z.of_nat (c * k)) frames = Ok d'
    /\ forall a f, a < natoms -> f * (c * k) < n -> arr_entry d' a f = arr_entry d a (f * c) /\ exists v, arr_entry d' a f = Some v.
Proof.
  intros cell types vol n natoms c k x img V Hn Hk Hc H frames. eexists. eexists. split; [apply (C01_proof cell types vol n natoms k x img V Hn Hk); apply (slow_small (c * k)); [exact H|nia]|].
  split; [apply (C01_proof cell types vol n natoms (c * k) x img V Hn ltac:(nia)); apply (slow_small (c * k)); [exact H|nia]|].
  intros a f Ha Hf. rewrite !ProofsParser.table_entry; [|exact Ha|apply kept_spec; nia|exact Ha|apply kept_spec; nia]. rewrite Nat.mul_assoc. eauto.
Qed.
Lemma C116_images_proof : forall i circ cell types vol n natoms k x y a p, same_images x y ->
  any_read i circ cell types vol n natoms k x a p -> any_read i circ cell types vol n natoms k y a p.
Proof.
  intros i circ cell types vol n natoms k x y a p S A. destruct A as [A1 A2 A3 A4 A5 A6 A7 A8 A9 A10 [img E]]. constructor; try assumption.
  destruct (choose_images x y n natoms S) as [z Z].
  exists (fun f b => mkV (vx (img f b) - vx (z f b)) (vy (img f b) - vy (z f b)) (vz (img f b) - vz (z f b)))%Z. rewrite <- E. f_equal.
  apply handed_over_ext. intros f b Hf Hb. cbv beta. rewrite (Z f b Hf Hb), plus_ivec. do 2 f_equal. destruct (img f b), (z f b). cbn. f_equal; lia.
Qed.
(** An atom going 9/10 of the cell to the right at every frame: reported as going 1/10 to the left. *)
Definition swift (f : nat) : R := (9 / 10 * INR f)%R.
Definition backward (f : nat) : R := (- (INR f / 10))%R.
Lemma backward_gentle : gentle backward.
Proof. intros f. unfold backward. rewrite S_INR. lra. Qed.
Lemma swift_images : same_images (walk swift) (walk backward).
Proof.
  intros f a. destruct a as [|a].
  - exists (mkV (- Z.of_nat f) 0 0)%Z. unfold walk, swift, backward, plus3, ivec. cbn [vx vy vz]. rewrite opp_IZR, <- INR_IZR_INZ. f_equal; lra.
  - exists (mkV 0 0 0)%Z. unfold walk, plus3, ivec, zero3. cbn. f_equal; lra.
Qed.
Lemma swift_shortest : shortest_path 4 2 1 (walk swift) (walk backward).
Proof.
  constructor; [|exact swift_images|apply walk_small, backward_gentle]. intros a. destruct a as [|a]; [|reflexivity]. unfold walk, swift, backward. cbn. f_equal; lra.
Qed.
Lemma C116_refuted_proof : forall G Seed RS (X : Ext R G Seed RS) circ (g : G), exists x y a p an,
  any_read Ase circ unit_cell ["Li"; "O"]%string 1%R 4 2 1 x a p /\ shortest_path 4 2 1 x y
  /\ diffusion_analyzer X (of_parsed p) (demo_boot 1 "xyz") g = Ok (an, g)
  /\ nth_error (p_intervals p) 0 = Some 1%Z /\ nth_error (b_dt (an_diff an)) 0 = Some 1%R
  /\ nth_error (b_n (an_diff an)) 0 = Some (3 / 400)%R
  /\ true_msd all_axes 2 1 (fun f b => cart unit_cell (x f b)) (p_indices p) (p_drift_indices p) 4 1 = (81 / 100)%R.
Proof.
  intros G Seed RS X circ g. destruct (walk_run G Seed RS X circ g backward backward_gentle) as (p & an & W).
  exists (walk swift), (walk backward), walk_params, p, an. destruct (walked_values X circ g backward p an W) as [V _]. destruct W as (F & E1 & E2 & E3 & H & Ht).
  split. { apply (C116_images_proof _ _ _ _ _ _ _ _ (walk backward)); [apply same_images_sym, swift_images|]. apply C116_same_proof in F. apply F. }
  split; [exact swift_shortest|]. split; [exact H|]. split; [now rewrite E1|]. split; [now rewrite Ht|]. split.
  - rewrite V. f_equal. unfold backward. cbn [Nat.add INR]. field.
  - assert (T := true_total all_axes 2 1 (fun f b => cart unit_cell (walk swift f b)) (p_indices p) (p_drift_indices p) 4 1).
    rewrite E2, E3 in *. cbn [Nat.sub seq map] in T. rewrite !walk_square in T. unfold swift in T. cbn [rsum fold_right Nat.add INR] in T. unfold swift. lra.
Qed.
Lemma C116_example_proof : forall a, shortest_path 4 2 1 (walk swift) (walk backward)
  /\ (forall f, f * 1 < 4 -> a < 2 -> walk swift (f * 1) a = plus3 (walk swift 0 a) (scale3 (INR f) (walk swift 1 a)))
  /\ (a < 2 -> within_half (walk backward 1 a) /\ exists z, walk swift 1 a = plus3 (walk backward 1 a) (ivec z))
  /\ slow 2 4 2 (walk steady) /\ ~ small_steps 4 2 1 (walk swift).
Proof.
  intros a. split; [exact swift_shortest|]. split; [|split; [|split]].
  - intros f _ _. rewrite Nat.mul_1_r. destruct a; unfold walk, plus3, scale3, swift, zero3; cbn [vx vy vz INR]; f_equal; lra.
  - intros _. split; [|apply (same_images_sym _ _ swift_images)]. destruct a; unfold walk, within_half, backward, zero3; cbn [vx vy vz INR]; lra.
  - intros f b d _ _. unfold walk, ProofsTrue.steady. rewrite !S_INR. cbn [INR]. destruct b; destruct d; cbn [coord minus3 vx vy vz zero3]; unfold Rabs; (match goal with |- context [Rcase_abs ?r] => destruct (Rcase_abs r) end); lra.
  - intros H. destruct (H 0 0 ltac:(lia) ltac:(lia)) as (A & _). unfold walk, swift in A. cbn in A. lra.
Qed.
