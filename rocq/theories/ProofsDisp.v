(** * ProofsDisp: displacements and drift (C01-C05) *)
From Verif Require Import Base Spec ModelParser SpecParser Lemmas SpecRun.
From Coq Require Import Reals Lra Arith.
Open Scope Z_scope.

Ltac vec := repeat match goal with v : V3 _ |- _ => destruct v end;
  unfold vadd, vsub, vscale, vmap2, vmap, plus3, minus3, zero3, v0, ivec in *; cbn in *.
Ltac v3eq := apply V3_eq; cbn; numR; try lra; try ring.

Lemma vecmat_cart v m : vecmat v m = cart m v.
Proof. reflexivity. Qed.
Lemma vadd_plus3 u v : vadd u v = plus3 u v.
Proof. reflexivity. Qed.
Lemma vsub_minus3 u v : vsub u v = minus3 u v.
Proof. reflexivity. Qed.
Lemma mdet_volume m : mdet m = cell_volume m.
Proof. unfold mdet, cell_volume; numR. ring. Qed.

Lemma minv_ok m : cell_volume m <> 0%R -> exists mi, minv m = Ok mi
  /\ (forall v, cart mi (cart m v) = v) /\ (forall v, cart m (cart mi v) = v).
Proof.
  intros H. rewrite <- mdet_volume in H. unfold minv.
  destruct (neqb (mdet m) n0) eqn:E; [apply neqb_R_true in E; contradiction|].
  eexists; split; [reflexivity|].
  destruct m as [[a1 a2 a3] [b1 b2 b3] [c1 c2 c3]].
  unfold mdet in *. cbn in *. clear E.
  split; intros [x y z]; apply V3_eq; cbn; field; exact H.
Qed.
Lemma minv_inv m mi : minv m = Ok mi -> cell_volume m <> 0%R
  /\ (forall v, cart mi (cart m v) = v) /\ (forall v, cart m (cart mi v) = v).
Proof.
  intros H. assert (D : cell_volume m <> 0%R).
  { rewrite <- mdet_volume. unfold minv in H.
    destruct (neqb (mdet m) n0) eqn:E; [discriminate|]. now apply neqb_R_false in E. }
  destruct (minv_ok m D) as (mi' & E & H1 & H2). rewrite H in E. injection E as ->. auto.
Qed.

Lemma cart_minus m u v : cart m (minus3 u v) = minus3 (cart m u) (cart m v).
Proof. v3eq. Qed.
Lemma cart_plus m u v : cart m (plus3 u v) = plus3 (cart m u) (cart m v).
Proof. v3eq. Qed.

(** Rounding to the nearest integer vector, as the code does it. *)
Definition round3 (v : V3 R) : V3 Z :=
  mkV (Rfloor (vx v + /2)) (Rfloor (vy v + /2)) (Rfloor (vz v + /2)).

Lemma image_correction_cart d l li :
  image_correction d l li = cart l (ivec (round3 (cart li d))).
Proof.
  unfold image_correction. rewrite !vecmat_cart. f_equal. unfold vmap, ivec, round3.
  rewrite nhalf_R. reflexivity.
Qed.

Lemma round3_within v : within_half (minus3 v (ivec (round3 v))).
Proof.
  unfold within_half, round3; cbn.
  pose proof (Rfloor_bounds (vx v + /2)); pose proof (Rfloor_bounds (vy v + /2));
  pose proof (Rfloor_bounds (vz v + /2)). lra.
Qed.
Lemma round3_shift v k : round3 (plus3 v (ivec k)) =
  mkV (vx (round3 v) + vx k) (vy (round3 v) + vy k) (vz (round3 v) + vz k).
Proof.
  unfold round3; cbn. f_equal;
  match goal with |- Rfloor (?a + IZR ?k + /2) = _ =>
    replace (a + IZR k + /2)%R with (a + /2 + IZR k)%R by lra end; apply Rfloor_plus_IZR.
Qed.
Lemma round3_small v : within_half v -> round3 v = mkV 0 0 0.
Proof.
  unfold within_half, round3. intros (H1 & H2 & H3). f_equal; apply Rfloor_unique; cbn; lra.
Qed.

(** One unwrapped step, from Cartesian [w] to [w'], in the new cell. *)
Definition tor_step (l li : M3 R) (w w' : V3 R) : V3 R :=
  minus3 (minus3 w' w) (cart l (ivec (round3 (cart li (minus3 w' w))))).

Fixpoint vsum (f : nat -> V3 R) (n : nat) : V3 R :=
  match n with O => zero3 | S m => plus3 (vsum f m) (f m) end.

Lemma cumsum_from_seq (g : nat -> V3 R) k n :
  cumsum_from (vsum g k) (map g (seq k n)) = map (fun t => vsum g (S t)) (seq k n).
Proof.
  revert k. induction n; intros k; cbn; [reflexivity|].
  rewrite vadd_plus3. f_equal. apply (IHn (S k)).
Qed.
Lemma cumsum_seq (g : nat -> V3 R) n :
  cumsum (map g (seq 0 n)) = map (fun t => vsum g (S t)) (seq 0 n).
Proof.
  destruct n; cbn; [reflexivity|].
  assert (E : g 0%nat = vsum g 1) by (cbn; apply V3_eq; cbn; lra).
  rewrite E at 2. rewrite cumsum_from_seq. f_equal. now rewrite E at 1.
Qed.

Lemma get_disp_row_fun (c : nat -> V3 R) (l li : nat -> M3 R) n :
  get_disp_row (tab (S n) c) (tab (S n) l) (tab (S n) li)
  = tab n (fun t => vsum (fun f => tor_step (l (S f)) (li (S f)) (cart (l f) (c f))
                                            (cart (l (S f)) (c (S f)))) (S t)).
Proof.
  unfold get_disp_row, tab, np_diff. rewrite zip_with_map. rewrite !tl_map_seq.
  assert (E : zip_with (fun a b => vsub b a) (map (fun i => vecmat (c i) (l i)) (seq 0 (S n)))
                (map (fun i => vecmat (c (S i)) (l (S i))) (seq 0 n))
              = map (fun i => minus3 (cart (l (S i)) (c (S i))) (cart (l i) (c i))) (seq 0 n)).
  { unfold zip_with. rewrite combine_map_trunc by lia. rewrite map_map. reflexivity. }
  rewrite E. rewrite !combine_map, map_map, zip_with_map. cbn [fst snd].
  rewrite <- cumsum_seq. f_equal. apply map_ext. intros i.
  rewrite image_correction_cart. reflexivity.
Qed.

Lemma mapM_minv_fun (l : nat -> M3 R) n :
  (forall f, (f < n)%nat -> cell_volume (l f) <> 0%R) ->
  exists li, mapM minv (tab n l) = Ok (tab n li) /\ forall f, (f < n)%nat -> minv (l f) = Ok (li f).
Proof.
  intros H.
  exists (fun f => match minv (l f) with Ok m => m | Raise _ => l f end).
  assert (G : forall f, (f < n)%nat ->
            minv (l f) = Ok (match minv (l f) with Ok m => m | Raise _ => l f end)).
  { intros f Hf. destruct (minv_ok (l f) (H f Hf)) as (m & E & _). now rewrite E. }
  split; [|exact G].
  unfold tab. rewrite mapM_map. apply mapM_total. intros f Hf. apply in_seq in Hf. apply G. lia.
Qed.

Lemma forallb_tab {T} (P : T -> bool) n f :
  (forall i, (i < n)%nat -> P (f i) = true) -> forallb P (tab n f) = true.
Proof.
  intros H. apply forallb_forall. intros x Hx. unfold tab in Hx. apply in_map_iff in Hx as (i & <- & Hi).
  apply in_seq in Hi. apply H. lia.
Qed.

Lemma tab_length {T} n (f : nat -> T) : length (tab n f) = n.
Proof. unfold tab. now rewrite map_length, seq_length. Qed.
Lemma tab_nth_error {T} n (f : nat -> T) i : (i < n)%nat -> nth_error (tab n f) i = Some (f i).
Proof. apply nth_error_map_seq. Qed.
Lemma tab_nth {T} n (f : nat -> T) i d : (i < n)%nat -> nth i (tab n f) d = f i.
Proof. apply nth_map_seq. Qed.
Lemma tab_ext {T} n (f g : nat -> T) : (forall i, (i < n)%nat -> f i = g i) -> tab n f = tab n g.
Proof. apply map_seq_ext. Qed.
Lemma tab_S {T} n (f : nat -> T) : tab (S n) f = f 0%nat :: tab n (fun i => f (S i)).
Proof. unfold tab. cbn [seq map]. rewrite <- seq_shift, map_map. reflexivity. Qed.
Lemma tab_shape {T} m n (f : nat -> nat -> T) : shape (tab m (fun a => tab n (f a))) m n.
Proof.
  split; [apply tab_length|]. apply Forall_forall. intros r Hr. unfold tab in Hr.
  apply in_map_iff in Hr as (a & <- & _). apply tab_length.
Qed.
Lemma tab_entry {T} m n (f : nat -> nat -> T) a t : (a < m)%nat -> (t < n)%nat ->
  entry (tab m (fun a => tab n (f a))) a t = Some (f a t).
Proof. intros. unfold entry. rewrite tab_nth_error by lia. now rewrite tab_nth_error by lia. Qed.

(** The workhorse: [get_disp] on any rectangular trajectory. *)
Lemma get_disp_fun natoms n (c : nat -> nat -> V3 R) (l li : nat -> M3 R) :
  mapM minv (tab (S n) l) = Ok (tab (S n) li) ->
  get_disp (tab (S n) (fun f => tab natoms (c f))) (tab (S n) l)
  = Ok (mkArr n (tab natoms (fun a => tab n (fun t =>
        vsum (fun f => tor_step (l (S f)) (li (S f)) (cart (l f) (c f a))
                                (cart (l (S f)) (c (S f) a))) (S t))))).
Proof.
  intros Hli. unfold get_disp. rewrite tab_S at 1. cbv beta iota.
  rewrite tab_length.
  rewrite forallb_tab by (intros; rewrite tab_length; apply Nat.eqb_refl).
  cbn [guard bind]. rewrite Hli. cbn [bind]. rewrite !tab_length, Nat.eqb_refl. cbn [guard bind].
  f_equal. f_equal; [lia|]. unfold tab at 5. apply map_seq_ext. intros a Ha.
  rewrite <- get_disp_row_fun. f_equal. unfold tab at 1 3. rewrite map_map. apply map_ext.
  intros f. now rewrite tab_nth by lia.
Qed.

(** ** The trajectory as read from a file: N frames, the first one duplicated *)
Lemma read_fun types vol n natoms c l :
  get_structure_coords_latt (frames_of types vol (S n) natoms c l) 1
  = Ok (mkStructure types vol, tab (S (S n)) (fun f => tab natoms (c (pred f))),
        tab (S (S n)) (fun f => l (pred f))).
Proof.
  unfold get_structure_coords_latt. rewrite py_stride_one. cbn [bind].
  unfold frames_of. rewrite (tab_S n). cbn [map duplicate_first bind f_pos f_cell f_types f_volume].
  f_equal. f_equal; [f_equal|].
  - rewrite (tab_S (S n)). cbn [pred]. f_equal. rewrite (tab_S n). f_equal.
    unfold tab at 1 3. rewrite map_map. reflexivity.
  - rewrite (tab_S (S n)). cbn [pred]. f_equal. rewrite (tab_S n). f_equal.
    unfold tab. rewrite map_map. reflexivity.
Qed.

Lemma vsum_ext f g n : (forall i, (i < n)%nat -> f i = g i) -> vsum f n = vsum g n.
Proof. induction n; intros H; cbn; [reflexivity|]. rewrite IHn, H; auto. Qed.
Lemma vsum_telescope (y : nat -> V3 R) n : vsum (fun i => minus3 (y (S i)) (y i)) n = minus3 (y n) (y 0%nat).
Proof. induction n; cbn; [v3eq|]. rewrite IHn. v3eq. Qed.

Lemma tor_step_same l li w : tor_step l li w w = zero3.
Proof.
  unfold tor_step.
  replace (minus3 w w) with zero3 by v3eq.
  replace (cart li zero3) with zero3 by v3eq.
  rewrite round3_small by (unfold within_half; cbn; lra). v3eq.
Qed.

Lemma vsum_shift (f : nat -> V3 R) n : vsum f (S n) = plus3 (f 0%nat) (vsum (fun i => f (S i)) n).
Proof. induction n; [cbn; v3eq|]. change (vsum f (S (S n))) with (plus3 (vsum f (S n)) (f (S n))).
  rewrite IHn. cbn. v3eq. Qed.

(** Parsed displacements of N frames: entry t sums the first t unwrapped steps. *)
Lemma read_disp_fun types vol n natoms c (l li : nat -> M3 R) :
  mapM minv (tab (S n) l) = Ok (tab (S n) li) ->
  displacements 1 (frames_of types vol (S n) natoms c l)
  = Ok (mkArr (S n) (tab natoms (fun a => tab (S n) (fun t =>
        vsum (fun f => tor_step (l (S f)) (li (S f)) (cart (l f) (c f a))
                                (cart (l (S f)) (c (S f) a))) t)))).
Proof.
  intros Hli. unfold displacements. rewrite read_fun. cbn [bind].
  assert (H2 : mapM minv (tab (S (S n)) (fun f => l (pred f))) = Ok (tab (S (S n)) (fun f => li (pred f)))).
  { rewrite (tab_S (S n) (fun f => l (pred f))), (tab_S (S n) (fun f => li (pred f))).
    cbn [pred]. cbn [mapM]. fold (tab (S n) l). rewrite (tab_S n l), (tab_S n li) in Hli.
    cbn [mapM] in Hli.
    destruct (minv (l 0%nat)) eqn:E0; cbn in Hli; [|discriminate].
    destruct (mapM minv (tab n (fun i => l (S i)))) eqn:E1; cbn in Hli; [|discriminate].
    injection Hli as -> ->. cbn [bind].
    change (tab (S n) (fun i => l i)) with (tab (S n) l).
    rewrite (tab_S n l). cbn [mapM]. rewrite E0, E1. cbn [bind].
    f_equal. f_equal. symmetry. apply tab_S. }
  rewrite (get_disp_fun natoms (S n) (fun f => c (pred f)) (fun f => l (pred f)) (fun f => li (pred f)) H2).
  f_equal. f_equal. apply tab_ext. intros a Ha. apply tab_ext. intros t Ht.
  rewrite vsum_shift. cbn [pred]. rewrite tor_step_same. cbv beta.
  apply V3_eq; cbn; lra.
Qed.

(** ** Strides over tables *)
Lemma kept_spec n k : (0 < k)%nat -> forall i, (i < kept n k)%nat <-> (i * k < n)%nat.
Proof.
  intros Hk i. unfold kept.
  pose proof (Nat.div_mod (n + k - 1) k ltac:(lia)) as D.
  pose proof (Nat.mod_upper_bound (n + k - 1) k ltac:(lia)) as M.
  set (q := ((n + k - 1) / k)%nat) in *. set (r := ((n + k - 1) mod k)%nat) in *. clearbody q r.
  split; intros H; nia.
Qed.
Lemma every_tab {T} k n (f : nat -> T) : (0 < k)%nat -> every k 0 (tab n f) = tab (kept n k) (fun i => f (i * k)%nat).
Proof.
  intros Hk. apply list_ext. intros i. rewrite nth_error_every by exact Hk.
  destruct (Nat.lt_ge_cases i (kept n k)) as [H|H].
  - rewrite (tab_nth_error (kept n k)) by exact H. apply tab_nth_error. now apply kept_spec.
  - assert (H2 : ~ (i * k < n)%nat) by (rewrite <- kept_spec by exact Hk; lia).
    rewrite (proj2 (nth_error_None _ _)) by (rewrite tab_length; lia).
    symmetry. apply nth_error_None. rewrite tab_length. lia.
Qed.
Lemma py_stride_tab {T} k n (f : nat -> T) : (0 < k)%nat ->
  py_stride (Z.of_nat k) (tab n f) = Ok (tab (kept n k) (fun i => f (i * k)%nat)).
Proof.
  intros Hk. unfold py_stride.
  destruct (Z.of_nat k =? 0) eqn:E; [apply Z.eqb_eq in E; lia|].
  destruct (0 <? Z.of_nat k) eqn:E2; [|apply Z.ltb_ge in E2; lia].
  rewrite Nat2Z.id. now rewrite every_tab.
Qed.
Lemma displacements_stride k types vol n natoms c l : (0 < k)%nat ->
  displacements (Z.of_nat k) (frames_of types vol n natoms c l)
  = displacements 1 (frames_of types vol (kept n k) natoms (fun f => c (f * k)%nat) (fun f => l (f * k)%nat)).
Proof.
  intros Hk. unfold displacements, get_structure_coords_latt, frames_of.
  rewrite py_stride_tab by exact Hk. rewrite py_stride_one. reflexivity.
Qed.
Lemma kept_pos n k : (0 < k)%nat -> (0 < n)%nat -> (0 < kept n k)%nat.
Proof. intros. apply kept_spec; lia. Qed.
Lemma kept_one n : kept n 1 = n.
Proof. unfold kept. rewrite Nat.div_1_r. lia. Qed.

(** ** C01-C04 *)
Lemma tor_step_recovers l li (u v : V3 R) (j k : V3 Z) :
  minv l = Ok li -> within_half (minus3 v u) ->
  tor_step l li (cart l (plus3 u (ivec j))) (cart l (plus3 v (ivec k))) = minus3 (cart l v) (cart l u).
Proof.
  intros Hinv H. destruct (minv_inv _ _ Hinv) as (_ & H1 & H2).
  unfold tor_step. rewrite <- cart_minus.
  rewrite H1.
  replace (minus3 (plus3 v (ivec k)) (plus3 u (ivec j)))
    with (plus3 (minus3 v u) (ivec (mkV (vx k - vx j) (vy k - vy j) (vz k - vz j))%Z))
    by (apply V3_eq; cbn; rewrite minus_IZR; lra).
  rewrite round3_shift, round3_small by exact H. cbn [vx vy vz].
  rewrite <- !cart_minus. f_equal. apply V3_eq; cbn; rewrite ?plus_IZR, ?minus_IZR; lra.
Qed.

Lemma const_inv (cell : M3 R) n : cell_volume cell <> 0%R ->
  exists li, minv cell = Ok li /\ mapM minv (tab n (fun _ => cell)) = Ok (tab n (fun _ => li)).
Proof.
  intros H. destruct (minv_ok cell H) as (li & E & _). exists li. split; [exact E|].
  unfold tab. rewrite mapM_map. apply mapM_total. intros; exact E.
Qed.

Lemma C01_proof : forall cell types vol n natoms k (x : nat -> nat -> V3 R) (img : nat -> nat -> V3 Z),
  cell_volume cell <> 0%R -> (0 < n)%nat -> (0 < k)%nat ->
  (forall f a, (S f * k < n)%nat -> (a < natoms)%nat -> within_half (minus3 (x (S f * k)%nat a) (x (f * k)%nat a))) ->
  displacements (Z.of_nat k) (frames_of types vol n natoms (fun f a => plus3 (x f a) (ivec (img f a))) (fun _ => cell))
  = Ok (table natoms (kept n k) (fun a f => cart cell (minus3 (x (f * k)%nat a) (x 0%nat a)))).
Proof.
  intros cell types vol n natoms k x img Hc Hn Hk Hsmall.
  rewrite displacements_stride by exact Hk.
  pose proof (kept_pos n k Hk Hn) as Hp.
  pose proof (kept_spec n k Hk) as Hspec.
  destruct (kept n k) as [|m]; [lia|].
  destruct (const_inv cell (S m) Hc) as (li & Hli & HM).
  rewrite (read_disp_fun types vol m natoms _ _ (fun _ => li) HM).
  f_equal. unfold table. f_equal. apply tab_ext. intros a Ha. apply tab_ext. intros t Ht.
  rewrite (vsum_ext _ (fun i => minus3 (cart cell (x (S i * k)%nat a)) (cart cell (x (i * k)%nat a)))).
  - rewrite (vsum_telescope (fun i => cart cell (x (i * k)%nat a))). rewrite <- cart_minus. reflexivity.
  - intros i Hi. apply tor_step_recovers; [exact Hli|]. apply Hsmall; [|exact Ha].
    apply Hspec. lia.
Qed.

(** *** C02 *)
Lemma tor_step_image l0 l li (u v : V3 R) (j k : V3 Z) :
  minv l = Ok li -> l0 = l \/ j = mkV 0 0 0 ->
  tor_step l li (cart l0 (plus3 u (ivec j))) (cart l (plus3 v (ivec k)))
  = tor_step l li (cart l0 u) (cart l v).
Proof.
  intros Hinv Hc. destruct (minv_inv _ _ Hinv) as (_ & H1 & H2).
  set (s := mkV (vx k - vx j) (vy k - vy j) (vz k - vz j)).
  assert (E : minus3 (cart l (plus3 v (ivec k))) (cart l0 (plus3 u (ivec j)))
              = plus3 (minus3 (cart l v) (cart l0 u)) (cart l (ivec s))).
  { unfold s. destruct Hc as [->| ->]; v3eq; rewrite ?minus_IZR; ring. }
  unfold tor_step. rewrite E. rewrite (cart_plus li), H1, round3_shift.
  set (r := round3 (cart li (minus3 (cart l v) (cart l0 u)))).
  replace (ivec (mkV (vx r + vx s) (vy r + vy s) (vz r + vz s))) with (plus3 (ivec r) (ivec s))
    by (apply V3_eq; cbn; now rewrite plus_IZR).
  rewrite cart_plus. v3eq.
Qed.

Lemma displacements_zero k types vol natoms c l :
  displacements k (frames_of types vol 0 natoms c l) = Raise (if (k =? 0)%Z then ValueError else IndexError).
Proof.
  unfold displacements, get_structure_coords_latt, py_stride. cbn.
  destruct (k =? 0); [reflexivity|]. destruct (0 <? k); reflexivity.
Qed.

Lemma read_disp_singular types vol n natoms c (l : nat -> M3 R) e :
  mapM minv (tab (S n) l) = Raise e ->
  displacements 1 (frames_of types vol (S n) natoms c l) = Raise e.
Proof.
  intros H. unfold displacements. rewrite read_fun. cbn [bind]. unfold get_disp.
  rewrite tab_S at 1. cbv beta iota. cbn [pred]. rewrite tab_length.
  rewrite forallb_tab by (intros; rewrite tab_length; apply Nat.eqb_refl). cbn [guard bind].
  rewrite (tab_S (S n)). cbn [pred]. cbn [mapM].
  change (tab (S n) (fun i => l i)) with (tab (S n) l). rewrite H.
  rewrite (tab_S n l) in H. cbn [mapM] in H.
  destruct (minv (l 0%nat)); cbn in *; [reflexivity| now injection H as ->].
Qed.

Lemma mapM_tab_ok {T U} (f : T -> Res U) n (l : nat -> T) r (d : U) :
  mapM f (tab n l) = Ok r -> r = tab n (fun i => nth i r d) /\ forall i, (i < n)%nat -> f (l i) = Ok (nth i r d).
Proof.
  intros H. pose proof (mapM_length _ _ _ H) as L. rewrite tab_length in L. split.
  - unfold tab. rewrite <- L. symmetry. apply map_nth_seq.
  - intros i Hi. apply mapM_ok in H.
    destruct (Forall2_nth_error _ _ _ i (l i) H (tab_nth_error _ _ _ Hi)) as (y & Hy & E).
    now rewrite (nth_error_nth _ _ _ Hy).
Qed.

Lemma images_irrelevant types vol n natoms c l (img : nat -> nat -> V3 Z) :
  (forall f a, (S f < n)%nat -> (a < natoms)%nat -> l f = l (S f) \/ img f a = mkV 0 0 0) ->
  displacements 1 (frames_of types vol n natoms (fun f a => plus3 (c f a) (ivec (img f a))) l)
  = displacements 1 (frames_of types vol n natoms c l).
Proof.
  intros H. destruct n as [|n]; [now rewrite !displacements_zero|].
  destruct (mapM minv (tab (S n) l)) as [r|e] eqn:E.
  - destruct (mapM_tab_ok _ _ _ _ (l 0%nat) E) as [Er Hi].
    rewrite Er in E.
    rewrite !(read_disp_fun types vol n natoms _ l _ E). f_equal. f_equal.
    apply tab_ext. intros a Ha. apply tab_ext. intros t Ht. apply vsum_ext. intros i Hi2.
    apply tor_step_image; [apply Hi; lia|]. apply H; lia.
  - now rewrite !(read_disp_singular types vol n natoms _ l _ E).
Qed.

Lemma C02_proof : forall cell types vol n natoms k c (img : nat -> nat -> V3 Z),
  (0 < k)%nat ->
  displacements (Z.of_nat k) (frames_of types vol n natoms (fun f a => plus3 (c f a) (ivec (img f a))) (fun _ => cell))
  = displacements (Z.of_nat k) (frames_of types vol n natoms c (fun _ => cell)).
Proof.
  intros. rewrite !displacements_stride by assumption.
  apply (images_irrelevant types vol (kept n k) natoms (fun f => c (f * k)%nat) (fun _ => cell)
           (fun f => img (f * k)%nat)). auto.
Qed.

(** *** C03 *)
Lemma tor_step_minimum l li w w' : minv l = Ok li -> minimum_image_of l (minus3 w' w) (tor_step l li w w').
Proof.
  intros H. destruct (minv_inv _ _ H) as (_ & H1 & H2). unfold tor_step.
  set (raw := minus3 w' w). split.
  - eexists; reflexivity.
  - exists (minus3 (cart li raw) (ivec (round3 (cart li raw)))). split; [apply round3_within|].
    rewrite cart_minus, H2. reflexivity.
Qed.

Lemma IZR_between a : (-1 < IZR a < 1)%R -> a = 0.
Proof. intros [H1 H2]. apply lt_IZR in H1. apply lt_IZR in H2. lia. Qed.

Lemma minimum_image_unique l raw s s' : cell_volume l <> 0%R ->
  minimum_image_of l raw s -> minimum_image_of l raw s' -> s = s'.
Proof.
  intros D [(k & Hk) (u & Hu & Eu)] [(k' & Hk') (u' & Hu' & Eu')].
  destruct (minv_ok l D) as (li & _ & H1 & _).
  assert (E : minus3 u u' = minus3 (ivec k') (ivec k)).
  { rewrite <- (H1 (minus3 u u')), <- (H1 (minus3 (ivec k') (ivec k))). f_equal.
    rewrite !cart_minus, <- Eu, <- Eu', Hk, Hk'. v3eq. }
  assert (Ez : u = u').
  { destruct Hu as (A1 & A2 & A3), Hu' as (B1 & B2 & B3).
    pose proof (f_equal vx E) as Ex; pose proof (f_equal vy E) as Ey; pose proof (f_equal vz E) as Ez0.
    cbn in Ex, Ey, Ez0.
    rewrite <- minus_IZR in Ex, Ey, Ez0.
    assert (X : vx k' - vx k = 0) by (apply IZR_between; lra).
    assert (Y : vy k' - vy k = 0) by (apply IZR_between; lra).
    assert (Z0 : vz k' - vz k = 0) by (apply IZR_between; lra).
    rewrite X in Ex; rewrite Y in Ey; rewrite Z0 in Ez0.
    apply V3_eq; lra. }
  now rewrite Eu, Eu', Ez.
Qed.

Lemma C03_proof : forall types vol n natoms c (l : nat -> M3 R),
  (0 < n)%nat -> (forall f, (f < n)%nat -> cell_volume (l f) <> 0%R) ->
  exists x, displacements 1 (frames_of types vol n natoms c l) = Ok (table natoms n x)
    /\ (forall a, x a 0%nat = zero3)
    /\ (forall f a, (S f < n)%nat ->
         minimum_image_of (l (S f)) (minus3 (cart (l (S f)) (c (S f) a)) (cart (l f) (c f a)))
                          (minus3 (x a (S f)) (x a f))).
Proof.
  intros types vol n natoms c l Hn HD. destruct n as [|n]; [lia|].
  destruct (mapM_minv_fun l (S n) HD) as (li & HM & Hi).
  rewrite (read_disp_fun types vol n natoms c l li HM).
  eexists; split; [reflexivity|]. split; [reflexivity|].
  intros f a Hf. cbn [vsum].
  match goal with |- minimum_image_of _ _ (minus3 (plus3 ?s ?t) ?s') =>
    replace (minus3 (plus3 s t) s') with t by v3eq end.
  apply tor_step_minimum. apply Hi. lia.
Qed.

(** *** C04 *)
Lemma C04_shape_proof : forall types vol n natoms c (l : nat -> M3 R),
  (0 < n)%nat -> (forall f, (f < n)%nat -> cell_volume (l f) <> 0%R) ->
  exists d, displacements 1 (frames_of types vol n natoms c l) = Ok d
    /\ a_obs d = n /\ shape (a_rows d) natoms n
    /\ forall a, (a < natoms)%nat -> arr_entry d a 0 = Some zero3.
Proof.
  intros types vol n natoms c l Hn HD.
  destruct (C03_proof types vol n natoms c l Hn HD) as (x & E & H0 & _).
  exists (table natoms n x). split; [exact E|]. split; [reflexivity|]. split; [apply tab_shape|].
  intros a Ha. unfold arr_entry, table; cbn. rewrite tab_entry by lia. now rewrite H0.
Qed.

Lemma C04_causal_proof : forall types vol n m natoms c (l : nat -> M3 R),
  (0 < m <= n)%nat -> (forall f, (f < n)%nat -> cell_volume (l f) <> 0%R) ->
  exists d d', displacements 1 (frames_of types vol n natoms c l) = Ok d
    /\ displacements 1 (firstn m (frames_of types vol n natoms c l)) = Ok d'
    /\ a_obs d' = m
    /\ a_rows d' = map (firstn m) (a_rows d).
Proof.
  intros types vol n m natoms c l Hm HD.
  destruct n as [|n]; [lia|]. destruct m as [|m]; [lia|].
  destruct (mapM_minv_fun l (S n) HD) as (li & HM & Hi).
  assert (HM' : mapM minv (tab (S m) l) = Ok (tab (S m) li)).
  { unfold tab. rewrite mapM_map. apply mapM_total. intros f Hf. apply in_seq in Hf. apply Hi. lia. }
  exists (table natoms (S n) (fun a t => vsum (fun f => tor_step (l (S f)) (li (S f)) (cart (l f) (c f a))
                                (cart (l (S f)) (c (S f) a))) t)).
  eexists. split; [now rewrite (read_disp_fun types vol n natoms c l li HM)|].
  split.
  - unfold frames_of. unfold tab at 1. rewrite firstn_map_seq by lia.
    fold (tab (S m) (fun f => mkFrame types (tab natoms (c f)) (l f) vol)).
    fold (frames_of types vol (S m) natoms c l).
    rewrite (read_disp_fun types vol m natoms c l li HM'). reflexivity.
  - split; [reflexivity|]. cbn [table a_rows]. unfold tab at 1 3. rewrite map_map.
    apply map_ext. intros a. unfold tab. rewrite firstn_map_seq by lia. reflexivity.
Qed.

Lemma C04_local_proof : forall types vol n natoms c c' (l : nat -> M3 R) a,
  (a < natoms)%nat -> (forall f, (f < n)%nat -> c f a = c' f a) ->
  forall d d', displacements 1 (frames_of types vol n natoms c l) = Ok d ->
    displacements 1 (frames_of types vol n natoms c' l) = Ok d' ->
    nth_error (a_rows d) a = nth_error (a_rows d') a.
Proof.
  intros types vol n natoms c c' l a Ha Hc d d' Hd Hd'.
  destruct n as [|n]; [rewrite displacements_zero in Hd; discriminate|].
  destruct (mapM minv (tab (S n) l)) as [r|e] eqn:E.
  - destruct (mapM_tab_ok _ _ _ _ (l 0%nat) E) as [Er Hi]. rewrite Er in E.
    rewrite (read_disp_fun types vol n natoms c l _ E) in Hd.
    rewrite (read_disp_fun types vol n natoms c' l _ E) in Hd'.
    injection Hd as <-. injection Hd' as <-. cbn [a_rows].
    rewrite !tab_nth_error by lia. f_equal. apply tab_ext. intros t Ht. apply vsum_ext.
    intros i Hi2. rewrite !Hc by lia. reflexivity.
  - rewrite (read_disp_singular types vol n natoms _ l _ E) in Hd. discriminate.
Qed.

(** *** C05 *)
Lemma nth_error_site {T} (l : list T) i : valid_site (length l) i ->
  exists x, py_index l i = Ok x /\ nth_error l (site (length l) i) = Some x.
Proof.
  intros H. unfold valid_site in H. unfold py_index, site.
  destruct (i <? 0) eqn:E;
  match goal with |- context [(0 <=? ?j) && (?j <? ?n)] =>
    assert (E2 : (0 <=? j) && (j <? n) = true)
     by (rewrite andb_true_iff, Z.leb_le, Z.ltb_lt; (apply Z.ltb_lt in E || apply Z.ltb_ge in E); lia) end;
  rewrite E2;
  match goal with |- context [nth_error l ?k] => destruct (nth_error l k) eqn:E3 end;
  try (eexists; split; reflexivity);
  apply nth_error_None in E3; apply andb_true_iff in E2 as [E2 E2']; apply Z.leb_le in E2; apply Z.ltb_lt in E2'; lia.
Qed.
Lemma site_lt n i : valid_site n i -> (site n i < n)%nat.
Proof. unfold valid_site, site. destruct (i <? 0) eqn:E; [apply Z.ltb_lt in E|apply Z.ltb_ge in E]; lia. Qed.
Lemma py_index_tab {T} n (f : nat -> T) i : valid_site n i -> py_index (tab n f) i = Ok (f (site n i)).
Proof.
  intros H. pose proof H as H'. rewrite <- (tab_length n f) in H.
  destruct (nth_error_site _ _ H) as (x & E1 & E2). rewrite tab_length in E2.
  rewrite tab_nth_error in E2 by now apply site_lt. injection E2 as <-. exact E1.
Qed.
Lemma gather_tab {T} n (f : nat -> T) idx : Forall (valid_site n) idx ->
  gather (tab n f) idx = Ok (map (fun i => f (site n i)) idx).
Proof.
  intros H. unfold gather. apply mapM_total. intros i Hi. apply py_index_tab.
  rewrite Forall_forall in H. auto.
Qed.
Lemma vmean_average3 l : vmean l = average3 l.
Proof. unfold vmean, average3, average. now rewrite !nmean_R, !map_length. Qed.

Lemma C05_formula_proof : forall N T x idx, idx <> [] -> Forall (valid_site N) idx ->
  correct_drift idx (table N T x)
  = Ok (table N T (fun a t => minus3 (x a t) (average3 (map (fun i => x (site N i) t) idx)))).
Proof.
  intros N T x idx Hne Hv. unfold correct_drift.
  destruct idx as [|i0 idx]; [congruence|]. cbn [table a_rows a_obs].
  rewrite gather_tab by exact Hv. cbn [bind]. f_equal. unfold table. f_equal.
  unfold tab. rewrite map_map. apply map_ext. intros a.
  rewrite zip_with_map. apply map_seq_ext. intros t Ht.
  rewrite vsub_minus3, vmean_average3. f_equal. f_equal. rewrite map_map.
  apply map_ext. intros i. now rewrite nth_map_seq by lia.
Qed.

Lemma average_minus {S} (f g : S -> R) l :
  average (map (fun i => f i - g i)%R l) = (average (map f l) - average (map g l))%R.
Proof. unfold average. rewrite rsum_map_minus, !map_length. lra. Qed.
Lemma average_plus {S} (f g : S -> R) l :
  average (map (fun i => f i + g i)%R l) = (average (map f l) + average (map g l))%R.
Proof. unfold average. rewrite rsum_map_plus, !map_length. lra. Qed.
Lemma average_const {S} c (l : list S) : l <> [] -> average (map (fun _ => c) l) = c.
Proof.
  intros H. unfold average. rewrite rsum_const, map_length. field.
  destruct l; [congruence|]. apply not_0_INR. discriminate.
Qed.
Lemma average3_minus {S} (f g : S -> V3 R) l :
  average3 (map (fun i => minus3 (f i) (g i)) l) = minus3 (average3 (map f l)) (average3 (map g l)).
Proof.
  unfold average3. rewrite !map_map. cbn. unfold minus3; cbn. f_equal; apply average_minus.
Qed.
Lemma average3_plus {S} (f g : S -> V3 R) l :
  average3 (map (fun i => plus3 (f i) (g i)) l) = plus3 (average3 (map f l)) (average3 (map g l)).
Proof.
  unfold average3. rewrite !map_map. cbn. unfold plus3; cbn. f_equal; apply average_plus.
Qed.
Lemma average3_const {S} c (l : list S) : l <> [] -> average3 (map (fun _ => c) l) = c.
Proof. intros H. unfold average3. rewrite !map_map. apply V3_eq; cbn; now apply average_const. Qed.

Lemma table_ext {A} m n (x y : nat -> nat -> V3 A) :
  (forall a t, (a < m)%nat -> (t < n)%nat -> x a t = y a t) -> table m n x = table m n y.
Proof. intros H. unfold table. f_equal. apply tab_ext. intros a Ha. apply tab_ext. auto. Qed.

Lemma C05_zero_proof : forall N T x idx, idx <> [] -> Forall (valid_site N) idx ->
  exists y, correct_drift idx (table N T x) = Ok (table N T y)
    /\ forall t, average3 (map (fun i => y (site N i) t) idx) = zero3.
Proof.
  intros. rewrite C05_formula_proof by assumption. eexists; split; [reflexivity|].
  intros t. cbv beta. rewrite average3_minus, average3_const by assumption. v3eq.
Qed.
Lemma C05_uniform_drift_proof : forall N T x idx (u : nat -> V3 R), idx <> [] -> Forall (valid_site N) idx ->
  correct_drift idx (table N T (fun a t => plus3 (x a t) (u t))) = correct_drift idx (table N T x).
Proof.
  intros. rewrite !C05_formula_proof by assumption. f_equal. apply table_ext. intros a t _ _.
  rewrite average3_plus, average3_const by assumption. v3eq.
Qed.
Lemma C05_relative_proof : forall N T x idx, idx <> [] -> Forall (valid_site N) idx ->
  exists y, correct_drift idx (table N T x) = Ok (table N T y)
    /\ forall a b t, minus3 (y a t) (y b t) = minus3 (x a t) (x b t).
Proof.
  intros. rewrite C05_formula_proof by assumption. eexists; split; [reflexivity|].
  intros a b t. v3eq.
Qed.
Lemma C05_idempotent_proof : forall N T (x : nat -> nat -> V3 R) idx d, Forall (valid_site N) idx ->
  correct_drift idx (table N T x) = Ok d -> correct_drift idx d = Ok d.
Proof.
  intros N T x idx d Hv. destruct idx as [|i idx]; [cbn; intros [= <-]; reflexivity|].
  rewrite C05_formula_proof by (auto; discriminate). intros E.
  match type of E with Ok ?t = _ => assert (Ed : d = t) by congruence end. subst d. clear E.
  rewrite C05_formula_proof by (auto; discriminate). f_equal. apply table_ext. intros a t _ _.
  rewrite (average3_minus (fun j => x (site N j) t)), average3_const by discriminate. v3eq.
Qed.

(** *** C02 for variable cells: a counterexample *)
Definition npt_cell (f : nat) : M3 R :=
  let s := match f with O => 1%R | _ => (101 / 100)%R end in
  (mkM (mkV s 0 0) (mkV 0 s 0) (mkV 0 0 s))%R.
Definition npt_image (f a : nat) : V3 Z := match f with O => mkV 1 0 0 | _ => mkV 0 0 0 end.

Lemma C02_npt_refuted_proof : exists (l : nat -> M3 R) (c : nat -> nat -> V3 R) (img : nat -> nat -> V3 Z),
  (forall f, cell_volume (l f) <> 0%R) /\
  exists d d', displacements 1 (frames_of ["Li"%string] 1 2 1 c l) = Ok d
  /\ displacements 1 (frames_of ["Li"%string] 1 2 1 (fun f a => plus3 (c f a) (ivec (img f a))) l) = Ok d'
  /\ arr_entry d 0 1 = Some zero3 /\ arr_entry d' 0 1 = Some (mkV (1/100) 0 0)%R.
Proof.
  exists npt_cell, (fun _ _ => zero3), npt_image.
  assert (V : forall f, cell_volume (npt_cell f) <> 0%R).
  { intros [|f]; unfold cell_volume; cbn; lra. }
  split; [exact V|].
  destruct (mapM_minv_fun npt_cell 2 ltac:(auto)) as (li & HM & Hi).
  destruct (minv_inv _ _ (Hi 1%nat ltac:(lia))) as (_ & H1 & H2).
  do 2 eexists. split; [apply (read_disp_fun _ _ 1 1 _ _ _ HM)|].
  split; [apply (read_disp_fun _ _ 1 1 _ _ _ HM)|].
  unfold arr_entry; cbn [a_rows]. rewrite !tab_entry by lia. cbn [vsum].
  split; f_equal.
  - replace (cart (npt_cell 0) zero3) with zero3 by v3eq.
    replace (cart (npt_cell 1) zero3) with zero3 by v3eq.
    rewrite tor_step_same. v3eq.
  - unfold tor_step, npt_image.
    set (w := cart (npt_cell 0) (plus3 zero3 (ivec (mkV 1 0 0)))).
    set (w' := cart (npt_cell 1) (plus3 zero3 (ivec (mkV 0 0 0)))).
    assert (E : minus3 w' w = cart (npt_cell 1) (mkV (- (100 / 101)) 0 0)%R).
    { unfold w, w'. apply V3_eq; cbn; field. }
    rewrite E, H1.
    assert (Er : round3 (mkV (- (100/101)) 0 0)%R = mkV (-1) 0 0).
    { unfold round3; cbn. f_equal; apply Rfloor_unique; lra. }
    rewrite Er. apply V3_eq; cbn; lra.
Qed.
