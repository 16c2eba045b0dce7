(** * ProofsTricChain: C88 for cells of any shape *)
From Verif Require Import Base ModelParser ModelDiffusion Spec SpecParser SpecStats SpecDouble SpecUnwrap SpecRun SpecRound SpecChain SpecTric Lemmas ProofsDisp ProofsParser ProofsWindows ProofsTraj ProofsFloat ProofsUnwrap ProofsBoot ProofsStats ProofsCollective ProofsRound ProofsChain ProofsTric.
From Coq Require Import Reals Lra Lia Psatz Permutation.
From Coq.Floats Require Import SpecFloat.
From Flocq Require Import Core.
Open Scope Z_scope.

(** From displacements with known errors to the report, as in C88. *)
Lemma chain_run {G Seed RS} (X : Ext spec_float G Seed RS) (side : V3 spec_float) (n natoms : nat) (x : nat -> nat -> V3 R)
    gs idx drift ts ss (o : Options spec_float) d p u g b g' :
  (forall i, usual_length (part side i)) ->
  (forall f a i, (f < n)%nat -> (a < natoms)%nat -> (Rabs (part (x (S f) a) i - part (x f a) i) <= / 2)%R) ->
  Z.of_nat n <= 2 ^ 20 -> Z.of_nat (length drift) <= 2 ^ 20 -> Z.of_nat (length idx * n) <= 2 ^ 50 ->
  Forall (valid_site natoms) idx -> Forall (valid_site natoms) drift ->
  a_obs d = n -> shape (a_rows d) natoms n ->
  (forall a t v i, arr_entry d a t = Some v -> finite_double (part v i)
    /\ (Rabs (value (part v i) - moved (values3 side) x 0 (S t) a i) <= 16 * (INR (S t) * INR (S t)) * (eps * value (part side i)))%R) ->
  parser_init gs d idx drift ts ss o = Ok p -> o_sampling o = "multi-origin"%string -> Forall (fun m => 0 < m <= Z.of_nat n) (p_intervals p) ->
  0 < u_sub_sample_dt u -> u_block u = false -> msd_bootstrap X u (p_delta_t p) (p_disp_3d p) (p_n_o p) g = Ok (b, g') ->
  exists axes used, names (pystr_text (u_dimension u)) axes
    /\ sub_sample (Z.to_nat (u_sub_sample_dt u)) (filter (fun m => enough (length idx) n (Z.to_nat m)) (p_intervals p)) used
    /\ Forall2 (fun m r => rms_accurate (length idx * (n - Z.to_nat m + 1)) (2 * chain_error n (length drift) * sqrt (sqlen axes (values3 side))) r
          (exact_msd axes (values3 side) x (map (site natoms) drift) (map (site natoms) idx) n (Z.to_nat m))) used (b_n b).
Proof.
  intros Hs Hx Hn HF HN Vi Vd Eo Sh HE Hp HS HI Hk HB Hm.
  rewrite (gtable d natoms n Eo Sh) in Hp. set (Y := fun a t => nth t (nth a (a_rows d) []) v0) in *.
  pose (ns := map Z.to_nat (p_intervals p)).
  assert (EI : p_intervals p = map Z.of_nat ns).
  { unfold ns. rewrite map_map. rewrite <- (map_id (p_intervals p)) at 1. apply map_ext_in. intros m Im. rewrite Forall_forall in HI. specialize (HI m Im). lia. }
  assert (HNs : Forall (fun m => (0 < m <= n)%nat) ns).
  { unfold ns. apply Forall_map. eapply Forall_impl; [|exact HI]. cbn. intros m Hm'. lia. }
  pose proof (gparser gs natoms n Y idx drift ts ss o p ns Hp HS Vi Vd EI HNs) as ED. rewrite ED in Hm.
  destruct (msd_means X u _ _ _ g b g' Hk HB Hm) as (axes & used & N & LA & SS & EB).
  apply sub_sample_of_map in SS as (used' & SS & ->); [|exact Hk].
  assert (FU : Forall (fun m => (0 < m <= n)%nat /\ enough (length idx) n m = true) used').
  { apply (forall_sub_sample _ _ _ _ SS). apply Forall_forall. intros m Im. apply filter_In in Im as [Im En]. rewrite Forall_forall in HNs. auto. }
  exists axes, (map Z.of_nat used'). split; [exact N|]. split.
  { intros i. rewrite nth_error_map, SS. rewrite <- nth_error_map. f_equal. unfold ns.
    clear - HI. induction (p_intervals p) as [|m ms IH]; [reflexivity|]. inversion HI; subst. cbn [map filter]. destruct (enough (length idx) n (Z.to_nat m)); cbn [map]; rewrite IH by assumption; [|reflexivity]. f_equal. lia. }
  assert (EF : filter several (map (gwindow natoms n (gdrift natoms drift Y) idx) used') = map (gwindow natoms n (gdrift natoms drift Y) idx) used').
  { clear - FU. induction FU as [|m ms [Hm En] _ IH]; [reflexivity|]. cbn [map filter]. rewrite IH. unfold several, entries. cbn [gwindow a_rows]. rewrite grid_length.
    unfold enough in En. apply Nat.ltb_lt in En. assert (kept (n - m + 1) m <= n - m + 1)%nat.
    { unfold kept. apply Nat.div_le_upper_bound; [lia|]. nia. }
    destruct (length idx * (n - m + 1) <=? 1)%nat eqn:Q; [apply Nat.leb_le in Q|reflexivity]. nia. }
  rewrite EB, EF, map_map.
  assert (NA : axes <> []) by apply N.
  assert (Bn : (INR n <= 1048576)%R). { rewrite INR_IZR_INZ. apply IZR_le. exact Hn. }
  assert (BF : (INR (length drift) <= 1048576)%R). { rewrite INR_IZR_INZ. apply IZR_le. exact HF. }
  assert (HYp : forall a t i, (a < natoms)%nat -> (t < n)%nat -> finite_double (part (Y a t) i)
    /\ (Rabs (value (part (Y a t) i) - moved (values3 side) x 0 (S t) a i) <= 16 * (INR (S t) * INR (S t)) * (eps * value (part side i)))%R).
  { intros a t i Ha Ht. destruct Sh as [SL SF].
    assert (AE : arr_entry d a t = Some (Y a t)).
    { unfold arr_entry, entry, Y. rewrite (nth_error_nth' (a_rows d) [] (n := a)) by lia. rewrite Forall_forall in SF. apply nth_error_nth'. rewrite SF; [exact Ht|]. apply nth_In. lia. }
    destruct (HE a t (Y a t) i AE) as [Fy Ey]. split; [exact Fy|]. unfold moved. rewrite part_values. cbn [Nat.add].
    unfold moved in Ey. rewrite part_values in Ey. exact Ey. }
  clear - FU NA LA Hs Hx HYp Bn BF Vd Vi HN. induction FU as [|m ms [Hm En] _ IH]; cbn [map]; constructor; [|exact IH]. rewrite !Nat2Z.id.
  apply chain_one; try assumption. intros ->. unfold enough in En. cbn in En. discriminate.
Qed.


(** ** A power of two above 16 times the largest component *)
Definition two_to (e : Z) : spec_float := S754_finite false 4503599627370496 (e - 52).
Lemma two_to_value e : -900 <= e <= 900 -> fv (two_to e) (bpow radix2 e).
Proof.
  intros H. split.
  - split; [|exact I]. unfold two_to, is_double, valid_binary, bounded. apply andb_true_intro. split; [|apply Z.leb_le; lia].
    unfold canonical_mantissa. apply Zeq_is_eq_bool. replace (Zpos (digits2_pos 4503599627370496)) with 53 by reflexivity. unfold fexp, emin. lia.
  - unfold two_to. cbn [value]. rewrite <- (bpow_powerRZ radix2). change (IZR 4503599627370496) with (bpow radix2 52). rewrite <- bpow_plus. f_equal. lia.
Qed.
Lemma power_above M : (powerRZ 2 (-300) <= M <= powerRZ 2 290)%R -> exists l, usual_length l /\ (16 * M <= value l <= 32 * M)%R.
Proof.
  intros [H K]. rewrite <- !(bpow_powerRZ radix2) in H, K. pose proof (bpow_gt_0 radix2 (-300)) as P.
  destruct (mag radix2 M) as [e He]. specialize (He ltac:(lra)). rewrite Rabs_pos_eq in He by lra.
  assert (E1 : -300 < e) by (apply (lt_bpow radix2); lra). assert (E2 : e - 1 <= 290) by (apply (le_bpow radix2); lra).
  destruct (two_to_value (e + 4) ltac:(lia)) as [F V]. exists (two_to (e + 4)). split.
  - split; [exact F|]. rewrite V, <- !(bpow_powerRZ radix2). split; apply bpow_le; lia.
  - rewrite V. assert (X1 : (bpow radix2 (e + 4) = 16 * bpow radix2 e)%R) by (rewrite bpow_plus; change (bpow radix2 4) with 16%R; ring).
    assert (X2 : (bpow radix2 e = 2 * bpow radix2 (e - 1))%R) by (replace e with (e - 1 + 1) at 1 by lia; rewrite bpow_plus; change (bpow radix2 1) with 2%R; ring). lra.
Qed.

(** ** Positions in units of that power *)
Lemma exact_msd_scale axes l (pos : nat -> nat -> V3 R) fw ids n m : l <> 0%R ->
  exact_msd axes (mkV l l l) (fun f a => scale3 (/ l) (pos f a)) fw ids n m = exact_msd axes ones pos fw ids n m.
Proof.
  intros Hl. assert (E : forall o m a i, moved (mkV l l l) (fun f a => scale3 (/ l) (pos f a)) o m a i = moved ones pos o m a i).
  { intros o m' a i. unfold moved, ones. destruct i; cbn [part scale3 vx vy vz]; field; exact Hl. }
  unfold exact_msd. f_equal. f_equal. apply map_ext. intros a. apply tab_ext. intros o _. f_equal. unfold moved_rel.
  destruct fw as [|f fw]; [now rewrite !E|]. rewrite !E.
  rewrite !(map_ext _ _ (fun f => E o m f _)). reflexivity.
Qed.
Lemma sqlen_equal axes l : (0 <= l)%R -> sqrt (sqlen axes (mkV l l l)) = (sqrt (INR (length axes)) * l)%R.
Proof.
  intros H. assert (E : sqlen axes (mkV l l l) = (INR (length axes) * (l * l))%R).
  { unfold sqlen. induction axes as [|a axes IH]; [cbn; ring|]. cbn [map rsum length]. rewrite IH, S_INR. destruct a; cbn [coord vx vy vz]; ring. }
  rewrite E, sqrt_mult by (try apply pos_INR; now apply Rmult_le_pos). now rewrite sqrt_square.
Qed.
Lemma rms_weaken k e e' r ex : (e <= e')%R -> rms_accurate k e r ex -> rms_accurate k e' r ex.
Proof. intros H (A & B & C). split; [exact A|]. split; [exact B|]. lra. Qed.
Lemma chain_error_nonneg n f : (0 <= chain_error n f)%R.
Proof. unfold chain_error. pose proof (pos_INR n). pose proof (pos_INR f). apply Rmult_le_pos; [apply Rmult_le_pos; lra|]. apply Rlt_le, Rinv_0_lt_compat, pow_lt. lra. Qed.

Lemma Forall2_imp {T U} (P Q : T -> U -> Prop) l l' : (forall a b, P a b -> Q a b) -> Forall2 P l l' -> Forall2 Q l l'.
Proof. intros H. induction 1; constructor; auto. Qed.
Lemma path_run {G Seed RS} (X : Ext spec_float G Seed RS) (M : R) (n natoms : nat) (pos : nat -> nat -> V3 R)
    gs idx drift ts ss (o : Options spec_float) d p u g b g' :
  (powerRZ 2 (-300) <= M <= powerRZ 2 290)%R ->
  (forall f a i, (f < n)%nat -> (a < natoms)%nat -> (Rabs (part (pos (S f) a) i - part (pos f a) i) <= 3 / 2 * M)%R) ->
  Z.of_nat n <= 2 ^ 20 -> Z.of_nat (length drift) <= 2 ^ 20 -> Z.of_nat (length idx * n) <= 2 ^ 50 ->
  Forall (valid_site natoms) idx -> Forall (valid_site natoms) drift ->
  a_obs d = n -> shape (a_rows d) natoms n ->
  (forall a t v i, arr_entry d a t = Some v -> finite_double (part v i)
    /\ (Rabs (value (part v i) - (part (pos (S t) a) i - part (pos 0%nat a) i)) <= INR (S t) ^ 2 * / 2 ^ 45 * M)%R) ->
  parser_init gs d idx drift ts ss o = Ok p -> o_sampling o = "multi-origin"%string -> Forall (fun m => 0 < m <= Z.of_nat n) (p_intervals p) ->
  0 < u_sub_sample_dt u -> u_block u = false -> msd_bootstrap X u (p_delta_t p) (p_disp_3d p) (p_n_o p) g = Ok (b, g') ->
  exists axes used, names (pystr_text (u_dimension u)) axes
    /\ sub_sample (Z.to_nat (u_sub_sample_dt u)) (filter (fun m => enough (length idx) n (Z.to_nat m)) (p_intervals p)) used
    /\ Forall2 (fun m r => rms_accurate (length idx * (n - Z.to_nat m + 1)) (64 * chain_error n (length drift) * (sqrt (INR (length axes)) * M)) r
          (exact_msd axes ones pos (map (site natoms) drift) (map (site natoms) idx) n (Z.to_nat m))) used (b_n b).
Proof.
  intros HM Hx Hn HF HN Vi Vd Eo Sh HE Hp HS HI Hk HB Hm. destruct (power_above M HM) as (l & Hl & L1 & L2).
  assert (PM : (0 < M)%R). { destruct HM as [H _]. rewrite <- (bpow_powerRZ radix2) in H. pose proof (bpow_gt_0 radix2 (-300)). lra. }
  assert (PL : (0 < value l)%R) by lra. assert (IL : (0 < / value l)%R) by (apply Rinv_0_lt_compat, PL).
  assert (ML : (M * / value l <= / 16)%R). { apply Rmult_le_reg_r with (value l); [exact PL|]. rewrite Rmult_assoc, Rinv_l by lra. lra. }
  destruct eps_small as [E0 _].
  destruct (chain_run X (mkV l l l) n natoms (fun f a => scale3 (/ value l) (pos f a)) gs idx drift ts ss o d p u g b g') as (axes & used & A1 & A2 & A3); auto.
  - intros []; exact Hl.
  - intros f a i Hf Ha. specialize (Hx f a i Hf Ha). replace (part (scale3 (/ value l) (pos (S f) a)) i - part (scale3 (/ value l) (pos f a)) i)%R
      with ((part (pos (S f) a) i - part (pos f a) i) * / value l)%R by (destruct i; cbn [part scale3 vx vy vz]; ring).
    rewrite Rabs_mult, (Rabs_pos_eq (/ value l)) by lra. apply Rle_trans with (3 / 2 * M * / value l)%R; [apply Rmult_le_compat_r; lra|]. lra.
  - intros a t v i E. destruct (HE a t v i E) as [F B]. split; [exact F|].
    replace (moved (values3 (mkV l l l)) (fun f a0 => scale3 (/ value l) (pos f a0)) 0 (S t) a i) with (part (pos (S t) a) i - part (pos 0%nat a) i)%R
      by (unfold moved, values3; cbn [Nat.add]; destruct i; cbn [part scale3 vx vy vz]; field; lra).
    eapply Rle_trans; [exact B|]. replace (INR (S t) ^ 2 * / 2 ^ 45 * M)%R with (16 * (INR (S t) * INR (S t)) * (eps * (16 * M)))%R by (unfold eps; field).
    apply Rmult_le_compat_l; [apply Rmult_le_pos; [lra|]; apply Rmult_le_pos; apply pos_INR|]. apply Rmult_le_compat_l; [lra|]. destruct i; cbn [part vx vy vz]; lra.
  - exists axes, used. split; [exact A1|]. split; [exact A2|]. eapply Forall2_imp; [|exact A3]. cbv beta. intros m r Q.
    unfold values3 in Q. cbn [vx vy vz] in Q. rewrite exact_msd_scale in Q by lra. eapply rms_weaken; [|exact Q]. rewrite sqlen_equal by lra.
    pose proof (chain_error_nonneg n (length drift)). pose proof (sqrt_pos (INR (length axes))).
    replace (64 * chain_error n (length drift) * (sqrt (INR (length axes)) * M))%R with (2 * chain_error n (length drift) * (sqrt (INR (length axes)) * (32 * M)))%R by ring.
    apply Rmult_le_compat_l; [lra|]. apply Rmult_le_compat_l; lra.
Qed.

Lemma cart_bound l M (v : V3 R) i : cell_below M l -> (forall j, Rabs (part v j) <= / 2)%R -> (Rabs (part (cart (stored_cell l) v) i) <= 3 / 2 * M)%R.
Proof.
  intros H B. rewrite part_cart. eapply Rle_trans; [apply (along_bound (part v) _ i (/ 2) M); [lra|exact B|intros j; apply H]|]. lra.
Qed.
Lemma C88_fixed_proof {G Seed RS} (X : Ext spec_float G Seed RS) (M rho : R) (n natoms : nat) (cell : M3 spec_float)
    (c : nat -> nat -> V3 spec_float) (x : nat -> nat -> V3 R) gs idx drift ts ss (o : Options spec_float) d p u g b g' :
  (powerRZ 2 (-300) <= M <= powerRZ 2 290)%R -> (1 <= rho <= 100)%R -> compact_cell rho M cell ->
  (forall f a, (f <= n)%nat -> (a < natoms)%nat -> near_origin (c f a) /\ forall i, is_integer (value (part (c f a) i) - part (x f a) i)) ->
  (forall f a i, (f < n)%nat -> (a < natoms)%nat -> (Rabs (part (x (S f) a) i - part (x f a) i) <= / 2 - 68 * rho ^ 2 * / 2 ^ 44)%R) ->
  Z.of_nat n <= 2 ^ 20 -> Z.of_nat (length drift) <= 2 ^ 20 -> Z.of_nat (length idx * n) <= 2 ^ 50 ->
  Forall (valid_site natoms) idx -> Forall (valid_site natoms) drift ->
  get_disp (tab (S n) (fun f => tab natoms (c f))) (tab (S n) (fun _ => cell)) = Ok d ->
  parser_init gs d idx drift ts ss o = Ok p -> o_sampling o = "multi-origin"%string -> Forall (fun m => 0 < m <= Z.of_nat n) (p_intervals p) ->
  0 < u_sub_sample_dt u -> u_block u = false -> msd_bootstrap X u (p_delta_t p) (p_disp_3d p) (p_n_o p) g = Ok (b, g') ->
  exists axes used, names (pystr_text (u_dimension u)) axes
    /\ sub_sample (Z.to_nat (u_sub_sample_dt u)) (filter (fun m => enough (length idx) n (Z.to_nat m)) (p_intervals p)) used
    /\ Forall2 (fun m r => rms_accurate (length idx * (n - Z.to_nat m + 1)) (64 * chain_error n (length drift) * (sqrt (INR (length axes)) * M)) r
          (exact_msd axes ones (fun f a => cart (stored_cell cell) (x f a)) (map (site natoms) drift) (map (site natoms) idx) n (Z.to_nat m))) used (b_n b).
Proof.
  intros HM HR Hc Ho Hx Hn HF HN Vi Vd Hg Hp HS HI Hk HB Hm.
  assert (HM' : (powerRZ 2 (-300) <= M <= powerRZ 2 300)%R).
  { split; [apply HM|]. eapply Rle_trans; [apply HM|]. rewrite <- !(bpow_powerRZ radix2). apply bpow_le. lia. }
  assert (R2 : (0 <= 68 * rho ^ 2 * / 2 ^ 44)%R) by (repeat apply Rmult_le_pos; try lra; apply pow_le; lra).
  destruct (C97_fixed_proof M rho n natoms cell c x HM' HR Hn Hc Ho Hx) as (d' & Hg' & Eo & Sh & HE). rewrite Hg in Hg'. injection Hg' as <-.
  apply (path_run X M n natoms _ gs idx drift ts ss o d p u g b g' HM); auto.
  - intros f a i Hf Ha. rewrite <- part_minus3, <- cart_minus. apply (cart_bound cell M); [apply Hc|]. intros j. rewrite part_minus3. eapply Rle_trans; [now apply Hx|]. lra.
  - intros a t v i E. rewrite <- part_minus3, <- cart_minus. exact (HE a t v i E).
Qed.
Lemma C88_changing_proof {G Seed RS} (X : Ext spec_float G Seed RS) (M rho : R) (n natoms : nat) (cell : nat -> M3 spec_float)
    (c : nat -> nat -> V3 spec_float) gs idx drift ts ss (o : Options spec_float) d p u g b g' :
  (powerRZ 2 (-300) <= M <= powerRZ 2 290)%R -> (1 <= rho <= 100)%R -> (forall f, (f <= n)%nat -> compact_cell rho M (cell f)) ->
  (forall f a, (f <= n)%nat -> (a < natoms)%nat -> near_origin (c f a)) ->
  (forall f a, (f < n)%nat -> (a < natoms)%nat -> clear_step (68 * rho ^ 2 * / 2 ^ 44) (cell f) (cell (S f)) (c f a) (c (S f) a)) ->
  Z.of_nat n <= 2 ^ 20 -> Z.of_nat (length drift) <= 2 ^ 20 -> Z.of_nat (length idx * n) <= 2 ^ 50 ->
  Forall (valid_site natoms) idx -> Forall (valid_site natoms) drift ->
  get_disp (tab (S n) (fun f => tab natoms (c f))) (tab (S n) cell) = Ok d ->
  parser_init gs d idx drift ts ss o = Ok p -> o_sampling o = "multi-origin"%string -> Forall (fun m => 0 < m <= Z.of_nat n) (p_intervals p) ->
  0 < u_sub_sample_dt u -> u_block u = false -> msd_bootstrap X u (p_delta_t p) (p_disp_3d p) (p_n_o p) g = Ok (b, g') ->
  exists y axes used, get_disp (tab (S n) (fun f => tab natoms (fun a => stored (c f a)))) (tab (S n) (fun f => stored_cell (cell f))) = Ok y
    /\ names (pystr_text (u_dimension u)) axes
    /\ sub_sample (Z.to_nat (u_sub_sample_dt u)) (filter (fun m => enough (length idx) n (Z.to_nat m)) (p_intervals p)) used
    /\ Forall2 (fun m r => rms_accurate (length idx * (n - Z.to_nat m + 1)) (64 * chain_error n (length drift) * (sqrt (INR (length axes)) * M)) r
          (exact_msd axes ones (path_of y) (map (site natoms) drift) (map (site natoms) idx) n (Z.to_nat m))) used (b_n b).
Proof.
  intros HM HR Hc Ho Hx Hn HF HN Vi Vd Hg Hp HS HI Hk HB Hm.
  assert (HM' : (powerRZ 2 (-300) <= M <= powerRZ 2 300)%R).
  { split; [apply HM|]. eapply Rle_trans; [apply HM|]. rewrite <- !(bpow_powerRZ radix2). apply bpow_le. lia. }
  assert (R2 : (0 < 68 * rho ^ 2 * / 2 ^ 44)%R) by (repeat apply Rmult_lt_0_compat; try lra; apply pow_lt; lra).
  destruct (C97_proof M rho n natoms cell c HM' HR Hn Hc Ho Hx) as (d' & y & Hg' & Hy & Eo & _ & Sh & Sy & HE). rewrite Hg in Hg'. injection Hg' as <-.
  exists y. assert (HL : len M) by (unfold len; rewrite <- !(bpow_powerRZ radix2) in HM'; exact HM').
  destruct (mapM_minv_fun (fun f => stored_cell (cell f)) (S n)) as (ri & ER & Hri).
  { intros f Hf. destruct (det_bounds M rho (cell f) HL HR (Hc f ltac:(lia))) as (z & _ & _ & _ & B0). intros E. rewrite E, Rabs_R0 in B0.
    pose proof (len_pos M HL). assert (0 < M ^ 3 / rho)%R by (apply Rdiv_lt_0_compat; [apply pow_lt; lra|lra]). lra. }
  pose proof Hy as Hy0. rewrite (get_disp_fun natoms n (fun f a => stored (c f a)) (fun f => stored_cell (cell f)) ri ER) in Hy.
  match type of Hy with Ok ?z = Ok _ => assert (Z : y = z) by congruence end.
  set (s := fun a f => tor_step (stored_cell (cell (S f))) (ri (S f)) (cart (stored_cell (cell f)) (stored (c f a))) (cart (stored_cell (cell (S f))) (stored (c (S f) a)))).
  assert (PE : forall a t, (a < natoms)%nat -> (t < n)%nat -> arr_entry y a t = Some (vsum (s a) (S t))).
  { intros a t Ha Ht. rewrite Z. unfold arr_entry. cbn [a_rows]. exact (tab_entry natoms n (fun a t => vsum (s a) (S t)) a t Ha Ht). }
  assert (PP : forall a f, (a < natoms)%nat -> (f <= n)%nat -> path_of y f a = vsum (s a) f).
  { intros a [|t] Ha Hf; [reflexivity|]. unfold path_of. now rewrite PE. }
  assert (IN : forall a t v, arr_entry d a t = Some v -> (a < natoms)%nat /\ (t < n)%nat).
  { intros a t v E. unfold arr_entry, entry in E. destruct Sh as [L F]. destruct (nth_error (a_rows d) a) as [r|] eqn:Er; [|discriminate].
    split; [rewrite <- L; apply nth_error_Some; congruence|]. rewrite Forall_forall in F. rewrite <- (F r (nth_error_In _ _ Er)). apply nth_error_Some. congruence. }
  destruct (path_run X M n natoms (path_of y) gs idx drift ts ss o d p u g b g' HM) as (axes & used & A); auto.
  - intros f a i Hf Ha. rewrite !PP by (auto; lia). cbn [vsum].
    replace (part (plus3 (vsum (s a) f) (s a f)) i - part (vsum (s a) f) i)%R with (part (s a f) i) by (destruct i; cbn [part plus3 vx vy vz]; ring).
    destruct (Hx f a Hf Ha) as (e & k & He & Hk'). unfold s. rewrite (clear_real _ _ _ _ _ _ e k R2 (Hri (S f) ltac:(lia)) He (fun i => proj2 (Hk' i))).
    apply (cart_bound (cell (S f)) M); [apply Hc; lia|]. intros j. rewrite part_minus3, part_ivec. eapply Rle_trans; [apply Hk'|]. lra.
  - intros a t v i E. destruct (IN a t v E) as [Ha Ht]. destruct (HE a t v _ i E (PE a t Ha Ht)) as [F B]. split; [exact F|].
    rewrite (PP a (S t)) by (auto; lia). cbn [path_of]. replace (part zero3 i) with 0%R by now destruct i. rewrite Rminus_0_r. exact B.
  - exists axes, used. split; [exact Hy0|exact A].
Qed.

(** ** A case: atom 0 hops by a quarter of the slanted second cell vector per frame, atom 1 stays. *)
Definition climbing (f a : nat) : V3 spec_float :=
  mkV (eighths 3) (match a, f with O, O => eighths 7 | O, S O => eighths 1 | O, _ => eighths 3 | _, _ => S754_zero false end) (S754_zero false).
Definition climbed (f a : nat) : V3 R :=
  mkV (3 / 8)%R (match a, f with O, O => 7 / 8 | O, S O => 9 / 8 | O, _ => 11 / 8 | _, _ => 0 end)%R 0%R.
Lemma climbing_ok f a : (f <= 2)%nat -> near_origin (climbing f a) /\ forall i, is_integer (value (part (climbing f a) i) - part (climbed f a) i).
Proof.
  intros Hf. destruct eighth7 as [F7 V7], eighth1 as [F1 V1], eighth3 as [F3 V3], zero_fv as [F0 V0].
  unfold near_origin, climbing, climbed. destruct a as [|a], f as [|[|f]];
    (split; [intros []|intros []]; cbn [part vx vy vz]; rewrite ?V7, ?V1, ?V3, ?V0;
     first [split; [assumption|rewrite Rabs_pos_eq; lra] | exists 0; lra | exists (-1); lra]).
Qed.
Lemma climbed_steps f a i : (f < 2)%nat -> (Rabs (part (climbed (S f) a) i - part (climbed f a) i) <= / 2 - 68 * 1 ^ 2 * / 2 ^ 44)%R.
Proof.
  intros Hf. destruct i, a as [|a], f as [|[|f]]; try lia; cbn [part climbed vx vy vz];
    rewrite ?Rminus_diag_eq, ?Rabs_R0 by reflexivity; try lra; rewrite Rabs_pos_eq; lra.
Qed.
Lemma C88_slanted_example_proof {G Seed RS} (X : Ext spec_float G Seed RS) (g : G) :
  compact_cell 1 4 slanted
  /\ (forall f a, (f <= 2)%nat -> near_origin (climbing f a) /\ forall i, is_integer (value (part (climbing f a) i) - part (climbed f a) i))
  /\ (forall f a i, (f < 2)%nat -> (Rabs (part (climbed (S f) a) i - part (climbed f a) i) <= / 2 - 68 * 1 ^ 2 * / 2 ^ 44)%R)
  /\ exists d p b, get_disp (tab 3 (fun f => tab 2 (climbing f))) (tab 3 (fun _ => slanted)) = Ok d
    /\ parser_init (fun _ _ _ => Raise ValueError) d [0] [1] (SFofZ 1) 1 chain_opts = Ok p /\ p_intervals p = [1; 2]
    /\ msd_bootstrap X (mkBootParams 1 false false 0 0 (PyStr "xyz") (SFofZ 0)) (p_delta_t p) (p_disp_3d p) (p_n_o p) g = Ok (b, g)
    /\ map value (b_n b) = [5 / 4]%R
    /\ exact_msd all_axes ones (fun f a => cart (stored_cell slanted) (climbed f a)) [1%nat] [0%nat] 2 1 = (5 / 4)%R.
Proof.
  split; [exact slanted_compact|]. split; [intros; now apply climbing_ok|]. split; [intros; now apply climbed_steps|].
  do 3 eexists. split; [vm_compute; reflexivity|]. split; [vm_compute; reflexivity|]. split; [reflexivity|]. split; [reflexivity|]. split.
  - match goal with |- map value ?l = _ => let v := eval vm_compute in l in change l with v end. cbn [map value]. f_equal. rewrite powers. cbn. lra.
  - unfold exact_msd, moved_rel, moved, all_axes, sqlen, average, ones, cart, stored_cell, stored, slanted.
    cbn [map tab seq Nat.sub Nat.add List.concat app length rsum coord vx vy vz part climbed mr0 mr1 mr2].
    rewrite (proj2 (small_value 4 eq_refl)), (proj2 (small_value 2 eq_refl)), (proj2 zero_value). cbn. field.
Qed.
