(** * ProofsWindows: displacement windows (C06-C09, C11, C13-C15) *)
From Verif Require Import Base Spec ModelParser SpecParser Lemmas ProofsDisp ProofsIntervals SpecRun.
From Coq Require Import Reals Lra Lia Arith Sorting.
Open Scope Z_scope.

Lemma tab_map {A B} (g : A -> B) n (f : nat -> A) : map g (tab n f) = tab n (fun i => g (f i)).
Proof. unfold tab. now rewrite map_map. Qed.
Lemma seq_tab n : seq 0 n = tab n (fun i => i).
Proof. unfold tab. symmetry. apply map_id. Qed.
Lemma skipn_tab {A} n k (f : nat -> A) : (k <= n)%nat -> skipn k (tab n f) = tab (n - k) (fun i => f (k + i)%nat).
Proof. apply skipn_map_seq. Qed.
Lemma firstn_tab {A} n k (f : nat -> A) : (k <= n)%nat -> firstn k (tab n f) = tab k f.
Proof. apply firstn_map_seq. Qed.
Lemma zip_with_tab {A B C} (h : A -> B -> C) n f g : zip_with h (tab n f) (tab n g) = tab n (fun i => h (f i) (g i)).
Proof. apply zip_with_map. Qed.
Lemma broadcast2_tab {A B C} (h : A -> B -> C) n f g :
  broadcast2 h (tab n f) (tab n g) = Ok (tab n (fun i => h (f i) (g i))).
Proof. unfold broadcast2. rewrite !tab_length, Nat.eqb_refl. now rewrite zip_with_tab. Qed.
Lemma py_from_tab {A} n k (f : nat -> A) : (k <= n)%nat ->
  py_from (Z.of_nat k) (tab n f) = tab (n - k) (fun i => f (k + i)%nat).
Proof. intros. rewrite py_from_nat. now apply skipn_tab. Qed.
Lemma py_to_opp_tab {A} n k (f : nat -> A) : (0 < k <= n)%nat ->
  py_to (- Z.of_nat k) (tab n f) = tab (n - k) f.
Proof. intros. rewrite py_to_opp_nat by lia. rewrite tab_length. apply firstn_tab. lia. Qed.

Lemma multi_origin_row_tab T (x : nat -> V3 R) n : (0 < n <= T)%nat ->
  multi_origin_row (Z.of_nat n) (tab T x) = Ok (tab (T - n + 1) (window_obs x n)).
Proof.
  intros H. unfold multi_origin_row.
  rewrite py_index_tab by (unfold valid_site; lia).
  replace (site T (Z.of_nat n - 1)) with (n - 1)%nat
    by (unfold site; destruct (Z.of_nat n - 1 <? 0) eqn:E; [apply Z.ltb_lt in E; lia|lia]).
  cbn [bind]. rewrite py_from_tab, py_to_opp_tab by lia. rewrite broadcast2_tab. cbn [bind].
  f_equal. rewrite Nat.add_1_r, tab_S. cbn [window_obs]. f_equal.
  apply tab_ext. intros i Hi. rewrite vsub_minus3. f_equal. f_equal. lia.
Qed.

Lemma multi_origin_tab N T (x : nat -> nat -> V3 R) idx n : (0 < n <= T)%nat ->
  multi_origin (Z.of_nat n) (map (fun i => tab T (x (site N i))) idx) T = Ok (multi_window N T x idx n).
Proof.
  intros H. unfold multi_origin. rewrite seq_tab.
  rewrite py_from_tab, py_to_opp_tab by lia. rewrite broadcast2_tab. cbn [bind].
  rewrite py_index_tab by (unfold valid_site; lia). cbn [bind].
  rewrite mapM_map.
  rewrite (mapM_total _ (fun i => tab (T - n + 1) (window_obs (x (site N i)) n))).
  - cbn [bind]. rewrite tab_length. unfold multi_window. f_equal. f_equal. lia.
  - intros i _. now apply multi_origin_row_tab.
Qed.

Lemma stride_count_nat n obs : (0 < n)%nat -> stride_count (Z.of_nat n) obs = Ok (Z.of_nat (kept obs n)).
Proof.
  intros H. unfold stride_count. destruct (Z.of_nat n =? 0) eqn:E; [apply Z.eqb_eq in E; lia|].
  f_equal. rewrite Z.abs_eq by lia. unfold kept.
  rewrite Nat2Z.inj_div. f_equal. lia.
Qed.

(** ** The loop, multi-origin *)
Definition obs_count (n_atoms : nat) (last : Z) (n : nat) : R := (INR n_atoms * IZR last / INR n)%R.

Lemma disps_loop_multi N T (x : nat -> nat -> V3 R) idx last tis : forall i,
  Forall (fun n => (0 < n <= T)%nat) tis ->
  disps_loop "multi-origin" (map (fun i => tab T (x (site N i))) idx) T last i (map Z.of_nat tis)
  = Ok (map (multi_window N T x idx) (filter (enough (length idx) T) tis),
        map (obs_count (length idx) last) (filter (enough (length idx) T) tis)).
Proof.
  induction tis as [|n tis IH]; intros i H; cbn [map disps_loop filter]; [reflexivity|].
  inversion H as [|? ? Hn Ht]; subst.
  unfold window. cbn [String.eqb Ascii.eqb Bool.eqb]. rewrite multi_origin_tab by exact Hn. cbn [bind].
  cbn [a_obs multi_window]. rewrite stride_count_nat by lia. cbn [bind].
  rewrite IH by exact Ht. cbn [bind]. cbn [a_rows multi_window]. rewrite map_length.
  destruct (enough (length idx) T n) eqn:E; unfold enough in E.
  - apply Nat.ltb_lt in E.
    destruct (Z.of_nat (length idx) * Z.of_nat (kept (T - n + 1) n) <=? 1) eqn:E2;
      [apply Z.leb_le in E2; nia|].
    cbn [map fst snd]. f_equal. f_equal. f_equal. unfold obs_count. rewrite nofnat_R. numR.
    now rewrite <- INR_IZR_INZ.
  - apply Nat.ltb_ge in E.
    destruct (Z.of_nat (length idx) * Z.of_nat (kept (T - n + 1) n) <=? 1) eqn:E2;
      [reflexivity|apply Z.leb_gt in E2; nia].
Qed.

(** ** The loop, single-origin *)
Definition single_kept (n_atoms T i : nat) : bool := Nat.ltb 1 n_atoms && Nat.ltb i T.
Lemma kept_1 n : (0 < n)%nat -> kept 1 n = 1%nat.
Proof. intros. unfold kept. replace (1 + n - 1)%nat with n by lia. apply Nat.div_same. lia. Qed.
Lemma kept_0 n : (0 < n)%nat -> kept 0 n = 0%nat.
Proof. intros. unfold kept. apply Nat.div_small. lia. Qed.

Lemma disps_loop_single N T (x : nat -> nat -> V3 R) idx last tis : forall i,
  Forall (fun n => (0 < n)%nat) tis ->
  disps_loop "single-origin" (map (fun i => tab T (x (site N i))) idx) T last i (map Z.of_nat tis)
  = Ok (map (fun p => single_window N x idx (fst p))
            (filter (fun p => single_kept (length idx) T (fst p)) (combine (seq i (length tis)) tis)),
        map (fun p => obs_count (length idx) last (snd p))
            (filter (fun p => single_kept (length idx) T (fst p)) (combine (seq i (length tis)) tis))).
Proof.
  induction tis as [|n tis IH]; intros i H; cbn [map disps_loop length seq combine filter fst snd]; [reflexivity|].
  inversion H as [|? ? Hn Ht]; subst.
  unfold window. cbn [String.eqb Ascii.eqb Bool.eqb]. cbn [bind].
  rewrite IH by exact Ht. unfold single_origin. cbn [a_obs a_rows].
  rewrite map_map, map_length, stride_count_nat by lia. cbn [bind].
  destruct (single_kept (length idx) T i) eqn:Esk; unfold single_kept in Esk;
  destruct (Nat.ltb i T) eqn:Ei.
  - apply Nat.ltb_lt in Ei. rewrite andb_true_r in Esk. apply Nat.ltb_lt in Esk.
    rewrite seq_tab, skipn_tab by lia.
    replace (T - i)%nat with (S (T - i - 1)) by lia. rewrite tab_S. cbn [firstn length].
    rewrite kept_1 by lia. cbn [Z.of_nat Pos.of_succ_nat]. rewrite Z.mul_1_r.
    destruct (Z.of_nat (length idx) <=? 1) eqn:E2; [apply Z.leb_le in E2; lia|].
    cbn [map fst snd]. f_equal. f_equal.
    + f_equal. unfold single_window. f_equal. apply map_ext. intros j.
      rewrite skipn_tab by lia. replace (T - i)%nat with (S (T - i - 1)) by lia.
      rewrite tab_S. cbn [firstn]. now rewrite Nat.add_0_r.
    + f_equal. unfold obs_count. rewrite nofnat_R. numR. now rewrite <- INR_IZR_INZ.
  - rewrite andb_false_r in Esk. discriminate.
  - apply Nat.ltb_lt in Ei. rewrite andb_true_r in Esk. apply Nat.ltb_ge in Esk.
    rewrite seq_tab, skipn_tab by lia.
    replace (T - i)%nat with (S (T - i - 1)) by lia. rewrite tab_S. cbn [firstn length].
    rewrite kept_1 by lia. cbn [Z.of_nat Pos.of_succ_nat]. rewrite Z.mul_1_r.
    destruct (Z.of_nat (length idx) <=? 1) eqn:E2; [reflexivity|apply Z.leb_gt in E2; lia].
  - apply Nat.ltb_ge in Ei. rewrite skipn_all2 by (rewrite seq_length; lia). cbn [firstn length].
    rewrite kept_0 by lia. cbn [Z.of_nat]. rewrite Z.mul_0_r. reflexivity.
Qed.

(** ** Memory estimate *)
Lemma fold_left_Zadd_map {T} (f : T -> Z) l : forall acc,
  fold_left (fun a t => a + f t) l acc = acc + fold_right Z.add 0 (map f l).
Proof. induction l; intros; cbn; [lia|]. rewrite IHl. lia. Qed.

Definition estimate (n_atoms T : nat) (itemsize : Z) (n : nat) : Z :=
  Z.of_nat n_atoms * (Z.of_nat (T - n) + 1) * 3 * itemsize.
Lemma disp_bytes_sum n_atoms T isz tis :
  disp_bytes n_atoms T isz (map Z.of_nat tis) = fold_right Z.add 0 (map (estimate n_atoms T isz) tis).
Proof.
  unfold disp_bytes. rewrite fold_left_Zadd_map, map_map, Z.add_0_l. f_equal. apply map_ext.
  intros n. unfold interval_bytes, estimate. rewrite py_from_nat, skipn_length, seq_length. lia.
Qed.
Lemma arr_bytes_multi isz N T x idx n : (n <= T)%nat ->
  arr_bytes isz (multi_window N T x idx n) = estimate (length idx) T isz n.
Proof.
  intros. unfold arr_bytes, multi_window, estimate. cbn [a_rows a_obs]. rewrite map_length. lia.
Qed.
Lemma arr_bytes_single isz N x idx t :
  arr_bytes isz (single_window N x idx t) = Z.of_nat (length idx) * 3 * isz.
Proof. unfold arr_bytes, single_window. cbn [a_rows a_obs]. rewrite map_length. lia. Qed.
Lemma gigabytes_R b : gigabytes (A:=R) b = in_gigabytes b.
Proof. unfold gigabytes, in_gigabytes. numR. lra. Qed.

(** ** get_disps *)
Definition delta_ts (ts : R) (ss : Z) (tis : list nat) : list R :=
  map (fun n => INR n * ts * IZR ss)%R tis.

Lemma get_disps_unfold (ts : R) ss idx sampling (mem : R) isz tis N T (x : nat -> nat -> V3 R) :
  Forall (valid_site N) idx -> tis <> [] ->
  get_disps ts ss idx sampling mem isz (map Z.of_nat tis) (table N T x)
  = if Rltb mem (in_gigabytes (fold_right Z.add 0 (map (estimate (length idx) T isz) tis)))
    then Raise MemoryError
    else let! r := disps_loop sampling (map (fun i => tab T (x (site N i))) idx) T
                     (Z.of_nat (last tis 0%nat)) 0 (map Z.of_nat tis) in
         Ok (delta_ts ts ss tis, fst r, snd r).
Proof.
  intros Hv Hne. unfold get_disps.
  destruct tis as [|n0 tis]; [congruence|].
  remember (n0 :: tis) as l eqn:El.
  assert (Em : forall (B : Type) (u v : B), match map Z.of_nat l with [] => u | _ :: _ => v end = v)
    by (subst l; reflexivity).
  rewrite Em.
  cbn [table a_rows a_obs]. rewrite gather_tab by exact Hv. cbn [bind].
  rewrite disp_bytes_sum, gigabytes_R. numR.
  destruct (Rltb mem _); [reflexivity|].
  assert (El2 : last (map Z.of_nat l) 0 = Z.of_nat (last l 0%nat)).
  { clear. induction l as [|a l IH]; [reflexivity|]. destruct l; [reflexivity|]. exact IH. }
  rewrite El2.
  assert (Ed : map (fun ti => IZR ti * ts * IZR ss)%R (map Z.of_nat l) = delta_ts ts ss l).
  { unfold delta_ts. rewrite map_map. apply map_ext. intros n. now rewrite <- INR_IZR_INZ. }
  rewrite Ed. reflexivity.
Qed.

Lemma get_disps_multi (ts : R) ss idx (mem : R) isz tis N T (x : nat -> nat -> V3 R) :
  Forall (valid_site N) idx -> tis <> [] -> Forall (fun n => (0 < n <= T)%nat) tis ->
  get_disps ts ss idx "multi-origin" mem isz (map Z.of_nat tis) (table N T x)
  = if Rltb mem (in_gigabytes (fold_right Z.add 0 (map (estimate (length idx) T isz) tis)))
    then Raise MemoryError
    else Ok (delta_ts ts ss tis,
             map (multi_window N T x idx) (filter (enough (length idx) T) tis),
             map (obs_count (length idx) (Z.of_nat (last tis 0%nat))) (filter (enough (length idx) T) tis)).
Proof.
  intros Hv Hne Hr. rewrite get_disps_unfold by assumption.
  rewrite disps_loop_multi by exact Hr. destruct (Rltb _ _); reflexivity.
Qed.
Lemma get_disps_single (ts : R) ss idx (mem : R) isz tis N T (x : nat -> nat -> V3 R) :
  Forall (valid_site N) idx -> tis <> [] -> Forall (fun n => (0 < n)%nat) tis ->
  get_disps ts ss idx "single-origin" mem isz (map Z.of_nat tis) (table N T x)
  = if Rltb mem (in_gigabytes (fold_right Z.add 0 (map (estimate (length idx) T isz) tis)))
    then Raise MemoryError
    else let ks := if Nat.ltb 1 (length idx) then Nat.min (length tis) T else 0%nat in
         Ok (delta_ts ts ss tis, tab ks (single_window N x idx),
             map (obs_count (length idx) (Z.of_nat (last tis 0%nat))) (firstn ks tis)).
Proof.
  intros Hv Hne Hr. rewrite get_disps_unfold by assumption.
  rewrite disps_loop_single by exact Hr. destruct (Rltb _ _); [reflexivity|].
  cbn [bind fst snd].
  set (ks := if Nat.ltb 1 (length idx) then Nat.min (length tis) T else 0%nat).
  assert (E : forall i, filter (fun p => single_kept (length idx) T (fst p)) (combine (seq i (length tis)) tis)
              = firstn (if Nat.ltb 1 (length idx) then Nat.min (length tis) (T - i) else 0%nat)
                       (combine (seq i (length tis)) tis)).
  { clear. unfold single_kept. induction tis as [|n tis IH]; intros i; cbn [length seq combine filter fst].
    - now rewrite firstn_nil.
    - rewrite IH. destruct (Nat.ltb 1 (length idx)); cbn [andb]; [|reflexivity].
      destruct (Nat.ltb i T) eqn:E.
      + apply Nat.ltb_lt in E. replace (T - i)%nat with (S (T - S i)) by lia. cbn [Nat.min firstn]. reflexivity.
      + apply Nat.ltb_ge in E. replace (T - i)%nat with 0%nat by lia.
        replace (T - S i)%nat with 0%nat by lia. rewrite !Nat.min_0_r. reflexivity. }
  rewrite E, Nat.sub_0_r. fold ks.
  assert (Hks : (ks <= length tis)%nat) by (unfold ks; destruct (Nat.ltb 1 (length idx)); lia).
  f_equal. f_equal; [f_equal|].
  - assert (G : forall (l : list nat) k i, (k <= length l)%nat ->
      map (fun p => single_window N x idx (fst p)) (firstn k (combine (seq i (length l)) l))
      = map (single_window N x idx) (seq i k)).
    { induction l as [|n l IH]; intros [|k] i Hk; cbn in *; try reflexivity; try lia.
      f_equal. apply IH. lia. }
    rewrite G by exact Hks. reflexivity.
  - assert (G : forall f (l : list nat) k i,
      map (fun p => f (snd p)) (firstn k (combine (seq i (length l)) l)) = map (A:=nat) (B:=R) f (firstn k l)).
    { induction l as [|n l IH]; intros [|k] i; cbn in *; try reflexivity. f_equal. apply IH. }
    apply G.
Qed.

(** ** Monotonicity of the drop criterion (C09) *)
Lemma kept_anti T n m : (0 < n <= m)%nat -> (kept (T - m + 1) m <= kept (T - n + 1) n)%nat.
Proof.
  intros H. destruct (kept (T - m + 1) m) as [|q] eqn:E; [lia|].
  assert (Hq : (q < kept (T - m + 1) m)%nat) by lia. apply kept_spec in Hq; [|lia].
  assert (q * n <= q * m)%nat by nia.
  assert (q < kept (T - n + 1) n)%nat; [|lia]. apply kept_spec; [lia|]. lia.
Qed.
Lemma filter_prefix {A} (P : A -> bool) (R : A -> A -> Prop) l :
  StronglySorted R l -> (forall a b, In a l -> In b l -> R a b -> P b = true -> P a = true) ->
  filter P l = firstn (length (filter P l)) l.
Proof.
  induction 1 as [|a l Hl IH Ha]; intros HP; cbn; [reflexivity|].
  assert (HP' : forall a0 b, In a0 l -> In b l -> R a0 b -> P b = true -> P a0 = true)
    by (intros; eapply (HP a0 b); cbn; auto).
  destruct (P a) eqn:E.
  - cbn [length firstn]. f_equal. now apply IH.
  - assert (F : filter P l = []).
    { clear IH HP'. assert (forall b, In b l -> P b = false).
      { intros b Hb. destruct (P b) eqn:Eb; [|reflexivity]. exfalso.
        assert (P a = true); [|congruence]. apply (HP a b); cbn; auto.
        rewrite Forall_forall in Ha. auto. }
      clear -H. induction l; cbn; [reflexivity|]. rewrite H by now left. apply IHl. intros; apply H; now right. }
    rewrite F. reflexivity.
Qed.
Lemma enough_prefix n_atoms T tis : StronglySorted le tis -> Forall (fun n => (0 < n)%nat) tis ->
  filter (enough n_atoms T) tis = firstn (length (filter (enough n_atoms T) tis)) tis.
Proof.
  intros Hs Hp. apply (filter_prefix _ le); [exact Hs|]. intros a b Ha Hb Hab.
  rewrite Forall_forall in Hp. specialize (Hp a Ha). unfold enough.
  rewrite !Nat.ltb_lt. pose proof (kept_anti T a b ltac:(lia)). nia.
Qed.
Lemma nth_error_firstn {A} (l : list A) k i : (i < k)%nat -> nth_error (firstn k l) i = nth_error l i.
Proof.
  revert k i. induction l as [|a l IH]; intros [|k] [|i] H; cbn; try lia; try reflexivity. apply IH. lia.
Qed.

(** ** get_disps without the non-emptiness hypothesis *)
Lemma get_disps_multi' (ts : R) ss idx (mem : R) isz tis N T (x : nat -> nat -> V3 R) :
  Forall (valid_site N) idx -> Forall (fun n => (0 < n <= T)%nat) tis ->
  get_disps ts ss idx "multi-origin" mem isz (map Z.of_nat tis) (table N T x)
  = if Rltb mem (in_gigabytes (fold_right Z.add 0 (map (estimate (length idx) T isz) tis)))
    then Raise MemoryError
    else Ok (delta_ts ts ss tis,
             map (multi_window N T x idx) (filter (enough (length idx) T) tis),
             map (obs_count (length idx) (Z.of_nat (last tis 0%nat))) (filter (enough (length idx) T) tis)).
Proof.
  intros Hv Hr. destruct tis as [|n tis]; [|apply get_disps_multi; auto; discriminate].
  cbn [get_disps map]. rewrite gigabytes_R. reflexivity.
Qed.
Lemma get_disps_single' (ts : R) ss idx (mem : R) isz tis N T (x : nat -> nat -> V3 R) :
  Forall (valid_site N) idx -> Forall (fun n => (0 < n)%nat) tis ->
  get_disps ts ss idx "single-origin" mem isz (map Z.of_nat tis) (table N T x)
  = if Rltb mem (in_gigabytes (fold_right Z.add 0 (map (estimate (length idx) T isz) tis)))
    then Raise MemoryError
    else let ks := if Nat.ltb 1 (length idx) then Nat.min (length tis) T else 0%nat in
         Ok (delta_ts ts ss tis, tab ks (single_window N x idx),
             map (obs_count (length idx) (Z.of_nat (last tis 0%nat))) (firstn ks tis)).
Proof.
  intros Hv Hr. destruct tis as [|n tis]; [|apply get_disps_single; auto; discriminate].
  cbn [get_disps map]. rewrite gigabytes_R. numR. cbn [map fold_right].
  destruct (Rltb mem (in_gigabytes 0)); [reflexivity|]. cbn [length Nat.min]. destruct (Nat.ltb 1 (length idx)); reflexivity.
Qed.

(** ** Parser.__init__ *)
Lemma correct_drift_any N T (x : nat -> nat -> V3 R) drift : Forall (valid_site N) drift ->
  correct_drift drift (table N T x) = Ok (table N T (corrected N x drift)).
Proof.
  intros H. destruct drift as [|i drift]; [reflexivity|].
  rewrite C05_formula_proof by (auto; discriminate). reflexivity.
Qed.

Definition steps_used (T : nat) (u : R) (o : Options R) : Z :=
  let k := Z.of_nat T - Rtrunc (min_time u o / u) + 1 in if k <? o_n_steps o then k else o_n_steps o.

Lemma parser_init_unfold geo N T (x : nat -> nat -> V3 R) idx drift (ts : R) ss o :
  Forall (valid_site N) drift -> (IZR ss * ts <> 0)%R ->
  let u := (IZR ss * ts)%R in
  parser_init geo (table N T x) idx drift ts ss o
  = if Z.of_nat T <=? Rtrunc (min_time u o / u) then Raise ValueError
    else let! tis := get_time_intervals geo (min_time u o) (max_time T u o) ss ts (steps_used T u o) (o_spacing o) in
         let! r := get_disps ts ss idx (o_sampling o) (o_memory_limit o) (o_itemsize o) tis
                             (table N T (corrected N x drift)) in
         Ok (mkParsed tis (fst (fst r)) (snd (fst r)) (snd r) (table N T (corrected N x drift))
                      idx drift (min_time u o) (max_time T u o) None).
Proof.
  intros Hd Hu u. unfold parser_init. rewrite correct_drift_any by exact Hd. cbn [bind].
  cbn [a_obs table]. numR. fold u. rewrite <- INR_IZR_INZ.
  fold (min_time u o) (max_time T u o).
  rewrite py_div_R by exact Hu. cbn [bind]. unfold py_int. numR. cbn [opt_res bind].
  reflexivity.
Qed.

Lemma Rtrunc_div_range (a u : R) T : (0 < u)%R -> (0 <= a)%R -> (a < INR T * u)%R ->
  0 <= Rtrunc (a / u) < Z.of_nat T.
Proof.
  intros Hu Ha HT.
  assert (P : (0 <= a / u)%R) by (apply Rmult_le_pos; [lra|left; now apply Rinv_0_lt_compat]).
  rewrite Rtrunc_pos by exact P. split; [now apply Rfloor_nonneg|].
  assert (Q : (a / u < IZR (Z.of_nat T))%R).
  { rewrite <- INR_IZR_INZ. apply (Rmult_lt_reg_r u); [lra|]. field_simplify; lra. }
  pose proof (Rfloor_bounds (a / u)). apply lt_IZR. lra.
Qed.
Lemma Rtrunc_div_ge (a u : R) z : (0 < u)%R -> 0 <= z -> (z <= Rtrunc (a / u) <-> (IZR z * u <= a)%R) \/ (a < 0)%R.
Proof.
  intros Hu Hz. destruct (Rle_dec 0 a) as [Ha|Ha]; [left|right; lra].
  assert (P : (0 <= a / u)%R) by (apply Rmult_le_pos; [lra|left; now apply Rinv_0_lt_compat]).
  rewrite Rtrunc_pos by exact P. rewrite Rfloor_le_iff. split; intros H.
  - apply (Rmult_le_compat_r u) in H; [|lra]. field_simplify in H; lra.
  - apply (Rmult_le_reg_r u); [lra|]. field_simplify; lra.
Qed.
Lemma Rtrunc_div_le (a u : R) z : (0 < u)%R -> (0 <= a <= IZR z * u)%R -> Rtrunc (a / u) <= z.
Proof.
  intros Hu Ha.
  assert (P : (0 <= a / u)%R) by (apply Rmult_le_pos; [lra|left; now apply Rinv_0_lt_compat]).
  rewrite Rtrunc_pos by exact P.
  assert (Q : (a / u <= IZR z)%R) by (apply (Rmult_le_reg_r u); [lra|]; field_simplify; lra).
  pose proof (Rfloor_mono _ _ Q). rewrite Rfloor_IZR in *. lia.
Qed.
Lemma Rtrunc_mono a b : (0 <= a <= b)%R -> Rtrunc a <= Rtrunc b.
Proof. intros H. rewrite !Rtrunc_pos by lra. apply Rfloor_mono. lra. Qed.

(** The interval list chosen for sensible options. *)
Lemma to_nat_list T l : Forall (fun z => 1 <= z <= Z.of_nat T) l ->
  map Z.of_nat (map Z.to_nat l) = l /\ Forall (fun n => (0 < n <= T)%nat) (map Z.to_nat l).
Proof.
  induction 1 as [|z l Hz Hl [IH1 IH2]]; cbn; [split; constructor|].
  split; [f_equal; [lia|exact IH1]|]. constructor; [lia|exact IH2].
Qed.
Lemma sorted_tab (R0 : Z -> Z -> Prop) m f : (forall i j, (i < j < m)%nat -> R0 (f i) (f j)) ->
  StronglySorted R0 (tab m f).
Proof.
  intros H. unfold tab.
  assert (G : forall k s, (forall i j, (s <= i < j)%nat -> (j < s + k)%nat -> R0 (f i) (f j)) ->
                          StronglySorted R0 (map f (seq s k))).
  { induction k; intros s Hs; cbn; [constructor|]. constructor.
    - apply IHk. intros i j Hi Hj. apply Hs; lia.
    - apply Forall_forall. intros y Hy. apply in_map_iff in Hy as (j & <- & Hj). apply in_seq in Hj.
      apply Hs; lia. }
  apply G. intros i j Hi Hj. apply H. lia.
Qed.
Lemma StronglySorted_impl {A} (R1 R2 : A -> A -> Prop) l : (forall a b, R1 a b -> R2 a b) ->
  StronglySorted R1 l -> StronglySorted R2 l.
Proof.
  intros H. induction 1; constructor; auto. eapply Forall_impl; [|eassumption]. auto.
Qed.
Lemma sorted_to_nat T l : Forall (fun z => 1 <= z <= Z.of_nat T) l -> StronglySorted Z.le l ->
  StronglySorted le (map Z.to_nat l).
Proof.
  intros Hf Hs. induction Hs as [|z l Hl IH Hz]; cbn; [constructor|].
  inversion Hf; subst. constructor; [auto|]. apply Forall_forall. intros n Hn.
  apply in_map_iff in Hn as (y & <- & Hy). rewrite Forall_forall in Hz. specialize (Hz y Hy). lia.
Qed.

Lemma sensible_range T u o : sensible T u o -> (min_time u o < INR T * u)%R ->
  let a := first_interval u (min_time u o) in let b := Rtrunc (max_time T u o / u) in
  1 <= a <= b /\ b <= Z.of_nat T /\ 0 <= Rtrunc (min_time u o / u) < Z.of_nat T.
Proof.
  intros [Hu H1 H2 H3 H4 H5] Hlt a b.
  assert (Hiu : (0 < / u)%R) by now apply Rinv_0_lt_compat.
  pose proof (Rtrunc_div_range _ _ _ Hu H1 Hlt) as R0.
  assert (Hb1 : 1 <= b).
  { destruct (Rtrunc_div_ge (max_time T u o) u 1 Hu ltac:(lia)) as [G|G]; [|lra].
    apply G. lra. }
  assert (Hb2 : b <= Z.of_nat T).
  { apply Rtrunc_div_le; [exact Hu|]. rewrite <- INR_IZR_INZ. lra. }
  assert (Hab : Rtrunc (min_time u o / u) <= b).
  { apply Rtrunc_mono. split.
    - apply Rmult_le_pos; lra. - apply Rmult_le_compat_r; lra. }
  unfold a, first_interval. destruct (Rtrunc (min_time u o / u) =? 0) eqn:E.
  - lia. - apply Z.eqb_neq in E. lia.
Qed.

Lemma intervals_sensible T u ss (ts : R) o : u = (IZR ss * ts)%R -> sensible T u o ->
  (min_time u o < INR T * u)%R ->
  exists tis, get_time_intervals geomspace_R (min_time u o) (max_time T u o) ss ts (steps_used T u o) (o_spacing o)
              = Ok (map Z.of_nat tis)
    /\ Forall (fun n => (0 < n <= T)%nat) tis /\ StronglySorted le tis
    /\ ((length tis <= Z.to_nat (o_n_steps o))%nat /\ (1 <= o_n_steps o -> tis <> [])).
Proof.
  intros Eu S Hlt. pose proof (sensible_range T u o S Hlt) as (Hab & HbT & Hmn).
  destruct S as [Hu H1 H2 H3 H4 H5].
  assert (Hst : 0 <= steps_used T u o <= o_n_steps o).
  { unfold steps_used. destruct (_ <? _) eqn:E; [apply Z.ltb_lt in E|]; lia. }
  set (a := first_interval u (min_time u o)) in *. set (b := Rtrunc (max_time T u o / u)) in *.
  assert (Hune : (IZR ss * ts <> 0)%R) by (rewrite <- Eu; lra).
  destruct H5 as [-> | ->].
  - rewrite get_time_intervals_linear by (assumption || lia). rewrite <- Eu. fold a b.
    set (m := Z.to_nat (steps_used T u o)) in *.
    assert (F : Forall (fun z => 1 <= z <= Z.of_nat T) (tab m (lin a b m))).
    { apply Forall_forall. intros z Hz. unfold tab in Hz. apply in_map_iff in Hz as (i & <- & Hi).
      apply in_seq in Hi. pose proof (lin_range a b m i ltac:(lia) ltac:(lia)). lia. }
    destruct (to_nat_list T _ F) as [E1 E2].
    exists (map Z.to_nat (tab m (lin a b m))). rewrite E1. split; [reflexivity|]. split; [exact E2|].
    split.
    + apply (sorted_to_nat T); [exact F|]. apply sorted_tab. intros i j Hij. apply lin_mono; lia.
    + rewrite map_length, tab_length. split; [unfold m; lia|]. intros Hn C.
      apply (f_equal (@List.length nat)) in C. rewrite map_length, tab_length in C. cbn in C.
      unfold m, steps_used in C. destruct (_ <? _) in C; lia.
  - rewrite get_time_intervals_log by assumption. rewrite <- Eu. fold a b.
    destruct (geomspace_R_ok a b (steps_used T u o) ltac:(lia) ltac:(lia)) as (g & Eg & Lg & Fg & Ig & _).
    rewrite Eg. cbn [bind].
    assert (F : Forall (fun z => 1 <= z <= Z.of_nat T) (unique g)).
    { apply Forall_forall. intros z Hz. apply (proj1 (unique_In _ _)) in Hz. rewrite Forall_forall in Fg.
      specialize (Fg z Hz). cbn in Fg. lia. }
    destruct (to_nat_list T _ F) as [E1 E2].
    exists (map Z.to_nat (unique g)). rewrite E1. split; [reflexivity|]. split; [exact E2|]. split.
    + apply (sorted_to_nat T); [exact F|]. apply (StronglySorted_impl Z.lt); [intros; lia|]. apply unique_sorted.
    + rewrite map_length. pose proof (unique_length g). split; [lia|]. intros Hn C.
      assert (Hs1 : 1 <= steps_used T u o) by (unfold steps_used; destruct (_ <? _); lia).
      specialize (Ig Hs1). apply (proj2 (unique_In _ _)) in Ig. apply (in_map Z.to_nat) in Ig.
      rewrite C in Ig. exact Ig.
Qed.

(** The whole constructor for sensible options. *)
Lemma parser_init_sensible N T (x : nat -> nat -> V3 R) idx drift (ts : R) ss o :
  Forall (valid_site N) idx -> Forall (valid_site N) drift -> sensible T (IZR ss * ts) o ->
  let u := (IZR ss * ts)%R in let y := corrected N x drift in
  (min_time u o < INR T * u)%R ->
  exists tis, Forall (fun n => (0 < n <= T)%nat) tis /\ StronglySorted le tis
   /\ ((length tis <= Z.to_nat (o_n_steps o))%nat /\ (1 <= o_n_steps o -> tis <> []))
   /\ parser_init geomspace_R (table N T x) idx drift ts ss o
      = let! r := get_disps ts ss idx (o_sampling o) (o_memory_limit o) (o_itemsize o)
                            (map Z.of_nat tis) (table N T y) in
        Ok (mkParsed (map Z.of_nat tis) (fst (fst r)) (snd (fst r)) (snd r) (table N T y)
                     idx drift (min_time u o) (max_time T u o) None).
Proof.
  intros Hi Hd S u y Hlt.
  destruct (intervals_sensible T u ss ts o eq_refl S Hlt) as (tis & E & F1 & F2 & F3).
  exists tis. do 3 (split; [assumption|]).
  rewrite parser_init_unfold; [|exact Hd|pose proof (sens_unit _ _ _ S); lra].
  fold u. pose proof (sensible_range T u o S Hlt) as (_ & _ & Hmn).
  destruct (Z.of_nat T <=? Rtrunc (min_time u o / u)) eqn:E2; [apply Z.leb_le in E2; lia|].
  rewrite E. reflexivity.
Qed.
