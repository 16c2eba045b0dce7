(** * ProofsParser: the Parser constructor (C06, C08-C15) *)
From Verif Require Import Base Spec ModelParser SpecParser Lemmas ProofsDisp ProofsIntervals ProofsWindows SpecRun.
From Coq Require Import Reals Lra Lia Arith Sorting.
Open Scope Z_scope.

Lemma entry_map {A B} (f : A -> list B) l s i t : nth_error l s = Some i ->
  entry (map f l) s t = nth_error (f i) t.
Proof. intros H. unfold entry. rewrite nth_error_map, H. reflexivity. Qed.
Lemma table_entry {A} m n (x : nat -> nat -> V3 A) a t : (a < m)%nat -> (t < n)%nat ->
  arr_entry (table m n x) a t = Some (x a t).
Proof. intros. unfold arr_entry, table. cbn [a_rows]. now apply tab_entry. Qed.

Lemma multi_window_ok N T (x : nat -> nat -> V3 R) idx n : Forall (valid_site N) idx -> (0 < n <= T)%nat ->
  is_multi_window N T (table N T x) idx n (multi_window N T x idx n).
Proof.
  intros Hv Hn. constructor.
  - reflexivity.
  - split; cbn [a_rows multi_window]; [now rewrite map_length|].
    apply Forall_forall. intros r Hr. apply in_map_iff in Hr as (i & <- & _). apply tab_length.
  - intros s i Hs. rewrite Forall_forall in Hv. pose proof (Hv i (nth_error_In _ _ Hs)) as Hi.
    rewrite table_entry by (try apply site_lt; try lia; auto).
    unfold arr_entry, multi_window. cbn [a_rows]. rewrite (entry_map _ _ _ _ _ Hs).
    rewrite tab_nth_error by lia. cbn [window_obs]. split; [reflexivity|discriminate].
  - intros s i j Hs Hj. rewrite Forall_forall in Hv. pose proof (Hv i (nth_error_In _ _ Hs)) as Hi.
    rewrite !table_entry by (try apply site_lt; try lia; auto).
    do 2 eexists. split; [reflexivity|]. split; [reflexivity|].
    unfold arr_entry, multi_window. cbn [a_rows]. rewrite (entry_map _ _ _ _ _ Hs).
    rewrite tab_nth_error by lia. reflexivity.
Qed.
Lemma single_window_ok N T (x : nat -> nat -> V3 R) idx t : Forall (valid_site N) idx -> (t < T)%nat ->
  is_single_window N (table N T x) idx t (single_window N x idx t).
Proof.
  intros Hv Hn. constructor.
  - reflexivity.
  - split; cbn [a_rows single_window]; [now rewrite map_length|].
    apply Forall_forall. intros r Hr. apply in_map_iff in Hr as (i & <- & _). reflexivity.
  - intros s i Hs. rewrite Forall_forall in Hv. pose proof (Hv i (nth_error_In _ _ Hs)) as Hi.
    rewrite table_entry by (try apply site_lt; try lia; auto).
    unfold arr_entry, single_window. cbn [a_rows]. rewrite (entry_map _ _ _ _ _ Hs).
    cbn. split; [reflexivity|discriminate].
Qed.

(** ** C06: one interval *)
Lemma C06_proof : forall (ts : R) ss idx (mem : R) isz N T (x : nat -> nat -> V3 R) n,
  Forall (valid_site N) idx -> (0 < n <= T)%nat -> (1 < length idx * kept (T - n + 1) n)%nat ->
  (in_gigabytes (Z.of_nat (length idx) * Z.of_nat (T - n + 1) * 3 * isz) <= mem)%R ->
  exists arr, get_disps ts ss idx "multi-origin" mem isz [Z.of_nat n] (table N T x)
              = Ok ([INR n * ts * IZR ss]%R, [arr], [INR (length idx)])
    /\ is_multi_window N T (table N T x) idx n arr.
Proof.
  intros ts ss idx mem isz N T x n Hv Hn He Hm.
  exists (multi_window N T x idx n). split; [|now apply multi_window_ok].
  change [Z.of_nat n] with (map Z.of_nat [n]).
  rewrite get_disps_multi' by (auto; repeat constructor; lia).
  cbn [map fold_right filter last].
  assert (E : Rltb mem (in_gigabytes (estimate (length idx) T isz n + 0)) = false).
  { apply Rltb_false. unfold estimate.
    replace (Z.of_nat (length idx) * (Z.of_nat (T - n) + 1) * 3 * isz + 0)
      with (Z.of_nat (length idx) * Z.of_nat (T - n + 1) * 3 * isz) by lia. exact Hm. }
  rewrite E. unfold enough. apply Nat.ltb_lt in He. rewrite He. cbn [map delta_ts].
  do 3 f_equal. unfold obs_count. rewrite <- INR_IZR_INZ. field. apply not_0_INR. lia.
Qed.

(** ** C09: alignment *)
Section Run.
  Context (N T : nat) (x : nat -> nat -> V3 R) (idx drift : list Z) (ts : R) (ss : Z) (o : Options R).
  Let u := (IZR ss * ts)%R.
  Context (Hi : Forall (valid_site N) idx) (Hd : Forall (valid_site N) drift) (HS : sensible T u o).

  Lemma accepted p : parser_init geomspace_R (table N T x) idx drift ts ss o = Ok p -> (min_time u o < INR T * u)%R.
  Proof.
    pose proof (sens_unit _ _ _ HS) as Hu.
    rewrite parser_init_unfold; [|exact Hd|fold u; lra]. fold u.
    destruct (Z.of_nat T <=? Rtrunc (min_time u o / u)) eqn:E; [discriminate|]. intros _.
    apply Z.leb_gt in E.
    destruct (Rtrunc_div_ge (min_time u o) u (Z.of_nat T) Hu ltac:(lia)) as [G|G].
    - destruct (Rlt_dec (min_time u o) (INR T * u)) as [L|L]; [exact L|].
      assert (Z.of_nat T <= Rtrunc (min_time u o / u)) by (apply G; rewrite <- INR_IZR_INZ; lra). lia.
    - pose proof (sens_min _ _ _ HS). lra.
  Qed.

  Lemma rejected : (INR T * u <= min_time u o)%R ->
    parser_init geomspace_R (table N T x) idx drift ts ss o = Raise ValueError.
  Proof.
    intros H. pose proof (sens_unit _ _ _ HS) as Hu.
    rewrite parser_init_unfold; [|exact Hd|fold u; lra]. fold u.
    destruct (Rtrunc_div_ge (min_time u o) u (Z.of_nat T) Hu ltac:(lia)) as [G|G].
    - assert (L : Z.of_nat T <= Rtrunc (min_time u o / u)) by (apply G; rewrite <- INR_IZR_INZ; lra).
      apply Z.leb_le in L. now rewrite L.
    - pose proof (sens_min _ _ _ HS). lra.
  Qed.

  Definition last_interval (tis : list nat) := Z.of_nat (last tis 0%nat).

  (** Everything about a successful multi-origin run. *)
  Lemma run_multi p : o_sampling o = "multi-origin"%string ->
    parser_init geomspace_R (table N T x) idx drift ts ss o = Ok p ->
    exists tis, Forall (fun n => (0 < n <= T)%nat) tis /\ StronglySorted le tis
      /\ let ks := firstn (length (filter (enough (length idx) T) tis)) tis in
         filter (enough (length idx) T) tis = ks
         /\ (in_gigabytes (fold_right Z.add 0%Z (map (estimate (length idx) T (o_itemsize o)) tis)) <= o_memory_limit o)%R
         /\ p = mkParsed (map Z.of_nat tis) (delta_ts ts ss tis)
               (map (multi_window N T (corrected N x drift) idx) ks)
               (map (obs_count (length idx) (last_interval tis)) ks)
               (table N T (corrected N x drift)) idx drift (min_time u o) (max_time T u o) None.
  Proof.
    intros Hs Hp. pose proof (accepted p Hp) as Hlt.
    destruct (parser_init_sensible N T x idx drift ts ss o Hi Hd HS Hlt) as (tis & F1 & F2 & F3 & E).
    exists tis. do 2 (split; [assumption|]). cbv zeta.
    assert (Ep : filter (enough (length idx) T) tis
                 = firstn (length (filter (enough (length idx) T) tis)) tis).
    { apply enough_prefix; [exact F2|]. eapply Forall_impl; [|exact F1]. cbn; lia. }
    split; [exact Ep|].
    rewrite E in Hp. rewrite Hs in Hp. rewrite get_disps_multi' in Hp by assumption.
    destruct (Rltb _ _) eqn:Em; cbn [bind] in Hp; [discriminate|]. apply Rltb_false in Em.
    split; [exact Em|]. cbn [fst snd] in Hp. rewrite <- Ep. injection Hp as <-. reflexivity.
  Qed.

  Lemma run_single p : o_sampling o = "single-origin"%string ->
    parser_init geomspace_R (table N T x) idx drift ts ss o = Ok p ->
    exists tis, Forall (fun n => (0 < n <= T)%nat) tis /\ StronglySorted le tis
      /\ let ks := if Nat.ltb 1 (length idx) then Nat.min (length tis) T else 0%nat in
         (in_gigabytes (fold_right Z.add 0%Z (map (estimate (length idx) T (o_itemsize o)) tis)) <= o_memory_limit o)%R
         /\ p = mkParsed (map Z.of_nat tis) (delta_ts ts ss tis)
               (tab ks (single_window N (corrected N x drift) idx))
               (map (obs_count (length idx) (last_interval tis)) (firstn ks tis))
               (table N T (corrected N x drift)) idx drift (min_time u o) (max_time T u o) None.
  Proof.
    intros Hs Hp. pose proof (accepted p Hp) as Hlt.
    destruct (parser_init_sensible N T x idx drift ts ss o Hi Hd HS Hlt) as (tis & F1 & F2 & F3 & E).
    exists tis. do 2 (split; [assumption|]). cbv zeta.
    rewrite E in Hp. rewrite Hs in Hp. rewrite get_disps_single' in Hp
      by (first [assumption | eapply Forall_impl; [|exact F1]; cbn; lia]).
    destruct (Rltb _ _) eqn:Em; cbn [bind] in Hp; [discriminate|]. apply Rltb_false in Em.
    split; [exact Em|]. cbn [fst snd] in Hp. injection Hp as <-. reflexivity.
  Qed.

  Lemma runs : (min_time u o < INR T * u)%R ->
    o_sampling o = "multi-origin"%string \/ o_sampling o = "single-origin"%string ->
    (exists p, parser_init geomspace_R (table N T x) idx drift ts ss o = Ok p)
    \/ parser_init geomspace_R (table N T x) idx drift ts ss o = Raise MemoryError.
  Proof.
    intros Hlt Hs.
    destruct (parser_init_sensible N T x idx drift ts ss o Hi Hd HS Hlt) as (tis & F1 & F2 & F3 & E).
    rewrite E. destruct Hs as [-> | ->].
    - rewrite get_disps_multi' by assumption.
      destruct (Rltb _ _); cbn [bind]; [right; reflexivity|left; eexists; reflexivity].
    - rewrite get_disps_single' by (first [assumption | eapply Forall_impl; [|exact F1]; cbn; lia]).
      destruct (Rltb _ _); cbn [bind]; [right; reflexivity|left; eexists; reflexivity].
  Qed.
End Run.

Lemma C09_multi_proof : forall N T (x : nat -> nat -> V3 R) idx drift (ts : R) ss o p,
  Forall (valid_site N) idx -> Forall (valid_site N) drift -> sensible T (IZR ss * ts) o ->
  o_sampling o = "multi-origin"%string ->
  parser_init geomspace_R (table N T x) idx drift ts ss o = Ok p ->
  length (p_n_o p) = length (p_disp_3d p) /\ (length (p_disp_3d p) <= length (p_delta_t p))%nat
  /\ length (p_delta_t p) = length (p_intervals p)
  /\ forall k arr, nth_error (p_disp_3d p) k = Some arr ->
     exists n : nat, (0 < n <= T)%nat /\ nth_error (p_intervals p) k = Some (Z.of_nat n)
       /\ nth_error (p_delta_t p) k = Some (INR n * ts * IZR ss)%R
       /\ is_multi_window N T (p_dc p) idx n arr
       /\ nth_error (p_n_o p) k
          = Some (INR (length idx) * IZR (last (p_intervals p) 0%Z) / INR n)%R.
Proof.
  intros N T x idx drift ts ss o p Hi Hd HS Hs Hp.
  destruct (run_multi N T x idx drift ts ss o Hi Hd HS p Hs Hp) as (tis & F1 & F2 & Ef & Em & ->).
  cbn [p_n_o p_disp_3d p_delta_t p_intervals p_dc].
  set (ks := firstn (length (filter (enough (length idx) T) tis)) tis) in *.
  unfold delta_ts. rewrite !map_length. split; [reflexivity|]. split; [|split].
  - unfold ks. rewrite firstn_length. lia.
  - reflexivity.
  - intros k arr Hk. rewrite nth_error_map in Hk.
    destruct (nth_error ks k) as [n|] eqn:En; [|discriminate]. injection Hk as <-.
    assert (Hn : nth_error tis k = Some n).
    { rewrite <- En. symmetry. apply nth_error_firstn.
      assert (Hlt : (k < length ks)%nat) by (apply nth_error_Some; congruence).
      unfold ks in Hlt. rewrite firstn_length in Hlt. lia. }
    pose proof F1 as F1'. rewrite Forall_forall in F1'.
    pose proof (F1' n (nth_error_In _ _ Hn)) as Hr.
    exists n. split; [exact Hr|].
    split; [now rewrite nth_error_map, Hn|]. split; [now rewrite nth_error_map, Hn|].
    split; [now apply multi_window_ok|].
    rewrite nth_error_map, En. cbn [option_map]. unfold obs_count, last_interval.
    assert (El2 : last (map Z.of_nat tis) 0 = Z.of_nat (last tis 0%nat)).
    { clear. induction tis as [|a l IH]; [reflexivity|]. destruct l; [reflexivity|]. exact IH. }
    now rewrite El2.
Qed.

Lemma C09_single_proof : forall N T (x : nat -> nat -> V3 R) idx drift (ts : R) ss o p,
  Forall (valid_site N) idx -> Forall (valid_site N) drift -> sensible T (IZR ss * ts) o ->
  o_sampling o = "single-origin"%string ->
  parser_init geomspace_R (table N T x) idx drift ts ss o = Ok p ->
  length (p_n_o p) = length (p_disp_3d p) /\ (length (p_disp_3d p) <= length (p_delta_t p))%nat
  /\ length (p_delta_t p) = length (p_intervals p)
  /\ forall k arr, nth_error (p_disp_3d p) k = Some arr ->
     exists n : nat, (0 < n <= T)%nat /\ nth_error (p_intervals p) k = Some (Z.of_nat n)
       /\ nth_error (p_delta_t p) k = Some (INR n * ts * IZR ss)%R
       /\ is_single_window N (p_dc p) idx k arr
       /\ nth_error (p_n_o p) k
          = Some (INR (length idx) * IZR (last (p_intervals p) 0%Z) / INR n)%R.
Proof.
  intros N T x idx drift ts ss o p Hi Hd HS Hs Hp.
  destruct (run_single N T x idx drift ts ss o Hi Hd HS p Hs Hp) as (tis & F1 & F2 & Em & ->).
  cbn [p_n_o p_disp_3d p_delta_t p_intervals p_dc].
  set (ks := if Nat.ltb 1 (length idx) then Nat.min (length tis) T else 0%nat) in *.
  assert (Hks : (ks <= length tis)%nat /\ (ks <= T)%nat) by (unfold ks; destruct (Nat.ltb _ _); lia).
  unfold delta_ts. rewrite !map_length, tab_length, firstn_length. split; [lia|]. split; [|split].
  - lia.
  - reflexivity.
  - intros k arr Hk.
    assert (Hlt : (k < ks)%nat).
    { assert (G : nth_error (tab ks (single_window N (corrected N x drift) idx)) k <> None) by congruence.
      apply nth_error_Some in G. now rewrite tab_length in G. }
    rewrite tab_nth_error in Hk by exact Hlt. injection Hk as <-.
    destruct (nth_error tis k) as [n|] eqn:Hn; [|apply nth_error_None in Hn; lia].
    pose proof F1 as F1'. rewrite Forall_forall in F1'.
    pose proof (F1' n (nth_error_In _ _ Hn)) as Hr.
    exists n. split; [exact Hr|].
    split; [now rewrite nth_error_map, Hn|]. split; [now rewrite nth_error_map, Hn|].
    split; [apply single_window_ok; [assumption|lia]|].
    rewrite nth_error_map, nth_error_firstn by lia. rewrite Hn. cbn [option_map]. unfold obs_count, last_interval.
    assert (El2 : last (map Z.of_nat tis) 0 = Z.of_nat (last tis 0%nat)).
    { clear. induction tis as [|a l IH]; [reflexivity|]. destruct l; [reflexivity|]. exact IH. }
    now rewrite El2.
Qed.

(** ** Runs with unit time step and whole-number bounds, for the counterexamples *)
Lemma Rtrunc_div_1 z : Rtrunc (IZR z / (IZR 1 * 1)) = z.
Proof. replace (IZR z / (IZR 1 * 1))%R with (IZR z) by lra. apply Rtrunc_IZR. Qed.

Lemma parser_init_ints geo N T (x : nat -> nat -> V3 R) idx drift mn mx ns samp (mem : R) isz :
  Forall (valid_site N) drift -> 0 <= mn < Z.of_nat T -> 0 <= ns ->
  let m := Z.to_nat (Z.min ns (Z.of_nat T - mn + 1)) in
  let tis := tab m (lin (if mn =? 0 then 1 else mn) mx m) in
  parser_init geo (table N T x) idx drift 1%R 1 (mkOptions (Some (IZR mn)) (Some (IZR mx)) ns "linear" samp mem isz)
  = let! r := get_disps 1%R 1 idx samp mem isz tis (table N T (corrected N x drift)) in
    Ok (mkParsed tis (fst (fst r)) (snd (fst r)) (snd r) (table N T (corrected N x drift))
                 idx drift (IZR mn) (IZR mx) None).
Proof.
  intros Hd Hmn Hns m tis. rewrite parser_init_unfold; [|exact Hd|lra].
  unfold steps_used, min_time, max_time.
  cbn [o_min_dt o_max_dt o_spacing o_sampling o_memory_limit o_itemsize o_n_steps].
  rewrite Rtrunc_div_1.
  destruct (Z.of_nat T <=? mn) eqn:E; [apply Z.leb_le in E; lia|].
  replace (if Z.of_nat T - mn + 1 <? ns then Z.of_nat T - mn + 1 else ns)
    with (Z.min ns (Z.of_nat T - mn + 1)) by (destruct (_ <? _) eqn:E2; [apply Z.ltb_lt in E2|apply Z.ltb_ge in E2]; lia).
  rewrite get_time_intervals_linear by (lra || lia).
  unfold first_interval. rewrite !Rtrunc_div_1. fold m. fold tis. reflexivity.
Qed.

(** ** C08 *)
Lemma C08_refuted_proof : exists (x : nat -> nat -> V3 R) p arr,
  parser_init geomspace_R (table 2 3 x) [0;1] [] 1%R 1
     (mkOptions (Some 1) (Some 3) 2 "linear" "single-origin" 8 8)%R = Ok p
  /\ nth_error (p_intervals p) 1 = Some 3 /\ nth_error (p_disp_3d p) 1 = Some arr
  /\ arr_entry arr 0 0 = arr_entry (p_dc p) 0 1
  /\ arr_entry arr 0 0 <> arr_entry (p_dc p) 0 (3 - 1).
Proof.
  exists (fun a t => mkV (INR t) 0 0)%R.
  rewrite (parser_init_ints geomspace_R 2 3 _ [0;1] [] 1 3 2 "single-origin" 8 8) by (first [exact (Forall_nil _) | lia]).
  change (tab _ (lin _ 3 _)) with (map Z.of_nat [1;3]%nat).
  rewrite get_disps_single' by (repeat constructor; cbn; lia).
  assert (E : Rltb 8 (in_gigabytes (fold_right Z.add 0 (map (estimate (length [0;1]) 3 8) [1%nat; 3%nat]))) = false).
  { apply Rltb_false. unfold in_gigabytes. cbn. lra. }
  rewrite E. cbn [bind]. do 2 eexists. split; [reflexivity|].
  cbn [p_intervals p_disp_3d p_dc map nth_error]. split; [reflexivity|]. split; [reflexivity|].
  split; [reflexivity|]. cbn. intros G. injection G as G. lra.
Qed.

(** ** C09: descending intervals *)
Lemma C09_descending_refuted_proof : exists (x : nat -> nat -> V3 R) p arr,
  parser_init geomspace_R (table 1 4 x) [0] [] 1%R 1
     (mkOptions (Some 3) (Some 1) 100 "linear" "multi-origin" 8 8)%R = Ok p
  /\ nth_error (p_disp_3d p) 0 = Some arr /\ is_multi_window 1 4 (p_dc p) [0] 1 arr
  /\ nth_error (p_delta_t p) 0 = Some 3%R.
Proof.
  exists (fun a t => zero3).
  rewrite (parser_init_ints geomspace_R 1 4 _ [0] [] 3 1 100 "multi-origin" 8 8) by (first [exact (Forall_nil _) | lia]).
  change (tab _ (lin _ 1 _)) with (map Z.of_nat [3;1]%nat).
  rewrite get_disps_multi' by (repeat constructor; cbn; lia).
  assert (E : Rltb 8 (in_gigabytes (fold_right Z.add 0 (map (estimate (length [0]) 4 8) [3%nat; 1%nat]))) = false).
  { apply Rltb_false. unfold in_gigabytes. cbn. lra. }
  rewrite E. cbn [bind]. do 2 eexists. split; [reflexivity|].
  split; [reflexivity|]. cbn [p_intervals p_disp_3d p_dc p_delta_t map nth_error].
  split; [apply multi_window_ok; [repeat constructor; cbn; lia|lia]|].
  cbn. f_equal. lra.
Qed.

(** ** C10 *)
Lemma trunc_between (t u : R) z : (0 < u)%R -> 0 <= z -> (IZR z * u <= t < IZR (z + 1) * u)%R -> Rtrunc (t / u) = z.
Proof.
  intros Hu Hz [H1 H2]. assert (Hz' : (0 <= IZR z)%R) by (apply IZR_le; lia).
  assert (Q : (IZR z <= t / u)%R) by (apply (Rmult_le_reg_r u); [lra|]; field_simplify; lra).
  rewrite Rtrunc_pos by lra. apply Rfloor_unique. split; [exact Q|].
  rewrite plus_IZR in H2. apply (Rmult_lt_reg_r u); [lra|]. field_simplify; lra.
Qed.

Lemma C10_proof : forall geo (mn mx ts : R) ss a b m, (0 < IZR ss * ts)%R ->
  let u := (IZR ss * ts)%R in
  0 <= a -> (IZR a * u <= mn < IZR (a + 1) * u)%R -> (IZR b * u <= mx < IZR (b + 1) * u)%R ->
  Z.max 1 a <= b -> 2 <= m ->
  exists l, get_time_intervals geo mn mx ss ts m "linear" = Ok l
    /\ Z.of_nat (length l) = m /\ StronglySorted Z.le l
    /\ nth_error l 0 = Some (Z.max 1 a) /\ nth_error l (length l - 1) = Some b
    /\ forall i j x x' y y', nth_error l i = Some x -> nth_error l (S i) = Some x' ->
         nth_error l j = Some y -> nth_error l (S j) = Some y' -> Z.abs ((x' - x) - (y' - y)) <= 1.
Proof.
  intros geo mn mx ts ss a b m Hu u Ha Hmn Hmx Hab Hm.
  rewrite get_time_intervals_linear by (lra || lia). fold u.
  unfold first_interval. rewrite (trunc_between mn u a), (trunc_between mx u b) by (assumption || lia).
  replace (if a =? 0 then 1 else a) with (Z.max 1 a)
    by (destruct (a =? 0) eqn:E; [apply Z.eqb_eq in E|apply Z.eqb_neq in E]; lia).
  set (a' := Z.max 1 a) in *. set (k := Z.to_nat m).
  eexists; split; [reflexivity|]. rewrite tab_length.
  split; [unfold k; lia|]. split; [apply sorted_tab; intros; apply lin_mono; lia|].
  split; [rewrite tab_nth_error by lia; now rewrite lin_first|].
  split; [rewrite tab_nth_error by lia; rewrite lin_last by lia; reflexivity|].
  intros i j x x' y y' H1 H2 H3 H4.
  assert (L : forall i z, nth_error (tab k (lin a' b k)) i = Some z -> z = lin a' b k i).
  { clear. intros i z H. assert (Hl : (i < length (tab k (lin a' b k)))%nat) by (apply nth_error_Some; congruence).
    rewrite tab_length in Hl. rewrite tab_nth_error in H by exact Hl. congruence. }
  apply L in H1, H2, H3, H4. subst. apply lin_even.
Qed.
Lemma C10_one_proof : forall geo (mn mx ts : R) ss a, (0 < IZR ss * ts)%R ->
  let u := (IZR ss * ts)%R in 0 <= a -> (IZR a * u <= mn < IZR (a + 1) * u)%R ->
  get_time_intervals geo mn mx ss ts 1 "linear" = Ok [Z.max 1 a].
Proof.
  intros geo mn mx ts ss a Hu u Ha Hmn.
  rewrite get_time_intervals_linear by (lra || lia). fold u. unfold first_interval.
  rewrite (trunc_between mn u a) by (assumption || lia). cbn [Z.to_nat Pos.to_nat]. unfold tab.
  change (Pos.to_nat 1) with 1%nat. cbn [seq map]. rewrite lin_first.
  do 2 f_equal. destruct (a =? 0) eqn:E; [apply Z.eqb_eq in E|apply Z.eqb_neq in E]; lia.
Qed.

(** ** C11 *)
Lemma Rtrunc_self u : (0 < u)%R -> Rtrunc (u / u) = 1.
Proof. intros. replace (u / u)%R with (IZR 1) by (field; lra). apply Rtrunc_IZR. Qed.
Lemma Rtrunc_mult_self T u : (0 < u)%R -> Rtrunc (INR T * u / u) = Z.of_nat T.
Proof. intros. replace (INR T * u / u)%R with (INR T) by (field; lra). rewrite INR_IZR_INZ. apply Rtrunc_IZR. Qed.

Lemma C11_defaults_proof : forall geo N T (x : nat -> nat -> V3 R) idx drift (ts : R) ss o p,
  Forall (valid_site N) drift -> (0 < IZR ss * ts)%R ->
  o_min_dt o = None -> o_max_dt o = None -> o_spacing o = "linear"%string -> 0 <= o_n_steps o ->
  parser_init geo (table N T x) idx drift ts ss o = Ok p ->
  StronglySorted Z.lt (p_intervals p)
  /\ Z.of_nat (length (p_intervals p)) = Z.min (o_n_steps o) (Z.of_nat T)
  /\ Forall (fun z => 1 <= z <= Z.of_nat T) (p_intervals p).
Proof.
  intros geo N T x idx drift ts ss o p Hd Hu E1 E2 E3 Hns.
  rewrite parser_init_unfold by (assumption || lra). set (u := (IZR ss * ts)%R) in *.
  unfold steps_used, min_time, max_time. rewrite E1, E2, E3. rewrite Rtrunc_self by exact Hu.
  destruct (Z.of_nat T <=? 1) eqn:E; [discriminate|]. apply Z.leb_gt in E.
  replace (if Z.of_nat T - 1 + 1 <? o_n_steps o then Z.of_nat T - 1 + 1 else o_n_steps o)
    with (Z.min (o_n_steps o) (Z.of_nat T))
    by (destruct (_ <? _) eqn:E4; [apply Z.ltb_lt in E4|apply Z.ltb_ge in E4]; lia).
  rewrite get_time_intervals_linear by (unfold u in *; lra || lia). fold u. unfold first_interval.
  rewrite Rtrunc_self, Rtrunc_mult_self by exact Hu. cbn [Z.eqb].
  set (m := Z.to_nat (Z.min (o_n_steps o) (Z.of_nat T))). cbn [bind].
  destruct (get_disps _ _ _ _ _ _ _ _); cbn [bind]; [|discriminate].
  intros [= <-]. cbn [p_intervals]. split; [|split].
  - apply sorted_tab. intros i j Hij. apply lin_strict; [unfold m in *; lia|lia].
  - rewrite tab_length. unfold m. lia.
  - apply Forall_forall. intros z Hz. unfold tab in Hz. apply in_map_iff in Hz as (i & <- & Hi).
    apply in_seq in Hi. pose proof (lin_range 1 (Z.of_nat T) m i ltac:(lia) ltac:(lia)). lia.
Qed.
Lemma C11_user_refuted_proof : exists (x : nat -> nat -> V3 R) p,
  parser_init geomspace_R (table 2 4 x) [0;1] [] 1%R 1
     (mkOptions (Some 1) (Some 2) 100 "linear" "multi-origin" 8 8)%R = Ok p
  /\ p_intervals p = [1; 1; 1; 2].
Proof.
  exists (fun a t => zero3).
  rewrite (parser_init_ints geomspace_R 2 4 _ [0;1] [] 1 2 100 "multi-origin" 8 8) by (first [exact (Forall_nil _) | lia]).
  change (tab _ (lin _ 2 _)) with (map Z.of_nat [1;1;1;2]%nat).
  rewrite get_disps_multi' by (repeat constructor; cbn; lia).
  assert (E : Rltb 8 (in_gigabytes (fold_right Z.add 0 (map (estimate (length [0;1]) 4 8) [1;1;1;2]%nat))) = false).
  { apply Rltb_false. unfold in_gigabytes. cbn. lra. }
  rewrite E. cbn [bind]. eexists. split; reflexivity.
Qed.
Lemma C11_user_min_refuted_proof : exists (x : nat -> nat -> V3 R) p,
  parser_init geomspace_R (table 2 3 x) [0;1] [] 1%R 1
     (mkOptions (Some 0) None 100 "linear" "multi-origin" 8 8)%R = Ok p
  /\ p_intervals p = [1; 1; 2; 3].
Proof.
  exists (fun a t => zero3).
  assert (G : forall geo x, parser_init geo (table 2 3 x) [0;1] [] 1%R 1
     (mkOptions (Some 0) None 100 "linear" "multi-origin" 8 8)%R = let! p := parser_init geo (table 2 3 x) [0;1] [] 1%R 1
     (mkOptions (Some 0) (Some 3) 100 "linear" "multi-origin" 8 8)%R in Ok p).
  { intros geo x. unfold parser_init. cbn [correct_drift bind o_max_dt o_min_dt a_obs table o_n_steps o_spacing o_sampling o_memory_limit o_itemsize].
    numR. cbn [Z.of_nat Pos.of_succ_nat Pos.succ].
    replace (3 * (1 * 1))%R with 3%R by lra.
    destruct (py_div 0 (1*1))%R; [|reflexivity]. cbn [bind].
    destruct (py_int a); [|reflexivity]. cbn [bind]. destruct (3 <=? a0); [reflexivity|].
    destruct (get_time_intervals _ _ _ _ _ _ _); [|reflexivity]. cbn [bind].
    destruct (get_disps _ _ _ _ _ _ _ _); reflexivity. }
  rewrite G. clear G.
  rewrite (parser_init_ints geomspace_R 2 3 _ [0;1] [] 0 3 100 "multi-origin" 8 8) by (first [exact (Forall_nil _) | lia]).
  change (tab _ (lin _ 3 _)) with (map Z.of_nat [1;1;2;3]%nat).
  rewrite get_disps_multi' by (repeat constructor; cbn; lia).
  assert (E : Rltb 8 (in_gigabytes (fold_right Z.add 0 (map (estimate (length [0;1]) 3 8) [1;1;2;3]%nat))) = false).
  { apply Rltb_false. unfold in_gigabytes. cbn. lra. }
  rewrite E. cbn [bind]. eexists. split; reflexivity.
Qed.
Lemma C11_user_proof : forall geo (mn mx ts : R) ss a b m, (0 < IZR ss * ts)%R ->
  let u := (IZR ss * ts)%R in
  0 <= a -> (IZR a * u <= mn < IZR (a + 1) * u)%R -> 0 <= b -> (IZR b * u <= mx < IZR (b + 1) * u)%R ->
  0 <= m -> m - 1 <= b - Z.max 1 a ->
  exists l, get_time_intervals geo mn mx ss ts m "linear" = Ok l /\ StronglySorted Z.lt l.
Proof.
  intros geo mn mx ts ss a b m Hu u Ha Hmn Hb Hmx Hm Hab.
  rewrite get_time_intervals_linear by (lra || lia). fold u. unfold first_interval.
  rewrite (trunc_between mn u a), (trunc_between mx u b) by (assumption || lia).
  replace (if a =? 0 then 1 else a) with (Z.max 1 a)
    by (destruct (a =? 0) eqn:E; [apply Z.eqb_eq in E|apply Z.eqb_neq in E]; lia).
  eexists; split; [reflexivity|]. apply sorted_tab. intros i j Hij. apply lin_strict; lia.
Qed.

(** ** C12 *)
Lemma C12_proof : forall (mn mx ts : R) ss a b m, (0 < IZR ss * ts)%R ->
  let u := (IZR ss * ts)%R in
  0 <= a -> (IZR a * u <= mn < IZR (a + 1) * u)%R -> (IZR b * u <= mx < IZR (b + 1) * u)%R ->
  Z.max 1 a <= b -> 0 <= m ->
  exists l, get_time_intervals geomspace_R mn mx ss ts m "logarithmic" = Ok l
    /\ Z.of_nat (length l) <= m /\ StronglySorted Z.lt l
    /\ Forall (fun z => Z.max 1 a <= z <= b) l
    /\ (1 <= m -> In (Z.max 1 a) l) /\ (2 <= m -> In b l).
Proof.
  intros mn mx ts ss a b m Hu u Ha Hmn Hmx Hab Hm.
  rewrite get_time_intervals_log by lra. fold u. unfold first_interval.
  rewrite (trunc_between mn u a), (trunc_between mx u b) by (assumption || lia).
  replace (if a =? 0 then 1 else a) with (Z.max 1 a)
    by (destruct (a =? 0) eqn:E; [apply Z.eqb_eq in E|apply Z.eqb_neq in E]; lia).
  destruct (geomspace_R_ok (Z.max 1 a) b m ltac:(lia) Hm) as (g & -> & Lg & Fg & I1 & I2).
  cbn [bind]. eexists; split; [reflexivity|]. pose proof (unique_length g).
  split; [lia|]. split; [apply unique_sorted|]. split.
  - apply Forall_forall. intros z Hz. apply (proj1 (unique_In _ _)) in Hz.
    rewrite Forall_forall in Fg. auto.
  - split; intros; apply unique_In; auto.
Qed.

(** ** C13 *)
Lemma multi_origin_beyond sel T n : (T < n)%nat ->
  multi_origin (A:=R) (Z.of_nat n) sel T = Raise IndexError.
Proof.
  intros H. unfold multi_origin. rewrite py_from_nat, skipn_all2 by (rewrite seq_length; lia).
  rewrite py_to_opp_nat, seq_length by lia. replace (T - n)%nat with 0%nat by lia. cbn [firstn].
  cbn [broadcast2 length Nat.eqb bind zip_with combine map].
  replace (Z.of_nat n - 1) with (Z.of_nat (n - 1)) by lia. rewrite py_index_nat.
  rewrite (proj2 (nth_error_None _ _)) by (rewrite seq_length; lia). reflexivity.
Qed.
Lemma disps_loop_beyond N T (x : nat -> nat -> V3 R) idx lst tis : forall i,
  Forall (fun n => (0 < n)%nat) tis -> Exists (fun n => (T < n)%nat) tis ->
  disps_loop "multi-origin" (map (fun i => tab T (x (site N i))) idx) T lst i (map Z.of_nat tis)
  = Raise IndexError.
Proof.
  induction tis as [|n tis IH]; intros i Hp He; [inversion He|].
  inversion Hp as [|? ? Hn Ht]; subst. cbn [map disps_loop].
  unfold window. cbn [String.eqb Ascii.eqb Bool.eqb].
  destruct (Nat.le_gt_cases n T) as [HT|HT].
  - rewrite multi_origin_tab by lia. cbn [bind]. rewrite stride_count_nat by lia. cbn [bind].
    rewrite IH; [reflexivity|exact Ht|]. inversion He; subst; [lia|assumption].
  - now rewrite multi_origin_beyond.
Qed.

Lemma C13_beyond_proof : forall geo N T (x : nat -> nat -> V3 R) idx drift (ts : R) ss o,
  Forall (valid_site N) idx -> Forall (valid_site N) drift -> (0 < IZR ss * ts)%R ->
  let u := (IZR ss * ts)%R in
  (0 <= min_time u o < INR T * u)%R -> (INR T * u + u <= max_time T u o)%R ->
  o_spacing o = "linear"%string -> o_sampling o = "multi-origin"%string -> 2 <= o_n_steps o ->
  parser_init geo (table N T x) idx drift ts ss o = Raise IndexError
  \/ parser_init geo (table N T x) idx drift ts ss o = Raise MemoryError.
Proof.
  intros geo N T x idx drift ts ss o Hi Hd Hu u Hmn Hmx E1 E2 Hns.
  rewrite parser_init_unfold by (assumption || lra). fold u.
  pose proof (Rtrunc_div_range (min_time u o) u T Hu ltac:(lra) ltac:(lra)) as R0.
  destruct (Z.of_nat T <=? Rtrunc (min_time u o / u)) eqn:E; [apply Z.leb_le in E; lia|]. clear E.
  assert (Hst : 2 <= steps_used T u o).
  { unfold steps_used. destruct (_ <? _) eqn:E; [apply Z.ltb_lt in E|]; lia. }
  rewrite E1, E2. rewrite get_time_intervals_linear by (lra || lia). fold u. cbn [bind].
  set (a := first_interval u (min_time u o)). set (b := Rtrunc (max_time T u o / u)).
  assert (Ha : 1 <= a).
  { unfold a, first_interval. destruct (Rtrunc _ =? 0) eqn:E; [lia|apply Z.eqb_neq in E; lia]. }
  assert (Hb : Z.of_nat T + 1 <= b).
  { destruct (Rtrunc_div_ge (max_time T u o) u (Z.of_nat T + 1) Hu ltac:(lia)) as [G|G].
    - apply G. rewrite plus_IZR, <- INR_IZR_INZ. lra.
    - pose proof (pos_INR T). nra. }
  set (m := Z.to_nat (steps_used T u o)).
  assert (Hm : (2 <= m)%nat) by (unfold m; lia).
  assert (F : Forall (fun z => 1 <= z <= Z.of_nat (Z.to_nat (Z.max a b))) (tab m (lin a b m))).
  { apply Forall_forall. intros z Hz. unfold tab in Hz. apply in_map_iff in Hz as (i & <- & Hi2).
    apply in_seq in Hi2. pose proof (lin_range_any a b m i ltac:(lia)). lia. }
  destruct (to_nat_list _ _ F) as [F1 F2]. rewrite <- F1.
  set (tis := map Z.to_nat (tab m (lin a b m))) in *.
  assert (Hne : tis <> []).
  { intros C. apply (f_equal (@List.length nat)) in C. unfold tis in C. rewrite map_length, tab_length in C. cbn in C. lia. }
  rewrite get_disps_unfold by assumption.
  destruct (Rltb _ _); [right; reflexivity|left].
  rewrite disps_loop_beyond; [reflexivity| |].
  - eapply Forall_impl; [|exact F2]. cbn. lia.
  - apply Exists_exists. exists (Z.to_nat b). split; [|lia].
    unfold tis. apply in_map_iff. exists b. split; [reflexivity|].
    unfold tab. apply in_map_iff. exists (m - 1)%nat. split; [apply lin_last; lia|apply in_seq; lia].
Qed.
Lemma C13_refuted_proof : exists (x : nat -> nat -> V3 R) (o : Options R),
  (min_time 1 o < INR 2 * 1)%R /\
  parser_init geomspace_R (table 2 2 x) [0;1] [] 1%R 1 o = Raise IndexError.
Proof.
  exists (fun _ _ => zero3), (mkOptions (Some 1) (Some 3) 2 "linear" "multi-origin" 8 8)%R.
  split; [cbn; lra|].
  rewrite (parser_init_ints geomspace_R 2 2 _ [0;1] [] 1 3 2 "multi-origin" 8 8) by (first [exact (Forall_nil _) | lia]).
  change (tab _ (lin _ 3 _)) with (map Z.of_nat [1;3]%nat).
  rewrite get_disps_unfold by (try discriminate; repeat constructor; cbn; lia).
  assert (E : Rltb 8 (in_gigabytes (fold_right Z.add 0 (map (estimate (length [0;1]) 2 8) [1%nat; 3%nat]))) = false).
  { apply Rltb_false. unfold in_gigabytes. cbn. lra. }
  rewrite E. rewrite disps_loop_beyond; [reflexivity|repeat constructor; lia|].
  apply Exists_exists. exists 3%nat. cbn; split; [auto|lia].
Qed.

(** ** C14 *)
Lemma total_bytes_map {T} isz (f : T -> Arr R) (g : T -> Z) l :
  (forall t, In t l -> arr_bytes isz (f t) = g t) ->
  total_bytes isz (map f l) = fold_right Z.add 0 (map g l).
Proof.
  intros H. unfold total_bytes. rewrite map_map. f_equal. apply map_ext_in. exact H.
Qed.
Lemma sum_firstn_le (g : nat -> Z) l k : (forall n, In n l -> 0 <= g n) ->
  fold_right Z.add 0 (map g (firstn k l)) <= fold_right Z.add 0 (map g l).
Proof.
  revert k. induction l as [|a l IH]; intros [|k] H; cbn; try lia.
  - assert (0 <= fold_right Z.add 0 (map g l)).
    { clear IH. induction l as [|b l IH2]; cbn; [lia|]. pose proof (H b ltac:(cbn; auto)).
      assert (forall n, In n (a :: l) -> 0 <= g n) by (intros n [->|Hn]; apply H; cbn; auto).
      specialize (IH2 H1). lia. }
    pose proof (H a ltac:(cbn; auto)). lia.
  - pose proof (IH k ltac:(intros; apply H; cbn; auto)). lia.
Qed.
Lemma estimate_nonneg c T isz n : 0 <= isz -> 0 <= estimate c T isz n.
Proof. intros. unfold estimate. nia. Qed.
Lemma in_gigabytes_mono a b : a <= b -> (in_gigabytes a <= in_gigabytes b)%R.
Proof. intros H. apply IZR_le in H. unfold in_gigabytes. lra. Qed.

Lemma C14_refuse_proof : forall (ts : R) ss idx sampling (mem : R) isz tis N T (x : nat -> nat -> V3 R),
  Forall (valid_site N) idx -> tis <> [] -> Forall (fun n => (0 < n <= T)%nat) tis ->
  (mem < in_gigabytes (total_bytes isz (map (multi_window N T x idx) tis)))%R ->
  get_disps ts ss idx sampling mem isz (map Z.of_nat tis) (table N T x) = Raise MemoryError.
Proof.
  intros ts ss idx sampling mem isz tis N T x Hi Hne Hr Hm.
  rewrite get_disps_unfold by assumption.
  rewrite (total_bytes_map isz _ (estimate (length idx) T isz)) in Hm.
  - apply Rltb_true in Hm. now rewrite Hm.
  - intros n Hn. rewrite Forall_forall in Hr. apply arr_bytes_multi. specialize (Hr n Hn). lia.
Qed.
Lemma C14_within_proof : forall N T (x : nat -> nat -> V3 R) idx drift (ts : R) ss o p,
  Forall (valid_site N) idx -> Forall (valid_site N) drift -> sensible T (IZR ss * ts) o ->
  o_sampling o = "multi-origin"%string \/ o_sampling o = "single-origin"%string -> 0 <= o_itemsize o ->
  parser_init geomspace_R (table N T x) idx drift ts ss o = Ok p ->
  (in_gigabytes (total_bytes (o_itemsize o) (p_disp_3d p)) <= o_memory_limit o)%R.
Proof.
  intros N T x idx drift ts ss o p Hi Hd HS Hs Hz Hp. destruct Hs as [Hs|Hs].
  - destruct (run_multi N T x idx drift ts ss o Hi Hd HS p Hs Hp) as (tis & F1 & F2 & Ef & Em & ->).
    cbn [p_disp_3d]. eapply Rle_trans; [|exact Em]. apply in_gigabytes_mono.
    set (k := length (filter (enough (length idx) T) tis)).
    rewrite (total_bytes_map _ _ (estimate (length idx) T (o_itemsize o))).
    + apply sum_firstn_le. intros. now apply estimate_nonneg.
    + intros n Hn. apply arr_bytes_multi. rewrite Forall_forall in F1.
      assert (In n tis). { rewrite <- (firstn_skipn k tis). apply in_or_app. now left. }
      specialize (F1 n H). lia.
  - destruct (run_single N T x idx drift ts ss o Hi Hd HS p Hs Hp) as (tis & F1 & F2 & Em & ->).
    cbn [p_disp_3d]. eapply Rle_trans; [|exact Em]. apply in_gigabytes_mono.
    set (k := if Nat.ltb 1 (length idx) then Nat.min (length tis) T else 0%nat).
    assert (Hk : (k <= length tis)%nat) by (unfold k; destruct (Nat.ltb _ _); lia).
    unfold tab. rewrite (total_bytes_map _ _ (fun _ => Z.of_nat (length idx) * 3 * o_itemsize o)).
    + clearbody k. clear - Hk Hz. revert k Hk. generalize 0%nat.
      induction tis as [|n tis IH]; intros s [|k] Hk; cbn in *; try lia.
      * pose proof (sum_firstn_le (estimate (length idx) T (o_itemsize o)) (n :: tis) 0
            ltac:(intros; now apply estimate_nonneg)) as G. cbn in G. exact G.
      * specialize (IH (S s) k ltac:(lia)). unfold estimate at 1. nia.
    + intros. apply arr_bytes_single.
Qed.
Lemma C14_exact_proof : forall (ts : R) ss idx (mem : R) isz tis N T (x : nat -> nat -> V3 R),
  Forall (valid_site N) idx -> tis <> [] -> Forall (fun n => (0 < n <= T)%nat) tis ->
  Forall (fun n => (1 < length idx * kept (T - n + 1) n)%nat) tis ->
  (in_gigabytes (total_bytes isz (map (multi_window N T x idx) tis)) <= mem)%R ->
  exists d arrs no, get_disps ts ss idx "multi-origin" mem isz (map Z.of_nat tis) (table N T x) = Ok (d, arrs, no)
    /\ total_bytes isz arrs = total_bytes isz (map (multi_window N T x idx) tis).
Proof.
  intros ts ss idx mem isz tis N T x Hi Hne Hr He Hm.
  rewrite get_disps_multi' by assumption.
  assert (Hm2 := Hm).
  rewrite (total_bytes_map isz _ (estimate (length idx) T isz)) in Hm2.
  2:{ intros n Hn. rewrite Forall_forall in Hr. apply arr_bytes_multi. specialize (Hr n Hn). lia. }
  apply Rltb_false in Hm2. rewrite Hm2.
  do 3 eexists. split; [reflexivity|]. do 2 f_equal.
  clear - He. induction He as [|n tis Hn Ht IH]; [reflexivity|]. cbn [filter].
  unfold enough at 1. apply Nat.ltb_lt in Hn. rewrite Hn. now rewrite IH.
Qed.

(** ** C15 *)
Lemma sorted_last_max l : StronglySorted le l -> forall n, In n l -> (n <= last l 0)%nat.
Proof.
  induction 1 as [|a l Hl IH Ha]; intros n Hn; [destruct Hn|].
  destruct l as [|b l]; [destruct Hn as [->|[]]; reflexivity|].
  change (last (a :: b :: l) 0%nat) with (last (b :: l) 0%nat).
  destruct Hn as [->|Hn]; [|auto].
  apply Nat.le_trans with b; [inversion Ha; auto|]. apply IH. now left.
Qed.
Lemma StronglySorted_nth {A} (R0 : A -> A -> Prop) l i j a b : StronglySorted R0 l -> (i < j)%nat ->
  nth_error l i = Some a -> nth_error l j = Some b -> R0 a b.
Proof.
  intros H. revert i j. induction H as [|c l Hl IH Hc]; intros [|i] [|j] Hij Hi Hj; cbn in *; try lia; try discriminate.
  - injection Hi as ->. rewrite Forall_forall in Hc. apply Hc. eapply nth_error_In; eauto.
  - apply (IH i j); auto. lia.
Qed.

Lemma C15_proof : forall N T (x : nat -> nat -> V3 R) idx drift (ts : R) ss o p,
  Forall (valid_site N) idx -> Forall (valid_site N) drift -> sensible T (IZR ss * ts) o ->
  o_sampling o = "multi-origin"%string -> idx <> [] ->
  parser_init geomspace_R (table N T x) idx drift ts ss o = Ok p ->
  forall k c, nth_error (p_n_o p) k = Some c ->
  exists n big : nat, nth_error (p_intervals p) k = Some (Z.of_nat n)
    /\ In (Z.of_nat big) (p_intervals p) /\ (forall z, In z (p_intervals p) -> z <= Z.of_nat big)
    /\ c = (INR (length idx) * INR big / INR n)%R
    /\ (0 < c)%R /\ (INR (length idx) <= c)%R /\ (n = big -> c = INR (length idx))
    /\ forall k' c', (k < k')%nat -> nth_error (p_n_o p) k' = Some c' -> (c' <= c)%R.
Proof.
  intros N T x idx drift ts ss o p Hi Hd HS Hs Hne Hp.
  destruct (run_multi N T x idx drift ts ss o Hi Hd HS p Hs Hp) as (tis & F1 & F2 & Ef & Em & ->).
  cbn [p_n_o p_intervals].
  set (ks := firstn (length (filter (enough (length idx) T) tis)) tis) in *.
  assert (Hnth : forall k n, nth_error ks k = Some n -> nth_error tis k = Some n).
  { intros k n H. rewrite <- H. symmetry. apply nth_error_firstn.
    assert (Hlt : (k < length ks)%nat) by (apply nth_error_Some; congruence).
    unfold ks in Hlt. rewrite firstn_length in Hlt. lia. }
  intros k c Hk. rewrite nth_error_map in Hk.
  destruct (nth_error ks k) as [n|] eqn:En; [|discriminate]. injection Hk as <-.
  pose proof (Hnth k n En) as Hn. rewrite Forall_forall in F1.
  pose proof (F1 n (nth_error_In _ _ Hn)) as Hr.
  set (big := last tis 0%nat).
  assert (Hbig : In big tis).
  { assert (Hne2 : tis <> []) by (destruct tis; [now destruct k|discriminate]).
    unfold big. destruct (exists_last Hne2) as (l' & b & ->). rewrite last_last. apply in_or_app; right; now left. }
  pose proof (F1 big Hbig) as Hbr.
  pose proof (sorted_last_max tis F2 n (nth_error_In _ _ Hn)) as Hle. fold big in Hle.
  assert (Pn : (0 < INR n)%R) by (apply lt_0_INR; lia).
  assert (Pb : (0 < INR big)%R) by (apply lt_0_INR; lia).
  assert (Pi : (0 < INR (length idx))%R) by (apply lt_0_INR; destruct idx; [congruence|cbn; lia]).
  assert (Pnb : (INR n <= INR big)%R) by (apply le_INR; lia).
  assert (Ec : forall m, obs_count (length idx) (last_interval tis) m = (INR (length idx) * INR big / INR m)%R).
  { intros m. unfold obs_count, last_interval. fold big. now rewrite <- INR_IZR_INZ. }
  rewrite Ec.
  exists n, big. split; [now rewrite nth_error_map, Hn|].
  split; [now apply in_map|]. split.
  { intros z Hz. apply in_map_iff in Hz as (m & <- & Hm). pose proof (sorted_last_max tis F2 m Hm). fold big in H. lia. }
  split; [reflexivity|]. split.
  { apply Rdiv_lt_0_compat; [apply Rmult_lt_0_compat|]; lra. }
  split.
  { apply (Rmult_le_reg_r (INR n)); [lra|]. field_simplify; [|lra]. nra. }
  split; [intros ->; field; lra|].
  intros k' c' Hkk Hk'. rewrite nth_error_map in Hk'.
  destruct (nth_error ks k') as [n'|] eqn:En'; [|discriminate]. injection Hk' as <-. rewrite Ec.
  pose proof (Hnth k' n' En') as Hn'.
  pose proof (StronglySorted_nth le tis k k' n n' F2 Hkk Hn Hn') as Hnn.
  apply Rmult_le_compat_l; [nra|]. apply Rinv_le_contravar; [lra|]. now apply le_INR.
Qed.

(** ** C16 *)
Lemma C16_spacing_proof : forall geo N T (x : nat -> nat -> V3 R) idx drift (ts : R) ss o,
  Forall (valid_site N) drift -> (IZR ss * ts <> 0)%R ->
  o_spacing o <> "linear"%string -> o_spacing o <> "logarithmic"%string ->
  parser_init geo (table N T x) idx drift ts ss o = Raise ValueError.
Proof.
  intros geo N T x idx drift ts ss o Hd Hu H1 H2.
  rewrite parser_init_unfold by assumption. rewrite get_time_intervals_other by assumption.
  now destruct (_ <=? _).
Qed.
Lemma C16_sampling_proof : forall N T (x : nat -> nat -> V3 R) idx drift (ts : R) ss o,
  Forall (valid_site N) idx -> Forall (valid_site N) drift -> sensible T (IZR ss * ts) o -> 1 <= o_n_steps o ->
  o_sampling o <> "single-origin"%string -> o_sampling o <> "multi-origin"%string ->
  parser_init geomspace_R (table N T x) idx drift ts ss o = Raise ValueError
  \/ parser_init geomspace_R (table N T x) idx drift ts ss o = Raise MemoryError.
Proof.
  intros N T x idx drift ts ss o Hi Hd HS Hn H1 H2.
  destruct (Rlt_dec (min_time (IZR ss * ts) o) (INR T * (IZR ss * ts))) as [Hlt|Hge].
  2:{ left. apply rejected; try assumption. lra. }
  destruct (parser_init_sensible N T x idx drift ts ss o Hi Hd HS Hlt) as (tis & F1 & F2 & (F3 & F4) & E).
  rewrite E. rewrite get_disps_unfold by auto. destruct (Rltb _ _); [right; reflexivity|left].
  specialize (F4 Hn). destruct tis as [|n tis]; [congruence|]. cbn [map disps_loop].
  unfold window. apply String.eqb_neq in H1, H2. rewrite H1, H2. reflexivity.
Qed.

(** ** A concrete run: two atoms, four frames, default interval bounds *)
Lemma parser_init_same_times geo N T (x : nat -> nat -> V3 R) idx drift (ts : R) ss o o' :
  Forall (valid_site N) drift -> (IZR ss * ts <> 0)%R ->
  let u := (IZR ss * ts)%R in
  min_time u o = min_time u o' -> max_time T u o = max_time T u o' ->
  o_n_steps o = o_n_steps o' -> o_spacing o = o_spacing o' -> o_sampling o = o_sampling o' ->
  o_memory_limit o = o_memory_limit o' -> o_itemsize o = o_itemsize o' ->
  parser_init geo (table N T x) idx drift ts ss o = parser_init geo (table N T x) idx drift ts ss o'.
Proof.
  intros Hd Hu u E1 E2 E3 E4 E5 E6 E7. rewrite !parser_init_unfold by assumption. fold u.
  unfold steps_used. now rewrite E1, E2, E3, E4, E5, E6, E7.
Qed.

Definition demo_disp : Arr R := table 2 4 (fun a t => mkV (INR (t * t) * INR (S a)) (- INR t) 1)%R.
Definition demo_opts (sampling : string) : Options R := mkOptions None None 100 "linear" sampling 8%R 8.
Lemma demo_multi : parser_init geomspace_R demo_disp [0;1] [] 1%R 1 (demo_opts "multi-origin")
  = Ok (mkParsed [1;2;3;4] [1;2;3;4]%R
         (map (multi_window 2 4 (fun a t => mkV (INR (t * t) * INR (S a)) (- INR t) 1)%R [0;1]) [1;2;3;4]%nat)
         [8;4;8/3;2]%R demo_disp [0;1] [] 1%R 4%R None).
Proof.
  unfold demo_disp, demo_opts.
  rewrite (parser_init_same_times geomspace_R 2 4 _ [0;1] [] 1%R 1 _
     (mkOptions (Some 1) (Some 4) 100 "linear" "multi-origin" 8 8)%R)
    by (first [exact (Forall_nil _) | unfold min_time, max_time; cbn; lra | reflexivity]).
  rewrite (parser_init_ints geomspace_R 2 4 _ [0;1] [] 1 4 100 "multi-origin" 8 8)
    by (first [exact (Forall_nil _) | lia]).
  change (tab _ (lin _ 4 _)) with (map Z.of_nat [1;2;3;4]%nat).
  rewrite get_disps_multi' by (repeat constructor; cbn; lia).
  assert (E : Rltb 8 (in_gigabytes (fold_right Z.add 0 (map (estimate (length [0;1]) 4 8) [1;2;3;4]%nat))) = false).
  { apply Rltb_false. unfold in_gigabytes. cbn. lra. }
  rewrite E. cbn [bind fst snd].
  change (filter (enough (length [0;1]) 4) [1%nat; 2%nat; 3%nat; 4%nat]) with [1%nat;2%nat;3%nat;4%nat].
  unfold corrected.
  assert (E1 : delta_ts 1 1 [1%nat;2%nat;3%nat;4%nat] = [1;2;3;4]%R)
    by (unfold delta_ts; cbn; repeat f_equal; lra).
  assert (E2 : map (obs_count (length [0; 1]) (Z.of_nat (last [1%nat;2%nat;3%nat;4%nat] 0%nat))) [1%nat;2%nat;3%nat;4%nat]
    = [8;4;8/3;2]%R).
  { unfold obs_count. cbn. repeat f_equal; lra. }
  rewrite E1, E2. reflexivity.
Qed.
Lemma demo_sensible s : sensible 4 (IZR 1 * 1) (demo_opts s).
Proof. constructor; unfold min_time, max_time; cbn; try lra; try lia. now left. Qed.
Lemma demo_valid : Forall (valid_site 2) [0;1].
Proof. repeat constructor; cbn; lia. Qed.

(** ** The input form [table N T x] is no restriction *)
Lemma list_is_tab {A} (d : A) (l : list A) n : length l = n -> l = tab n (fun i => nth i l d).
Proof.
  intros <-. apply list_ext. intros i. destruct (Nat.lt_ge_cases i (length l)) as [H|H].
  - rewrite tab_nth_error by exact H. apply nth_error_nth'. exact H.
  - rewrite !(proj2 (nth_error_None _ _)); [reflexivity|rewrite tab_length|]; exact H.
Qed.
Lemma rectangular_is_table (a : Arr R) N : shape (a_rows a) N (a_obs a) ->
  exists x, a = table N (a_obs a) x.
Proof.
  destruct a as [T rows]. cbn [a_obs a_rows]. intros [Hn Hr].
  exists (fun i t => nth t (nth i rows []) zero3). unfold table. f_equal.
  etransitivity; [apply (list_is_tab [] rows N Hn)|]. unfold tab at 1 2. apply map_ext_in.
  intros i Hi. apply in_seq in Hi. apply (list_is_tab zero3). rewrite Forall_forall in Hr. apply Hr.
  apply nth_In. lia.
Qed.
