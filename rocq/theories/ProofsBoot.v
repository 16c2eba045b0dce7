(** * ProofsBoot: the bootstrap constructors (C25-C33, C51) *)
From Verif Require Import Base Spec SpecStats ModelDiffusion Lemmas SpecRun.
From Coq Require Import Reals Lra Lia Arith Ascii Permutation.
Open Scope Z_scope.

Tactic Notation "inv_bind" hyp(H) ident(x) ident(E) :=
  apply bind_ok in H as (x & E & H).

(** ** Dimensions *)
Lemma lower_char_x c : lower_char c = "x"%char <-> axis_of_letter c = Some AX.
Proof. destruct c as [[] [] [] [] [] [] [] []]; cbv; split; congruence. Qed.
Lemma lower_char_y c : lower_char c = "y"%char <-> axis_of_letter c = Some AY.
Proof. destruct c as [[] [] [] [] [] [] [] []]; cbv; split; congruence. Qed.
Lemma lower_char_z c : lower_char c = "z"%char <-> axis_of_letter c = Some AZ.
Proof. destruct c as [[] [] [] [] [] [] [] []]; cbv; split; congruence. Qed.
Definition letter (a : axis) : ascii := match a with AX => "x" | AY => "y" | AZ => "z" end%char.
Lemma lower_letter c a : lower_char c = letter a <-> axis_of_letter c = Some a.
Proof. destruct a; [apply lower_char_x | apply lower_char_y | apply lower_char_z]. Qed.
Lemma lower_spec s l :
  lower s = string_of_list_ascii (map letter l) <->
  map axis_of_letter (list_ascii_of_string s) = map Some l.
Proof.
  revert l. induction s as [|c s IH]; intros [|a l]; cbn; try (split; congruence).
  split.
  - intros [= H1 H2]. apply lower_letter in H1. rewrite H1. f_equal. now apply IH.
  - intros [= H1 H2]. apply lower_letter in H1. rewrite H1. f_equal. now apply IH.
Qed.

Definition slice_axes (sl : axis_slice) (axes : list axis) : Prop :=
  forall v : V3 R, apply_slice sl (components v) = Ok (map (coord v) axes).

Definition axes_table : list (list axis * axis_slice) :=
  [([AX], SIx 0); ([AY], SIx 1); ([AZ], SIx 2); ([AX;AY], STo 2); ([AX;AZ], SStep 2); ([AY;AZ], SFrom 1);
   ([AX;AY;AZ], SAll)].
Lemma axes_table_ok : Forall (fun p => slice_axes (snd p) (fst p)) axes_table.
Proof. repeat constructor. Qed.
Lemma increasing_in_table axes : axes <> [] -> increasing_axes axes -> exists sl, In (axes, sl) axes_table.
Proof.
  intros H1 H2. destruct axes as [|a [|b [|c [|d l]]]]; [congruence|..].
  - destruct a; cbn; eexists; eauto 10.
  - destruct a, b; cbn in *; try lia; eexists; eauto 10.
  - destruct a, b, c; cbn in *; try lia; eexists; eauto 10.
  - destruct a, b, c, d; cbn in H2; try lia.
Qed.
Lemma dict_get_axes s : forall wrap, wrap = PyStr \/ wrap = PyBytes ->
  (exists axes sl, In (axes, sl) axes_table /\ lower s = string_of_list_ascii (map letter axes)
     /\ dict_get (wrap (lower s)) DIMENSIONALITY = Ok sl)
  \/ (forall axes sl, In (axes, sl) axes_table -> lower s <> string_of_list_ascii (map letter axes))
     /\ dict_get (wrap (lower s)) DIMENSIONALITY = Raise KeyError.
Proof.
  intros wrap Hw. generalize (lower s) as t. intros t.
  assert (HD : forall sl axes, In (axes, sl) axes_table ->
             dict_get (wrap (string_of_list_ascii (map letter axes))) DIMENSIONALITY = Ok sl).
  { intros sl axes H. repeat (destruct H as [H|H]; [injection H as <- <-; destruct Hw as [-> | ->]; reflexivity|]). destruct H. }
  destruct (List.in_dec String.string_dec t (map (fun p => string_of_list_ascii (map letter (fst p))) axes_table)) as [H|H].
  - left. apply in_map_iff in H as ([axes sl] & H1 & H2). cbn [fst] in H1. exists axes, sl.
    rewrite <- H1. auto.
  - right. assert (Hn : forall axes sl, In (axes, sl) axes_table -> t <> string_of_list_ascii (map letter axes)).
    { intros axes sl Hi He. apply H. rewrite He.
      apply (in_map (fun p : list axis * axis_slice => string_of_list_ascii (map letter (fst p))) _ _ Hi). }
    split; [exact Hn|].
    assert (Hk : forall k, In k ["x"; "y"; "z"; "xy"; "xz"; "yz"; "xyz"]%string -> String.eqb t k = false).
    { intros k Hi. apply String.eqb_neq. intros ->.
      repeat (destruct Hi as [<-|Hi]; [apply H; cbn; auto 10|]). destruct Hi. }
    unfold DIMENSIONALITY.
    destruct Hw as [-> | ->]; cbn [dict_get pystr_eqb];
      rewrite !Hk by (cbn; auto 10); reflexivity.
Qed.

Lemma lower_length s : String.length (lower s) = String.length s.
Proof. induction s; cbn; congruence. Qed.
Lemma length_list_ascii s : length (list_ascii_of_string s) = String.length s.
Proof. induction s; cbn; congruence. Qed.
Lemma map_Some_inj {T} (a b : list T) : map Some a = map Some b -> a = b.
Proof. revert b. induction a; intros [|]; cbn; try congruence. intros [= -> H]. f_equal. auto. Qed.

(** Lookup of a dimension: the named axes and their number, or KeyError. *)
Lemma dimension_lookup d :
  (exists axes sl, names (pystr_text d) axes /\ dict_get (pystr_lower d) DIMENSIONALITY = Ok sl
     /\ slice_axes sl axes /\ pystr_len (pystr_lower d) = length axes)
  \/ ((forall axes, ~ names (pystr_text d) axes) /\ dict_get (pystr_lower d) DIMENSIONALITY = Raise KeyError).
Proof.
  assert (H : exists wrap s, (wrap = PyStr \/ wrap = PyBytes) /\ d = wrap s).
  { destruct d as [s|s]; [exists PyStr, s | exists PyBytes, s]; auto. }
  destruct H as (wrap & s & Hw & Hd).
  assert (E1 : pystr_text d = s) by (destruct Hw as [-> | ->]; subst d; reflexivity).
  assert (E2 : pystr_lower d = wrap (lower s)) by (destruct Hw as [-> | ->]; subst d; reflexivity).
  assert (E3 : pystr_len (pystr_lower d) = String.length s)
    by (destruct Hw as [-> | ->]; subst d; cbn; apply lower_length).
  rewrite E1, E2.
  destruct (dict_get_axes s wrap Hw) as [(axes & sl & Hi & Hl & Hg)|[Hn Hg]].
  - left. exists axes, sl.
    assert (HN : names s axes).
    { split; [now apply lower_spec|].
      repeat (destruct Hi as [Hi|Hi]; [injection Hi as <- <-; cbn; split; [congruence|lia]|]). destruct Hi. }
    split; [exact HN|]. split; [exact Hg|]. split.
    + pose proof axes_table_ok as HT. rewrite Forall_forall in HT. apply (HT (axes, sl) Hi).
    + rewrite <- E2, E3. destruct HN as [HN _]. apply (f_equal (@List.length _)) in HN.
      rewrite !map_length, length_list_ascii in HN. exact HN.
  - right. split; [|exact Hg]. intros axes (H1 & H2 & H3).
    destruct (increasing_in_table axes H2 H3) as (sl & Hi). apply (Hn axes sl Hi). now apply lower_spec.
Qed.
Lemma names_unique s a b : names s a -> names s b -> a = b.
Proof. intros (H1 & _) (H2 & _). apply map_Some_inj. congruence. Qed.

(** ** bootstrap_init *)
Section Boot.
  Context {G Seed RS : Type} (X : Ext R G Seed RS).

  Lemma bootstrap_init_ok dts (disps : list (Arr R)) n_o k dim b :
    bootstrap_init dts disps n_o k dim = Ok b ->
    exists axes, names (pystr_text dim) axes /\ slice_axes (b_slice b) axes /\ b_dims b = length axes
      /\ py_stride k disps = Ok (b_displacements b) /\ py_stride k dts = Ok (b_delta_t b)
      /\ b = mkBoot (b_displacements b) (b_delta_t b) (b_max_obs b) [] [] [] [] [] [] [] [] n_o [] k dim
               [] None None None None None None None (b_slice b) None (b_dims b) None None
      /\ exists d0, nth_error (b_displacements b) 0 = Some d0 /\ b_max_obs b = a_obs d0.
  Proof.
    unfold bootstrap_init. intros H. inv_bind H ds E1. inv_bind H ts E2. inv_bind H d0 E3. inv_bind H sl E4.
    injection H as <-. cbn.
    destruct (dimension_lookup dim) as [(axes & sl' & H1 & H2 & H3 & H4)|[_ H1]]; [|congruence].
    assert (sl' = sl) by congruence. subst sl'. exists axes.
    split; [assumption|]. split; [assumption|]. split; [assumption|]. split; [assumption|]. split; [assumption|].
    split; [reflexivity|].
    exists d0. split; [|reflexivity]. change 0 with (Z.of_nat 0) in E3. rewrite py_index_nat in E3.
    destruct ds; [discriminate|]. now injection E3 as ->.
  Qed.

  (** ** The loop *)

  Definition csize (quantity : Arr R -> list (list (list R)) -> Res (list R)) sl (d : Arr R) (m : nat) : Prop :=
    exists ds q, disp_slice sl d = Ok ds /\ quantity d ds = Ok q /\ length q = m.

  (** What one analysed interval contributes. *)
  Record contributes (u : BootParams R) quantity (n_samples : R -> nat -> R) (n_o dts : list R) sl
      (i : nat) (d : Arr R) (b : Boot R) : Prop := {
    co_dt : nth_error (b_dt b) i = nth_error dts i /\ (i < length dts)%nat;
    co_vals : exists ds q n v, disp_slice sl d = Ok ds /\ quantity d ds = Ok q /\ (1 < length q)%nat
      /\ nth_error (b_n b) i = Some n /\ nth_error (b_v b) i = Some v
      /\ nth_error (b_s b) i = Some (x_sqrt X v)
      /\ nth_error (b_ngp b) i = Some (ngp_calculation (d_squared ds))
      /\ nth_error (b_euclidian b) i = Some (map (x_sqrt X) (d_squared ds))
      /\ (if u_block u then n = fst (x_reblock X q) /\ v = nsq (snd (x_reblock X q))
          else n = nmean q /\ exists no, nth_error n_o i = Some no
               /\ v = (nvar q / n_samples no (length (a_rows d)))%R)
      /\ (u_bootstrap u = true -> exists no g distro w g', nth_error n_o i = Some no
           /\ sample_until_normal X g q (n_samples no (length (a_rows d))) (u_n_resamples u)
                (u_max_resamples u) (u_alpha u) = Some (Ok (distro, w, g'))
           /\ nth_error (b_distributions b) i = Some distro
           /\ nth_error (b_n_bootstrap b) i = Some (nmean distro)
           /\ nth_error (b_v_bootstrap b) i = Some (nvar distro)
           /\ nth_error (b_s_bootstrap b) i = Some (x_sqrt X (nvar distro))) }.

  Record analysed (u : BootParams R) quantity n_samples (n_o dts : list R) sl (pre : list (Arr R)) (m : nat)
      (b : Boot R) : Prop := {
    an_le : (m <= length pre)%nat;
    an_n : length (b_n b) = m; an_v : length (b_v b) = m; an_s : length (b_s b) = m;
    an_dt : length (b_dt b) = m; an_ngp : length (b_ngp b) = m; an_eucl : length (b_euclidian b) = m;
    an_boot : let k := if u_bootstrap u then m else 0%nat in
      length (b_distributions b) = k /\ length (b_n_bootstrap b) = k /\ length (b_v_bootstrap b) = k
      /\ length (b_s_bootstrap b) = k;
    an_entry : forall i d, (i < m)%nat -> nth_error pre i = Some d ->
      contributes u quantity n_samples n_o dts sl i d b;
    an_skip : forall i d, (m <= i)%nat -> nth_error pre i = Some d ->
      exists c, csize quantity sl d c /\ (c <= 1)%nat }.

  (** The parts of the object the loop never changes. *)
  Definition frame_of (b : Boot R) :=
    (b_displacements b, b_delta_t b, b_max_obs b, b_n_o b, b_sub_sample_dt b, b_dimension b,
     (b_D b, b_DJ b, b_sigma b, b_intercept b, b_gradient b, b_flatchain b, b_covariance b),
     b_slice b, b_start_dt b, b_dims b, b_model b, b_cond_max b).

  Lemma nth_app_l {T} (l r : list T) i x : nth_error l i = Some x -> nth_error (l ++ r) i = Some x.
  Proof. intros H. rewrite nth_error_app1; [exact H|]. apply nth_error_Some. congruence. Qed.
  Lemma nth_app_end {T} (l : list T) x : nth_error (l ++ [x]) (length l) = Some x.
  Proof. rewrite nth_error_app2 by lia. now rewrite Nat.sub_diag. Qed.
  Lemma nth_app_end' {T} (l : list T) x i : i = length l -> nth_error (l ++ [x]) i = Some x.
  Proof. intros ->. apply nth_app_end. Qed.

  Lemma contributes_keep u quantity n_samples n_o dts sl i d b eucl boot n v s ngp dt :
    contributes u quantity n_samples n_o dts sl i d b ->
    contributes u quantity n_samples n_o dts sl i d (push_results b eucl boot n v s ngp dt).
  Proof.
    intros [[H1 H1'] (ds & q & n' & v' & H2 & H3 & H4 & H5 & H6 & H7 & H8 & H9 & H10 & H11)].
    split; cbn [push_results b_dt b_n b_v b_s b_ngp b_euclidian b_distributions b_n_bootstrap b_v_bootstrap b_s_bootstrap].
    - split; [|exact H1']. destruct (nth_error dts i) eqn:E.
      + now apply nth_app_l.
      + apply nth_error_None in E. lia.
    - exists ds, q, n', v'. repeat (split; [first [assumption|now apply nth_app_l]|]).
      intros Hb. destruct (H11 Hb) as (no & g & distro & w & g' & K1 & K2 & K3 & K4 & K5 & K6).
      exists no, g, distro, w, g'. repeat (split; [first [assumption|now apply nth_app_l]|]). now apply nth_app_l.
  Qed.

  Lemma boot_step_inv u quantity n_samples n_o pre d m b g b' g' :
    analysed u quantity n_samples n_o (b_delta_t b) (b_slice b) pre m b ->
    boot_step X u quantity n_samples n_o (length pre) d b g = Ok (b', g') ->
    frame_of b' = frame_of b /\
    exists m', analysed u quantity n_samples n_o (b_delta_t b) (b_slice b) (pre ++ [d]) m' b'.
  Proof.
    intros HA H. unfold boot_step in H. inv_bind H ds E1. inv_bind H q E2.
    destruct (length q <=? 1)%nat eqn:E3.
    - (* skipped *)
      injection H as <- <-. split; [reflexivity|]. exists m. apply Nat.leb_le in E3.
      destruct HA as [A0 A1 A2 A3 A4 A5 A6 A7 A8 A9]. split; try assumption.
      + rewrite app_length; lia.
      + intros i d' Hi Hd. rewrite nth_error_app1 in Hd by lia. now apply A8.
      + intros i d' Hi Hd. destruct (Nat.lt_ge_cases i (length pre)) as [Hlt|Hge].
        * rewrite nth_error_app1 in Hd by lia. now apply (A9 i).
        * rewrite nth_error_app2 in Hd by lia. destruct (i - length pre)%nat; [|destruct n; discriminate].
          injection Hd as <-. exists (length q). split; [|exact E3]. exists ds, q. auto.
    - apply Nat.leb_gt in E3. inv_bind H bt E4. destruct bt as [boot g1]. inv_bind H nv E5. destruct nv as [n v].
      inv_bind H vi E6. inv_bind H dt E7. injection H as <- <-. split; [reflexivity|].
      destruct HA as [A0 A1 A2 A3 A4 A5 A6 A7 A8 A9].
      rewrite py_index_nat in E6. destruct (nth_error (b_v b ++ [v]) (length pre)) as [vi'|] eqn:E8; [|discriminate].
      injection E6 as ->.
      assert (Hm : m = length pre).
      { assert (nth_error (b_v b ++ [v]) (length pre) <> None) by congruence.
        apply nth_error_Some in H. rewrite app_length in H. cbn in H. lia. }
      subst m. rewrite nth_app_end' in E8 by congruence. injection E8 as <-.
      rewrite py_index_nat in E7. destruct (nth_error (b_delta_t b) (length pre)) as [dt'|] eqn:E9; [|discriminate].
      injection E7 as ->.
      exists (S (length pre)). split.
      + rewrite app_length; cbn; lia.
      + cbn; rewrite app_length; cbn; lia.
      + cbn; rewrite app_length; cbn; lia.
      + cbn; rewrite app_length; cbn; lia.
      + cbn; rewrite app_length; cbn; lia.
      + cbn; rewrite app_length; cbn; lia.
      + cbn; rewrite app_length; cbn; lia.
      + cbn [push_results b_distributions b_n_bootstrap b_v_bootstrap b_s_bootstrap]. cbv zeta.
        destruct A7 as (B1 & B2 & B3 & B4). destruct (u_bootstrap u).
        * inv_bind E4 no F1. destruct (sample_until_normal _ _ _ _ _ _ _) as [[[[distro w] g2]|e]|]; try discriminate.
          injection E4 as <- <-. rewrite !app_length. cbn. lia.
        * injection E4 as <- <-. rewrite !app_length. cbn. lia.
      + intros i d' Hi Hd. destruct (Nat.lt_ge_cases i (length pre)) as [Hlt|Hge].
        * rewrite nth_error_app1 in Hd by lia. apply contributes_keep. exact (A8 i d' ltac:(lia) Hd).
        * assert (i = length pre) by lia. subst i. rewrite nth_app_end in Hd. injection Hd as <-.
          split; cbn [push_results b_dt b_n b_v b_s b_ngp b_euclidian b_distributions b_n_bootstrap b_v_bootstrap b_s_bootstrap].
          -- split; [rewrite nth_app_end' by congruence; now symmetry|]. apply nth_error_Some. congruence.
          -- exists ds, q, n, v. split; [exact E1|]. split; [exact E2|]. split; [exact E3|].
             rewrite !nth_app_end' by congruence. repeat (split; [reflexivity|]). split.
             ++ destruct (u_block u).
                ** destruct (x_reblock X q) as [mn se]. injection E5 as <- <-. cbn. auto.
                ** inv_bind E5 no F1. injection E5 as <- <-. split; [reflexivity|].
                   rewrite py_index_nat in F1. destruct (nth_error n_o (length pre)) as [no'|] eqn:F2; [|discriminate].
                   injection F1 as ->. exists no. split; reflexivity.
             ++ intros Hb. rewrite Hb in E4, A7. destruct A7 as (B1 & B2 & B3 & B4). inv_bind E4 no F1.
                rewrite py_index_nat in F1. destruct (nth_error n_o (length pre)) as [no'|] eqn:F2; [|discriminate].
                injection F1 as ->.
                destruct (sample_until_normal _ _ _ _ _ _ _) as [[[[distro w] g2]|e]|] eqn:F3; try discriminate.
                injection E4 as <- <-. exists no, g, distro, w, g2.
                rewrite !nth_app_end' by congruence. auto 10.
      + intros i d' Hi Hd. assert (nth_error (pre ++ [d]) i <> None) by congruence.
        apply nth_error_Some in H. rewrite app_length in H. cbn in H. lia.
  Qed.

  Lemma boot_loop_inv u quantity n_samples n_o dts sl rest : forall pre m b g b' g',
    b_delta_t b = dts -> b_slice b = sl ->
    analysed u quantity n_samples n_o dts sl pre m b ->
    boot_loop X u quantity n_samples n_o (length pre) rest b g = Ok (b', g') ->
    frame_of b' = frame_of b /\ exists m', analysed u quantity n_samples n_o dts sl (pre ++ rest) m' b'.
  Proof.
    induction rest as [|d rest IH]; intros pre m b g b' g' Hd Hs HA H.
    - injection H as <- <-. split; [reflexivity|]. exists m. now rewrite app_nil_r.
    - cbn [boot_loop] in H. inv_bind H bg E1. destruct bg as [b1 g1]. subst dts sl.
      destruct (boot_step_inv _ _ _ _ _ _ _ _ _ _ _ HA E1) as (F1 & m1 & A1).
      assert (D1 : b_delta_t b1 = b_delta_t b) by (unfold frame_of in F1; congruence).
      assert (S1 : b_slice b1 = b_slice b) by (unfold frame_of in F1; congruence).
      replace (S (length pre)) with (length (pre ++ [d])) in H by (rewrite app_length; cbn; lia).
      destruct (IH (pre ++ [d])%list m1 b1 g1 b' g' D1 S1 A1 H) as (F2 & m2 & A2).
      split; [congruence|]. exists m2. now rewrite <- app_assoc in A2.
  Qed.

  Lemma analysed_start u quantity n_samples n_o dts disps no' k dim b :
    bootstrap_init dts disps no' k dim = Ok b ->
    analysed u quantity n_samples n_o (b_delta_t b) (b_slice b) [] 0 b.
  Proof.
    intros H. apply bootstrap_init_ok in H as (axes & _ & _ & _ & _ & _ & -> & _).
    split; cbn; try reflexivity; try lia.
    - destruct (u_bootstrap u); auto.
    - intros i d _ Hd. destruct i; discriminate.
  Qed.

  (** ** Sliced arrays are the chosen coordinates *)
  Lemma disp_slice_axes sl axes (d : Arr R) : slice_axes sl axes ->
    disp_slice sl d = Ok (map (map (fun v => map (coord v) axes)) (a_rows d)).
  Proof.
    intros H. unfold disp_slice. apply mapM_total. intros row _. unfold slice_row.
    apply mapM_total. intros v _. apply H.
  Qed.
  Lemma sq_norm_coord axes v : sq_norm (map (coord v) axes) = sqlen axes v.
  Proof. unfold sq_norm, sqlen. rewrite nsum_R, map_map. reflexivity. Qed.
  Lemma d_squared_axes axes (rows : list (list (V3 R))) :
    d_squared (map (map (fun v => map (coord v) axes)) rows) = map (sqlen axes) (List.concat rows).
  Proof.
    unfold d_squared. rewrite map_map, concat_map. f_equal. apply map_ext. intros row.
    rewrite map_map. apply map_ext. intros v. apply sq_norm_coord.
  Qed.
  Lemma nmean_average (l : list R) : nmean l = average l.
  Proof. apply nmean_R. Qed.
  Lemma nvar_sample (l : list R) : nvar l = sample_variance l.
  Proof.
    unfold nvar, sample_variance. rewrite nsum_R, nmean_average. numR.
    rewrite minus_IZR, <- INR_IZR_INZ. reflexivity.
  Qed.
  Lemma ngp_non_gaussian (l : list R) : ngp_calculation l = non_gaussian l.
  Proof.
    unfold ngp_calculation, non_gaussian. rewrite !nmean_average. numR. unfold nsq. numR.
    f_equal. f_equal; ring.
  Qed.
  Lemma average_map {T} (f : T -> R) l : average (map f l) = (rsum (map f l) / INR (length l))%R.
  Proof. unfold average. now rewrite map_length. Qed.

  (** Collective motion. *)
  Lemma at_time_wf (d : Arr R) t : arr_wf d -> (t < a_obs d)%nat ->
    at_time d t = map (fun row => nth t row zero3) (a_rows d).
  Proof.
    intros H Ht. unfold at_time. induction H as [|row rows Hr H IH]; [reflexivity|]. cbn.
    rewrite IH. rewrite (nth_error_nth' row zero3) by lia. reflexivity.
  Qed.
  Lemma coord_sum3 l a : coord (sum3 l) a = rsum (map (fun v => coord v a) l).
  Proof. destruct a; reflexivity. Qed.
  Lemma map_nth_axes {T} (f : axis -> T) axes :
    map (fun k => f (nth k axes AX)) (seq 0 (length axes)) = map f axes.
  Proof. rewrite <- (map_map (fun k => nth k axes AX) f). now rewrite map_nth_seq. Qed.
  Lemma coll_motion_axes axes (d : Arr R) : arr_wf d ->
    coll_motion (a_obs d) (length axes) (map (map (fun v => map (coord v) axes)) (a_rows d))
    = tab (a_obs d) (fun t => sqlen axes (sum3 (at_time d t))).
  Proof.
    intros H. unfold coll_motion, sum_atoms, tab. rewrite map_map. apply map_seq_ext. intros t Ht.
    rewrite <- (sq_norm_coord axes), at_time_wf by assumption. f_equal.
    rewrite <- map_nth_axes. apply map_seq_ext. intros k Hk. rewrite nsum_R, map_map, coord_sum3, map_map.
    f_equal. apply map_ext_in. intros row Hr. unfold arr_wf in H. rewrite Forall_forall in H. specialize (H row Hr).
    rewrite (nth_indep (map _ row) [] ((fun v => map (coord v) axes) zero3)) by (rewrite map_length; lia).
    rewrite (map_nth (fun v => map (coord v) axes)).
    rewrite (nth_indep _ n0 (coord (nth t row zero3) AX)) by (rewrite map_length; lia).
    now rewrite map_nth.
  Qed.
  Lemma zip_map_r {P Q S} (f : P -> Q -> S) a b : zip_with f a b = map (fun p => f (fst p) (snd p)) (combine a b).
  Proof. reflexivity. Qed.
  Definition weigh (q : list R) (d : Arr R) : Arr R :=
    mkArr (a_obs d) (zip_with (fun c row => map (scale3 c) row) q (a_rows d)).
  Lemma weigh_wf q d : arr_wf d -> arr_wf (weigh q d).
  Proof.
    unfold arr_wf, weigh. cbn. intros H. revert q. induction H as [|row rows Hr H IH]; intros [|c q]; cbn; try constructor.
    - now rewrite map_length. - apply IH.
  Qed.
  Lemma weigh_at_time q d t : length q = length (a_rows d) -> arr_wf d -> (t < a_obs d)%nat ->
    at_time (weigh q d) t = map (fun p => scale3 (fst p) (snd p)) (combine q (at_time d t)).
  Proof.
    intros Hq H Ht. unfold at_time, weigh. cbn [a_rows]. revert q Hq. unfold arr_wf in H.
    induction H as [|row rows Hr H IH]; intros [|c q] Hq; try discriminate; [reflexivity|].
    cbn. unfold zip_with in IH. rewrite IH by (cbn in Hq; lia). rewrite nth_error_map.
    rewrite (nth_error_nth' row zero3) by lia. reflexivity.
  Qed.
  Lemma sq_chg_motion_axes q (d : Arr R) : length q = length (a_rows d) -> arr_wf d ->
    sq_chg_motion q d = Ok (tab (a_obs d) (fun t => sqlen all_axes
        (sum3 (map (fun p => scale3 (fst p) (snd p)) (combine q (at_time d t)))))).
  Proof.
    intros Hq H. unfold sq_chg_motion, broadcast2. rewrite (proj2 (Nat.eqb_eq _ _) Hq). cbn [bind]. f_equal.
    transitivity (coll_motion (a_obs (weigh q d)) (length all_axes)
                    (map (map (fun v => map (coord v) all_axes)) (a_rows (weigh q d)))).
    - unfold weigh. cbn [a_obs a_rows length all_axes]. f_equal. unfold zip_with. rewrite map_map.
      apply map_ext. intros [c row]. cbn [fst snd]. rewrite map_map. apply map_ext. intros v. reflexivity.
    - rewrite coll_motion_axes by now apply weigh_wf. unfold tab. cbn [a_obs weigh].
      apply map_seq_ext. intros t Ht. now rewrite weigh_at_time.
  Qed.

  (** ** From the loop invariant to lists *)
  Lemma list_of_entries {T} (l : list T) pre m (f : Arr R -> T) :
    length l = m -> (m <= length pre)%nat ->
    (forall i d, (i < m)%nat -> nth_error pre i = Some d -> nth_error l i = Some (f d)) ->
    l = map f (firstn m pre).
  Proof.
    intros Hl Hm H. apply list_ext. intros i. rewrite nth_error_map.
    destruct (Nat.lt_ge_cases i m) as [Hi|Hi].
    - destruct (nth_error pre i) as [d|] eqn:E.
      + rewrite (H i d Hi E). rewrite <- (firstn_skipn m pre) in E.
        rewrite nth_error_app1 in E by (rewrite firstn_length; lia). now rewrite E.
      + apply nth_error_None in E. lia.
    - rewrite (proj2 (nth_error_None l i)) by lia.
      rewrite (proj2 (nth_error_None (firstn m pre) i)) by (rewrite firstn_length; lia). reflexivity.
  Qed.
  Lemma firstn_nth {T} (l : list T) m i : (i < m)%nat -> nth_error (firstn m l) i = nth_error l i.
  Proof.
    revert m i. induction l as [|x l IH]; intros [|m] [|i] H; try lia; try reflexivity. cbn. apply IH. lia.
  Qed.

  Record boot_report (u : BootParams R) (n_samples : R -> nat -> R) (n_o dts : list R) (axes : list axis)
      (Qf : Arr R -> list R) (used shown : list (Arr R)) (b : Boot R) : Prop := {
    br_shown : leading (fun d => 1 < length (Qf d))%nat used shown;
    br_dt : b_dt b = firstn (length shown) dts;
    br_dt_len : length (b_dt b) = length shown;
    br_ngp : b_ngp b = map (fun d => non_gaussian (map (sqlen axes) (entries d))) shown;
    br_eucl : b_euclidian b = map (fun d => map (fun v => x_sqrt X (sqlen axes v)) (entries d)) shown;
    br_n_len : length (b_n b) = length shown;
    br_v_len : length (b_v b) = length shown;
    br_s : b_s b = map (x_sqrt X) (b_v b);
    br_n : u_block u = false -> b_n b = map (fun d => average (Qf d)) shown;
    br_v : u_block u = false -> forall i d, nth_error shown i = Some d ->
      exists no, nth_error n_o i = Some no
        /\ nth_error (b_v b) i = Some (sample_variance (Qf d) / n_samples no (length (a_rows d)))%R;
    br_distr_len : length (b_distributions b) = if u_bootstrap u then length shown else 0%nat;
    br_nb : b_n_bootstrap b = map average (b_distributions b);
    br_vb : b_v_bootstrap b = map sample_variance (b_distributions b);
    br_sb : b_s_bootstrap b = map (x_sqrt X) (b_v_bootstrap b);
    br_distr : u_bootstrap u = true -> forall i d, nth_error shown i = Some d ->
      exists no g distro w g', nth_error n_o i = Some no
        /\ sample_until_normal X g (Qf d) (n_samples no (length (a_rows d))) (u_n_resamples u)
                (u_max_resamples u) (u_alpha u) = Some (Ok (distro, w, g'))
        /\ nth_error (b_distributions b) i = Some distro }.

  Lemma list_map_ext {S T} (f : S -> T) (l : list S) (l' : list T) :
    length l' = length l -> (forall i x, nth_error l i = Some x -> nth_error l' i = Some (f x)) -> l' = map f l.
  Proof.
    intros Hl H. apply list_ext. intros i. rewrite nth_error_map. destruct (nth_error l i) as [x|] eqn:E.
    - now apply H. - apply nth_error_None in E. apply nth_error_None. lia.
  Qed.

  Lemma analysed_report u quantity n_samples n_o dts sl axes Qf used m b :
    slice_axes sl axes ->
    (forall d, In d used -> quantity d (map (map (fun v => map (coord v) axes)) (a_rows d)) = Ok (Qf d)) ->
    analysed u quantity n_samples n_o dts sl used m b ->
    boot_report u n_samples n_o dts axes Qf used (firstn m used) b.
  Proof.
    intros Hsl HQ [A0 A1 A2 A3 A4 A5 A6 A7 A8 A9].
    assert (Hlen : length (firstn m used) = m) by (rewrite firstn_length; lia).
    assert (C : forall i d, nth_error (firstn m used) i = Some d ->
        (i < m)%nat /\ In d used /\ contributes u quantity n_samples n_o dts sl i d b).
    { intros i d H. assert (Hi : (i < m)%nat).
      { rewrite <- Hlen. apply nth_error_Some. congruence. }
      rewrite firstn_nth in H by exact Hi. split; [exact Hi|]. split; [eapply nth_error_In; eauto|]. now apply A8. }
    assert (D : forall d, In d used -> disp_slice sl d = Ok (map (map (fun v => map (coord v) axes)) (a_rows d))).
    { intros d _. now apply disp_slice_axes. }
    assert (CV : forall i d, nth_error (firstn m used) i = Some d -> exists n v,
         (1 < length (Qf d))%nat
      /\ nth_error (b_n b) i = Some n /\ nth_error (b_v b) i = Some v
      /\ nth_error (b_s b) i = Some (x_sqrt X v)
      /\ nth_error (b_ngp b) i = Some (non_gaussian (map (sqlen axes) (entries d)))
      /\ nth_error (b_euclidian b) i = Some (map (fun v => x_sqrt X (sqlen axes v)) (entries d))
      /\ (u_block u = false -> n = average (Qf d) /\ exists no, nth_error n_o i = Some no
               /\ v = (sample_variance (Qf d) / n_samples no (length (a_rows d)))%R)
      /\ (u_bootstrap u = true -> exists no g distro w g', nth_error n_o i = Some no
           /\ sample_until_normal X g (Qf d) (n_samples no (length (a_rows d))) (u_n_resamples u)
                (u_max_resamples u) (u_alpha u) = Some (Ok (distro, w, g'))
           /\ nth_error (b_distributions b) i = Some distro
           /\ nth_error (b_n_bootstrap b) i = Some (average distro)
           /\ nth_error (b_v_bootstrap b) i = Some (sample_variance distro)
           /\ nth_error (b_s_bootstrap b) i = Some (x_sqrt X (sample_variance distro)))).
    { intros i d H. destruct (C i d H) as (Hi & Hin & [_ (ds & q & n & v & K1 & K2 & K3 & K4 & K5 & K6 & K7 & K8 & K9 & K10)]).
      rewrite (D d Hin) in K1. injection K1 as <-. rewrite (HQ d Hin) in K2. injection K2 as <-.
      rewrite ngp_non_gaussian in K7. rewrite d_squared_axes in K7, K8. rewrite map_map in K8.
      exists n, v. repeat (split; [assumption|]). split.
      - intros Hb. rewrite Hb in K9. rewrite nmean_average, nvar_sample in K9. exact K9.
      - intros Hb. destruct (K10 Hb) as (no & g & distro & w & g' & L1 & L2 & L3 & L4 & L5 & L6).
        exists no, g, distro, w, g'. rewrite <- nmean_average, <- nvar_sample. auto 10. }
    destruct A7 as (B1 & B2 & B3 & B4).
    split; try congruence.
    - exists (skipn m used). split; [now rewrite firstn_skipn|]. split.
      + apply Forall_forall. intros d Hd. apply In_nth_error in Hd as (i & Hi).
        destruct (CV i d Hi) as (n & v & H & _). exact H.
      + apply Forall_forall. intros d Hd. apply In_nth_error in Hd as (i & Hi).
        rewrite nth_error_skipn in Hi. assert (Hin : In d used) by (eapply nth_error_In; eauto).
        destruct (A9 (m + i)%nat d ltac:(lia) Hi) as (c & (ds & q & K1 & K2 & K3) & Hc).
        rewrite (D d Hin) in K1. injection K1 as <-. rewrite (HQ d Hin) in K2. injection K2 as <-. lia.
    - rewrite Hlen. apply list_ext. intros i. destruct (Nat.lt_ge_cases i m) as [Hi|Hi].
      + rewrite firstn_nth by exact Hi. destruct (nth_error used i) as [d|] eqn:E; [|apply nth_error_None in E; lia].
        now destruct (A8 i d Hi E) as [[H _] _].
      + rewrite (proj2 (nth_error_None _ i)) by lia. symmetry. apply nth_error_None. rewrite firstn_length. lia.
    - apply list_map_ext; [congruence|]. intros i d H. destruct (CV i d H) as (n & v & K). apply K.
    - apply list_map_ext; [congruence|]. intros i d H. destruct (CV i d H) as (n & v & K). apply K.
    - apply list_map_ext; [congruence|]. intros i v H.
      assert (Hi : (i < length (firstn m used))%nat).
      { rewrite Hlen, <- A2. apply nth_error_Some. congruence. }
      apply nth_error_Some in Hi. destruct (nth_error (firstn m used) i) as [d|] eqn:E; [|congruence].
      destruct (CV i d E) as (n & v' & _ & _ & K1 & K2 & _). congruence.
    - intros Hb. apply list_map_ext; [congruence|]. intros i d H. destruct (CV i d H) as (n & v & K).
      destruct K as (_ & K1 & _ & _ & _ & _ & K2 & _). destruct (K2 Hb) as [-> _]. exact K1.
    - intros Hb i d H. destruct (CV i d H) as (n & v & _ & _ & K1 & _ & _ & _ & K2 & _).
      destruct (K2 Hb) as [_ (no & K3 & ->)]. eauto.
    - rewrite Hlen. exact B1.
    - apply list_map_ext; [congruence|]. intros i ds H.
      assert (Hb : u_bootstrap u = true /\ (i < length (firstn m used))%nat).
      { assert (i < length (b_distributions b))%nat by (apply nth_error_Some; congruence).
        rewrite B1 in H0. destruct (u_bootstrap u); [|lia]. split; [reflexivity|lia]. }
      destruct Hb as [Hb Hi]. apply nth_error_Some in Hi. destruct (nth_error (firstn m used) i) as [d|] eqn:E; [|congruence].
      destruct (CV i d E) as (n & v' & _ & _ & _ & _ & _ & _ & _ & K). destruct (K Hb) as (no & g & di & w & g' & L1 & L2 & L3 & L4 & L5 & L6).
      congruence.
    - apply list_map_ext; [congruence|]. intros i ds H.
      assert (Hb : u_bootstrap u = true /\ (i < length (firstn m used))%nat).
      { assert (i < length (b_distributions b))%nat by (apply nth_error_Some; congruence).
        rewrite B1 in H0. destruct (u_bootstrap u); [|lia]. split; [reflexivity|lia]. }
      destruct Hb as [Hb Hi]. apply nth_error_Some in Hi. destruct (nth_error (firstn m used) i) as [d|] eqn:E; [|congruence].
      destruct (CV i d E) as (n & v' & _ & _ & _ & _ & _ & _ & _ & K). destruct (K Hb) as (no & g & di & w & g' & L1 & L2 & L3 & L4 & L5 & L6).
      congruence.
    - apply list_map_ext; [congruence|]. intros i ds H.
      assert (Hb : u_bootstrap u = true /\ (i < length (firstn m used))%nat).
      { assert (i < length (b_v_bootstrap b))%nat by (apply nth_error_Some; congruence).
        rewrite B3 in H0. destruct (u_bootstrap u); [|lia]. split; [reflexivity|lia]. }
      destruct Hb as [Hb Hi]. apply nth_error_Some in Hi. destruct (nth_error (firstn m used) i) as [d|] eqn:E; [|congruence].
      destruct (CV i d E) as (n & v' & _ & _ & _ & _ & _ & _ & _ & K). destruct (K Hb) as (no & g & di & w & g' & L1 & L2 & L3 & L4 & L5 & L6).
      congruence.
    - intros Hb i d H. destruct (CV i d H) as (n & v' & _ & _ & _ & _ & _ & _ & _ & K).
      destruct (K Hb) as (no & g & di & w & g' & L1 & L2 & L3 & L4 & L5 & L6). eauto 10.
  Qed.

  Lemma trim_report u n_samples n_o dts axes Qf used shown b :
    boot_report u n_samples n_o dts axes Qf used shown b ->
    boot_report u n_samples n_o dts axes Qf used shown (trim_n_o b).
  Proof. intros [H1 H2 H3 H4 H5 H6 H7 H8 H9 H10 H11 H12 H13 H14 H15]. split; assumption. Qed.

  Lemma stride_sub {T} k (l l' : list T) : 0 < k -> py_stride k l = Ok l' -> sub_sample (Z.to_nat k) l l'.
  Proof.
    intros Hk H. unfold py_stride in H. destruct (k =? 0) eqn:E1; [apply Z.eqb_eq in E1; lia|].
    destruct (0 <? k) eqn:E2; [|apply Z.ltb_ge in E2; lia]. injection H as <-.
    intros i. apply nth_error_every. lia.
  Qed.

  (** MSDBootstrap *)
  Definition msd_values axes (d : Arr R) := map (sqlen axes) (entries d).
  Lemma msd_run u dts disps n_o g b g' : 0 < u_sub_sample_dt u ->
    msd_bootstrap X u dts disps n_o g = Ok (b, g') ->
    exists axes shown, names (pystr_text (u_dimension u)) axes /\ b_dims b = length axes
      /\ sub_sample (Z.to_nat (u_sub_sample_dt u)) disps (b_displacements b)
      /\ sub_sample (Z.to_nat (u_sub_sample_dt u)) dts (b_delta_t b)
      /\ b_n_o b = firstn (length shown) n_o
      /\ boot_report u (fun no _ => no) n_o (b_delta_t b) axes (msd_values axes) (b_displacements b) shown b.
  Proof.
    intros Hk H. unfold msd_bootstrap in H. inv_bind H b0 E1. inv_bind H bg E2. destruct bg as [b1 g1].
    injection H as <- <-.
    destruct (bootstrap_init_ok _ _ _ _ _ _ E1) as (axes & N1 & N2 & N3 & N4 & N5 & N6 & _).
    assert (N7 : b_n_o b0 = n_o) by (rewrite N6; reflexivity).
    destruct (boot_loop_inv u _ _ n_o (b_delta_t b0) (b_slice b0) _ [] 0%nat b0 g b1 g1 eq_refl eq_refl
                (analysed_start u _ _ n_o _ _ _ _ _ _ E1) E2) as (F & m & HA).
    cbn [app] in HA. assert (F1 : b_displacements b1 = b_displacements b0) by (unfold frame_of in F; congruence).
    assert (F2 : b_delta_t b1 = b_delta_t b0) by (unfold frame_of in F; congruence).
    assert (F3 : b_n_o b1 = n_o) by (unfold frame_of in F; congruence).
    assert (F4 : b_dims b1 = b_dims b0) by (unfold frame_of in F; congruence).
    exists axes, (firstn m (b_displacements b0)). split; [exact N1|]. cbn [trim_n_o b_dims b_displacements b_delta_t b_n_o].
    split; [congruence|]. rewrite F1, F2. split; [now apply stride_sub|]. split; [now apply stride_sub|].
    assert (HR := analysed_report u _ _ n_o (b_delta_t b0) (b_slice b0) axes (msd_values axes) _ m b1 N2
                    (fun d _ => f_equal Ok (d_squared_axes axes (a_rows d))) HA).
    split; [|now apply trim_report].
    rewrite py_to_nat, (br_n_len _ _ _ _ _ _ _ _ _ HR). now rewrite F3.
  Qed.

  (** MSTDBootstrap *)
  Definition mstd_values axes (d : Arr R) := tab (a_obs d) (fun t => sqlen axes (sum3 (at_time d t))).
  Lemma first_half_In {T} (x : T) l : In x (first_half l) -> In x l.
  Proof. unfold first_half. intros H. rewrite <- (firstn_skipn (length l / 2) l). apply in_or_app. now left. Qed.
  Lemma sub_sample_In {T} k (l l' : list T) x : sub_sample k l l' -> In x l' -> In x l.
  Proof. intros H Hx. apply In_nth_error in Hx as (i & Hi). rewrite H in Hi. eapply nth_error_In; eauto. Qed.
  Lemma mstd_run u dts disps n_o g b g' : 0 < u_sub_sample_dt u -> Forall arr_wf disps ->
    mstd_bootstrap X u dts disps n_o g = Ok (b, g') ->
    exists axes shown, names (pystr_text (u_dimension u)) axes /\ b_dims b = length axes
      /\ sub_sample (Z.to_nat (u_sub_sample_dt u)) disps (b_displacements b)
      /\ sub_sample (Z.to_nat (u_sub_sample_dt u)) dts (b_delta_t b)
      /\ b_n_o b = firstn (length shown) n_o
      /\ boot_report u (fun no n => no / INR n)%R n_o (b_delta_t b) axes (mstd_values axes)
           (firstn (Nat.div (length (b_displacements b)) 2) (b_displacements b)) shown b.
  Proof.
    intros Hk Hwf H. unfold mstd_bootstrap in H. inv_bind H b0 E1. inv_bind H bg E2. destruct bg as [b1 g1].
    injection H as <- <-.
    destruct (bootstrap_init_ok _ _ _ _ _ _ E1) as (axes & N1 & N2 & N3 & N4 & N5 & N6 & _).
    assert (N7 : b_n_o b0 = n_o) by (rewrite N6; reflexivity).
    destruct (boot_loop_inv u _ _ n_o (b_delta_t b0) (b_slice b0) _ [] 0%nat b0 g b1 g1 eq_refl eq_refl
                (analysed_start u _ _ n_o _ _ _ _ _ _ E1) E2) as (F & m & HA).
    cbn [app] in HA. assert (F1 : b_displacements b1 = b_displacements b0) by (unfold frame_of in F; congruence).
    assert (F2 : b_delta_t b1 = b_delta_t b0) by (unfold frame_of in F; congruence).
    assert (F3 : b_n_o b1 = n_o) by (unfold frame_of in F; congruence).
    assert (F4 : b_dims b1 = b_dims b0) by (unfold frame_of in F; congruence).
    exists axes, (firstn m (first_half (b_displacements b0))). split; [exact N1|]. cbn [trim_n_o b_dims b_displacements b_delta_t b_n_o].
    split; [congruence|]. rewrite F1, F2. assert (S1 := stride_sub _ _ _ Hk N4).
    split; [exact S1|]. split; [now apply stride_sub|].
    assert (HQ : forall d, In d (first_half (b_displacements b0)) ->
       (fun d ds => Ok (coll_motion (a_obs d) (b_dims b0) ds)) d (map (map (fun v => map (coord v) axes)) (a_rows d))
       = Ok (mstd_values axes d)).
    { intros d Hd. cbn beta. rewrite N3, coll_motion_axes; [reflexivity|].
      rewrite Forall_forall in Hwf. apply Hwf. eapply sub_sample_In; eauto using first_half_In. }
    assert (HR := analysed_report u _ _ n_o (b_delta_t b0) (b_slice b0) axes (mstd_values axes) _ m b1 N2 HQ HA).
    split.
    - rewrite py_to_nat, (br_n_len _ _ _ _ _ _ _ _ _ HR). now rewrite F3.
    - apply trim_report. destruct HR as [K1 K2 K3 K4 K5 K6 K7 K8 K9 K10 K11 K12 K13 K14 K15].
      split; try assumption.
      + intros Hb i d Hd. specialize (K10 Hb i d Hd). now rewrite nofnat_R in K10.
      + intros Hb i d Hd. specialize (K15 Hb i d Hd). now rewrite nofnat_R in K15.
  Qed.

  (** MSCDBootstrap *)
  Definition mscd_values q (d : Arr R) := tab (a_obs d) (fun t => sqlen all_axes
      (sum3 (map (fun p => scale3 (fst p) (snd p)) (combine q (at_time d t))))).

  Lemma charge_array_R q n : charge_array q n = charges q n.
  Proof. destruct q; cbn; [|reflexivity]. f_equal. numR. ring. Qed.
  Lemma mscd_run u dts disps q n_o g b g' natoms : 0 < u_sub_sample_dt u -> Forall arr_wf disps ->
    Forall (fun d => length (a_rows d) = natoms) disps ->
    (forall l, q = QArray l -> length l = natoms) ->
    mscd_bootstrap X u dts disps q n_o g = Ok (b, g') ->
    exists axes shown, names (pystr_text (u_dimension u)) axes /\ b_dims b = length axes
      /\ sub_sample (Z.to_nat (u_sub_sample_dt u)) disps (b_displacements b)
      /\ sub_sample (Z.to_nat (u_sub_sample_dt u)) dts (b_delta_t b)
      /\ b_n_o b = firstn (length shown) n_o
      /\ boot_report u (fun no n => no / INR n)%R n_o (b_delta_t b) axes (mscd_values (charges q natoms))
           (firstn (Nat.div (length (b_displacements b)) 2) (b_displacements b)) shown b.
  Proof.
    intros Hk Hwf Hn Hq H. unfold mscd_bootstrap in H. inv_bind H b0 E1. inv_bind H d0 E0. inv_bind H bg E2. destruct bg as [b1 g1].
    injection H as <- <-.
    destruct (bootstrap_init_ok _ _ _ _ _ _ E1) as (axes & N1 & N2 & N3 & N4 & N5 & N6 & _).
    assert (S1 := stride_sub _ _ _ Hk N4).
    assert (Hd0 : length (a_rows d0) = natoms).
    { rewrite Forall_forall in Hn. apply Hn. apply py_index_ok_inv in E0. eapply sub_sample_In; eauto. }
    rewrite Hd0 in E2. rewrite charge_array_R in E2.
    assert (N7 : b_n_o b0 = n_o) by (rewrite N6; reflexivity).
    destruct (boot_loop_inv u _ _ n_o (b_delta_t b0) (b_slice b0) _ [] 0%nat b0 g b1 g1 eq_refl eq_refl
                (analysed_start u _ _ n_o _ _ _ _ _ _ E1) E2) as (F & m & HA).
    cbn [app] in HA. assert (F1 : b_displacements b1 = b_displacements b0) by (unfold frame_of in F; congruence).
    assert (F2 : b_delta_t b1 = b_delta_t b0) by (unfold frame_of in F; congruence).
    assert (F3 : b_n_o b1 = n_o) by (unfold frame_of in F; congruence).
    assert (F4 : b_dims b1 = b_dims b0) by (unfold frame_of in F; congruence).
    exists axes, (firstn m (first_half (b_displacements b0))). split; [exact N1|]. cbn [trim_n_o b_dims b_displacements b_delta_t b_n_o].
    split; [congruence|]. rewrite F1, F2.
    split; [exact S1|]. split; [now apply stride_sub|].
    assert (HQ : forall d, In d (first_half (b_displacements b0)) ->
       (fun d (_ : list (list (list R))) => sq_chg_motion (charges q natoms) d) d
         (map (map (fun v => map (coord v) axes)) (a_rows d))
       = Ok (mscd_values (charges q natoms) d)).
    { intros d Hd. cbn beta.
      assert (Hin : In d disps) by (eapply sub_sample_In; eauto using first_half_In).
      rewrite Forall_forall in Hwf, Hn. rewrite sq_chg_motion_axes; [reflexivity| |now apply Hwf].
      rewrite (Hn d Hin). destruct q as [c|l]; cbn [charges]; [apply repeat_length|]. now apply Hq. }
    assert (HR := analysed_report u _ _ n_o (b_delta_t b0) (b_slice b0) axes (mscd_values (charges q natoms)) _ m b1 N2 HQ HA).
    split.
    - rewrite py_to_nat, (br_n_len _ _ _ _ _ _ _ _ _ HR). now rewrite F3.
    - apply trim_report. destruct HR as [K1 K2 K3 K4 K5 K6 K7 K8 K9 K10 K11 K12 K13 K14 K15].
      split; try assumption.
      + intros Hb i d Hd. specialize (K10 Hb i d Hd). now rewrite nofnat_R in K10.
      + intros Hb i d Hd. specialize (K15 Hb i d Hd). now rewrite nofnat_R in K15.
  Qed.
End Boot.
