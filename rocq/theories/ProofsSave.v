(** * ProofsSave: saving and loading analysers *)
From Verif Require Import Base Spec ModelDiffusion ModelHdf ModelAnalyzer SpecStats SpecFit SpecHdf SpecAnalyzer SpecSave Lemmas
  ProofsDisp ProofsIntervals ProofsWindows ProofsParser ProofsTraj ProofsBoot ProofsStats ProofsStats2 ProofsCov ProofsFit ProofsFit2 ProofsShape ProofsAnalyzer ProofsHdf SpecRun.
From Coq Require Import Reals Ascii Permutation Lra Lia.
Open Scope Z_scope.
Open Scope string_scope.

Notation val := (pyval (nd R) R).

(** ** Looking keys up in a loaded dictionary *)
Lemma dget_In (d : list (string * val)) k v : NoDup (map fst d) -> In (k, v) d -> dget k d = Ok v.
Proof.
  induction d as [|[k' v'] d IH]; cbn; intros HN Hin; [contradiction|]. inversion HN as [|? ? H1 H2]; subst.
  destruct Hin as [Hin|Hin]; [injection Hin as -> ->; now rewrite String.eqb_refl|].
  destruct (String.eqb_spec k k') as [->|E]; [|now apply IH]. exfalso. apply H1. now apply (in_map fst) in Hin.
Qed.
Lemma dget_In_inv (d : list (string * val)) k v : dget k d = Ok v -> In (k, v) d.
Proof.
  induction d as [|[k' v'] d IH]; cbn; intros H; [discriminate|].
  destruct (String.eqb_spec k k') as [->|E]; [injection H as ->; now left|right; now apply IH].
Qed.
Lemma dget_missing (d : list (string * val)) k : ~ In k (map fst d) -> dget k d = Raise KeyError.
Proof.
  induction d as [|[k' v'] d IH]; cbn; intros H; [reflexivity|].
  destruct (String.eqb_spec k k') as [->|E]; [exfalso; auto|]. apply IH. auto.
Qed.
Lemma loaded_keys (d1 d' : list (string * val)) : Forall2 (fun kv kv' => fst kv = fst kv' /\ loads_as (snd kv) (snd kv')) d1 d' -> map fst d1 = map fst d'.
Proof. induction 1 as [|? ? ? ? [H _] _ IH]; cbn; congruence. Qed.
Lemma loaded_get (d d' : list (string * val)) k v : loads_as (VDict d) (VDict d') -> NoDup (map fst d) -> dget k d = Ok v ->
  exists v', dget k d' = Ok v' /\ loads_as v v'.
Proof.
  intros H HN Hk. inversion H as [| | | | | | | | | |d0 d1 d2 HP HF]; subst.
  apply dget_In_inv in Hk. assert (Hk1 := Permutation_in _ HP Hk). assert (HN1 : NoDup (map fst d1)).
  { eapply Permutation_NoDup; [apply Permutation_map; exact HP|exact HN]. }
  assert (EK := loaded_keys _ _ HF). rewrite EK in HN1. clear - HF Hk1 HN1.
  assert (G : exists v', In (k, v') d' /\ loads_as v v').
  { clear HN1. induction HF as [|[k1 v1] [k2 v2] d1 d' [A B] _ IH]; [contradiction|]. cbn in A, B. subst k2.
    destruct Hk1 as [Hk1|Hk1]; [injection Hk1 as -> ->; exists v2; split; [now left|exact B]|].
    destruct (IH Hk1) as (v' & C & D). exists v'. split; [now right|exact D]. }
  destruct G as (v' & A & B). exists v'. split; [now apply dget_In|exact B].
Qed.
Lemma loaded_missing (d d' : list (string * val)) k : loads_as (VDict d) (VDict d') -> ~ In k (map fst d) -> dget k d' = Raise KeyError.
Proof.
  intros H HN. inversion H as [| | | | | | | | | |d0 d1 d2 HP HF]; subst. apply dget_missing.
  rewrite <- (loaded_keys _ _ HF). intros Hin. apply HN. eapply Permutation_in; [apply Permutation_sym, Permutation_map; exact HP|exact Hin].
Qed.

(** ** Values of each kind after loading *)
Lemma loaded_arr (a : nd R) (v : val) : loads_as (VArr a) v -> v = VArr a.
Proof. now inversion 1. Qed.
Lemma loaded_as3 (l : list (Arr R)) (v : val) : loads_as (VList (map (fun a => VArr (N3 a)) l)) v ->
  (let! l := as_list v in mapM (@as3 R) l) = Ok l.
Proof.
  intros H. inversion H as [| | | | | | | | |l0 l' HF|]; subst. cbn [as_list bind]. clear H.
  revert l' HF. induction l as [|a l IH]; cbn [map]; intros l' HF; inversion HF as [|? y ? l'' H1 H2]; subst; [reflexivity|].
  apply loaded_arr in H1. subst y. cbn [mapM as3 bind]. now rewrite (IH _ H2).
Qed.
Lemma loaded_2 (o : option (Mat R)) (v : val) : loads_as (v_opt (fun m => VArr (N2 m)) o) v -> as_opt (@as2 R) v = Ok o.
Proof. destruct o; intros H; inversion H; subst; reflexivity. Qed.
Lemma loaded_float (o : option R) (v : val) : loads_as (v_opt (fun x => VFloat x) o) v -> as_opt (@as_float R) v = Ok o.
Proof. destruct o; intros H; inversion H; subst; reflexivity. Qed.
Lemma loaded_bool (o : option bool) (v : val) : loads_as (v_opt (fun x => VBool x) o) v -> as_opt (@as_bool R) v = Ok o.
Proof. destruct o; intros H; inversion H; subst; reflexivity. Qed.
Lemma loaded_int z (v : val) : loads_as (VInt z) v -> @as_int R v = Ok z /\ v = VNpInt z.
Proof. intros H; inversion H; subst; auto. Qed.
Lemma loaded_dim (d : pystr) (v : val) sl : dict_get (pystr_lower d) DIMENSIONALITY = Ok sl -> loads_as (@v_dim R d) v -> @as_dim R v = Ok (as_bytes d).
Proof.
  intros HD H. destruct d as [s|s]; cbn in H; inversion H; subst; try reflexivity; exfalso; cbn in HD; discriminate.
Qed.
Lemma bytes_dim (d : pystr) sl : dict_get (pystr_lower d) DIMENSIONALITY = Ok sl ->
  dict_get (pystr_lower (as_bytes d)) DIMENSIONALITY = Ok sl.
Proof.
  destruct d as [s|s]; [|auto]. cbn [pystr_lower as_bytes]. generalize (lower s). clear s. intros s. cbn [dict_get DIMENSIONALITY pystr_eqb].
  repeat (match goal with |- context [if ?c then _ else _] => destruct c end; [auto|]). discriminate.
Qed.

Section Save.
  Context (to_d : list R -> list (string * val)) (of_d : list (string * val) -> Res (list R)).
  Context (Hd : dist_dicts to_d of_d).

  Lemma loaded_dist (l : list R) (v : val) : loads_as (v_dist to_d l) v -> as_dist of_d v = Ok l.
  Proof. unfold v_dist. intros H. destruct (Hd l) as (_ & _ & _ & _ & G). inversion H; subst. cbn [as_dist]. now apply G. Qed.
  Lemma loaded_opt_dist (o : option (list R)) (v : val) : loads_as (v_opt (v_dist to_d) o) v -> as_opt (as_dist of_d) v = Ok o.
  Proof.
    destruct o as [l|]; cbn [v_opt]; intros H; [|inversion H; subst; reflexivity].
    assert (G := loaded_dist l v H). unfold v_dist in H. inversion H; subst. cbn [as_opt]. now rewrite G.
  Qed.
  Lemma loaded_dists (l : list (list R)) (v : val) : loads_as (VList (map (v_dist to_d) l)) v ->
    (let! l := as_list v in mapM (as_dist of_d) l) = Ok l.
  Proof.
    intros H. inversion H as [| | | | | | | | |l0 l' HF|]; subst. cbn [as_list bind]. clear H.
    revert l' HF. induction l as [|a l IH]; cbn [map]; intros l' HF; inversion HF as [|? y ? l'' H1 H2]; subst; [reflexivity|].
    cbn [mapM]. rewrite (loaded_dist _ _ H1). cbn [bind]. now rewrite (IH _ H2).
  Qed.
  Lemma loaded_distributions (ds : list (list R)) (v : val) :
    loads_as (match ds with [] => VNone | l :: l0 => VList (map (v_dist to_d) (l :: l0)) end) v ->
    exists o, as_opt (fun v => let! l := as_list v in mapM (as_dist of_d) l) v = Ok o /\ match o with Some l => l | None => [] end = ds.
  Proof.
    destruct ds as [|x ds]; intros H; [inversion H; subst; now exists None|].
    assert (G := loaded_dists (x :: ds) v H). inversion H; subst. exists (Some (x :: ds)). split; [|reflexivity]. cbn [as_opt].
    now rewrite G.
  Qed.

  (** ** Reading back *)
  Lemma boot_keys b : key_names (boot_to_dict to_d b).
  Proof.
    split.
    - cbn [boot_to_dict map fst]. repeat constructor; cbn [In]; intuition discriminate.
    - unfold boot_to_dict. repeat (constructor; [cbn; repeat split; try discriminate; cbn; intuition discriminate|]). constructor.
  Qed.
  Ltac get k := match goal with HL : loads_as (VDict (boot_to_dict to_d ?b)) (VDict ?d') |- _ =>
      let r := eval cbn [dget boot_to_dict String.eqb Ascii.eqb Bool.eqb] in (dget k (boot_to_dict to_d b)) in
      match r with Ok ?v => 
        let V := fresh "V" in let G := fresh "G" in let L := fresh "L" in
        destruct (loaded_get _ d' k v HL (proj1 (boot_keys b)) eq_refl) as (V & G & L); rewrite G; cbn [bind] end end.
  Lemma boot_loaded b b1 d' : loads_as (VDict (boot_to_dict to_d b)) (VDict d') ->
    bootstrap_init (b_delta_t b) (b_displacements b) (b_n_o b) (b_sub_sample_dt b) (b_dimension b) = Ok b1 ->
    b_slice b1 = b_slice b -> b_dims b1 = b_dims b ->
    boot_from_dict of_d d' = Ok (with_dim (with_data b (b_displacements b1) (b_delta_t b1)) (as_bytes (b_dimension b))).
  Proof.
    intros HL E Es Ed. unfold boot_from_dict, field.
    destruct (bootstrap_init_ok _ _ _ _ _ _ E) as (axes & _ & _ & _ & _ & _ & K & _).
    assert (E' : exists b2, bootstrap_init (b_delta_t b) (b_displacements b) (b_n_o b) (b_sub_sample_dt b) (as_bytes (b_dimension b)) = Ok b2
      /\ b2 = with_dim b1 (as_bytes (b_dimension b))).
    { unfold bootstrap_init in *. inv_bind E ds S1. inv_bind E ts S2. inv_bind E d0 S3. inv_bind E sl S4.
      rewrite S1. cbn [bind]. rewrite S2. cbn [bind]. rewrite S3. cbn [bind]. rewrite (bytes_dim _ _ S4). cbn [bind]. eexists. split; [reflexivity|]. injection E as <-. destruct (b_dimension b); reflexivity. }
    destruct E' as (b2 & E2 & K2).
    assert (HS : exists sl, dict_get (pystr_lower (b_dimension b)) DIMENSIONALITY = Ok sl).
    { unfold bootstrap_init in E. inv_bind E ds S1. inv_bind E ts S2. inv_bind E d0 S3. inv_bind E sl S4. eauto. }
    destruct HS as (sl & HS).
    get "delta_t". apply loaded_arr in L. subst V. cbn [as1 bind]. clear G.
    get "displacements". rewrite (loaded_as3 _ _ L). cbn [bind]. clear L G V.
    get "n_o". apply loaded_arr in L. subst V. cbn [as1 bind]. clear G.
    get "sub_sample_dt". apply loaded_int in L as [L _]. rewrite L. cbn [bind]. clear L G V.
    get "dimension". rewrite (loaded_dim _ _ _ HS L). cbn [bind]. clear L G V.
    rewrite E2. cbn [bind].
    get "max_obs". apply loaded_int in L as [L _]. rewrite L. cbn [bind]. clear L G V.
    get "euclidian_displacements". rewrite (loaded_dists _ _ L). cbn [bind]. clear L G V.
    get "dt". apply loaded_arr in L. subst V. cbn [as1 bind]. clear G.
    get "n". apply loaded_arr in L. subst V. cbn [as1 bind]. clear G.
    get "s". apply loaded_arr in L. subst V. cbn [as1 bind]. clear G.
    get "v". apply loaded_arr in L. subst V. cbn [as1 bind]. clear G.
    get "n_bootstrap". apply loaded_arr in L. subst V. cbn [as1 bind]. clear G.
    get "s_bootstrap". apply loaded_arr in L. subst V. cbn [as1 bind]. clear G.
    get "v_bootstrap". apply loaded_arr in L. subst V. cbn [as1 bind]. clear G.
    get "ngp". apply loaded_arr in L. subst V. cbn [as1 bind]. clear G.
    get "distributions". destruct (loaded_distributions (b_distributions b) V L) as (od & D1 & D2). rewrite D1. cbn [bind]. clear L G D1 V.
    get "diffusion_coefficient". rewrite (loaded_opt_dist _ _ L). cbn [bind]. clear L G V.
    get "jump_diffusion_coefficient". rewrite (loaded_opt_dist _ _ L). cbn [bind]. clear L G V.
    get "sigma". rewrite (loaded_opt_dist _ _ L). cbn [bind]. clear L G V.
    get "intercept". rewrite (loaded_opt_dist _ _ L). cbn [bind]. clear L G V.
    get "gradient". rewrite (loaded_opt_dist _ _ L). cbn [bind]. clear L G V.
    get "flatchain". rewrite (loaded_2 _ _ L). cbn [bind]. clear L G V.
    get "covariance_matrix". rewrite (loaded_2 _ _ L). cbn [bind]. clear L G V.
    get "start_dt". rewrite (loaded_float _ _ L). cbn [bind]. clear L G V.
    get "model". rewrite (loaded_bool _ _ L). cbn [bind]. clear L G V.
    get "cond_max". rewrite (loaded_float _ _ L). cbn [bind]. clear L G V.
    rewrite Nat2Z.id. subst b2.
    assert (K1 : b_distributions b1 = []) by (rewrite K; reflexivity).
    assert (K3 : b_sub_sample_dt b1 = b_sub_sample_dt b) by (rewrite K; reflexivity).
    cbn [with_dim b_displacements b_delta_t b_distributions b_sub_sample_dt b_dimension b_slice b_dims].
    rewrite K1, K3, Es, Ed, D2. reflexivity.
  Qed.
  Lemma analyzer_keys a : key_names (analyzer_to_dict to_d a).
  Proof.
    split.
    - cbn [analyzer_to_dict map fst]. repeat constructor; cbn [In]; intuition discriminate.
    - unfold analyzer_to_dict. repeat (constructor; [cbn; repeat split; try discriminate; cbn; intuition discriminate|]). constructor.
  Qed.
  Ltac aget k := match goal with HL : loads_as (VDict (analyzer_to_dict to_d ?b)) (VDict ?d') |- _ =>
      let r := eval cbn [dget analyzer_to_dict String.eqb Ascii.eqb Bool.eqb] in (dget k (analyzer_to_dict to_d b)) in
      match r with Ok ?v => 
        let V := fresh "V" in let G := fresh "G" in let L := fresh "L" in
        destruct (loaded_get _ d' k v HL (proj1 (analyzer_keys b)) eq_refl) as (V & G & L); rewrite G; cbn [bind] end end.
  Lemma analyzer_loaded a b1 d' : loads_as (VDict (analyzer_to_dict to_d a)) (VDict d') ->
    let b := an_diff a in
    bootstrap_init (b_delta_t b) (b_displacements b) (b_n_o b) (b_sub_sample_dt b) (b_dimension b) = Ok b1 ->
    b_slice b1 = b_slice b -> b_dims b1 = b_dims b ->
    analyzer_from_dict of_d d' = Ok (mkAn (an_data a) (with_dim (with_data b (b_displacements b1) (b_delta_t b1)) (as_bytes (b_dimension b)))).
  Proof.
    intros HL b E Es Ed. unfold analyzer_from_dict, field.
    aget "delta_t". apply loaded_arr in L. subst V. cbn [as1 bind]. clear G.
    aget "disp_3d". rewrite (loaded_as3 _ _ L). cbn [bind]. clear L G V.
    aget "n_o". apply loaded_arr in L. subst V. cbn [as1 bind]. clear G.
    aget "volume". rewrite (loaded_float _ _ L). cbn [bind]. clear L G V.
    aget "diff". inversion L as [| | | | | | | | | |dd d1 d2 HP HF]; subst. rewrite (boot_loaded _ b1 _ L E Es Ed).
    cbn [bind]. destruct (an_data a). reflexivity.
  Qed.

  (** ** What is saved *)
  Lemma dist_supported l : supported (v_dist to_d l).
  Proof.
    destruct (Hd l) as (A & B & C & D & _). apply sup_dict; try assumption. eapply Forall_impl; [|exact D]. intros kv H. now apply sup_flat.
  Qed.
  Lemma opt_dist_supported o : supported (v_opt (v_dist to_d) o).
  Proof. destruct o; [apply dist_supported|apply sup_flat; now right]. Qed.
  Lemma arrays_supported (l : list (Arr R)) : l <> [] -> supported (VList (map (fun a => VArr (N3 a) : val) l)).
  Proof.
    intros H. apply sup_list; [destruct l; [congruence|discriminate]|]. apply Forall_forall. intros v Hv.
    apply in_map_iff in Hv as (a & <- & _). apply item_atom. constructor.
  Qed.
  Lemma dists_supported (l : list (list R)) : l <> [] -> supported (VList (map (v_dist to_d) l)).
  Proof.
    intros H. apply sup_list; [destruct l; [congruence|discriminate]|]. apply Forall_forall. intros v Hv.
    apply in_map_iff in Hv as (a & <- & _). destruct (Hd a) as (A & B & _ & D & _). now apply item_dict.
  Qed.
  Ltac sup := first [ apply opt_dist_supported | apply sup_flat; left; constructor
    | match goal with |- supported (v_opt _ ?o) => destruct o; cbn [v_opt]; apply sup_flat; first [left; constructor|right; reflexivity] end ].
  Lemma boot_supported b : b_displacements b <> [] -> b_euclidian b <> [] -> Forall (fun kv => supported (snd kv)) (boot_to_dict to_d b).
  Proof.
    intros H1 H2. unfold boot_to_dict.
    constructor; cbn [snd]; [now apply arrays_supported|].
    repeat first [ apply Forall_nil | apply Forall_cons; cbn [snd]; [|] ]; try sup.
    - destruct (b_dimension b); apply sup_flat; left; constructor.
    - destruct (b_distributions b) as [|x l]; [apply sup_flat; now right|]. now apply dists_supported.
    - now apply dists_supported.
  Qed.
  Lemma boot_names b k v : In (k, v) (boot_to_dict to_d b) -> String.prefix "list" k = false.
  Proof.
    intros Hin. unfold boot_to_dict in Hin. repeat (destruct Hin as [Hin|Hin]; [injection Hin as <- _; reflexivity|]). contradiction.
  Qed.
  Lemma boot_not_listlike b : not_listlike (boot_to_dict to_d b).
  Proof. intros k v Hin _. now apply (boot_names b k v). Qed.
  Lemma analyzer_supported a : an_disp_3d (an_data a) <> [] -> b_displacements (an_diff a) <> [] -> b_euclidian (an_diff a) <> [] ->
    Forall (fun kv => supported (snd kv)) (analyzer_to_dict to_d a).
  Proof.
    intros H0 H1 H2. unfold analyzer_to_dict.
    repeat first [ apply Forall_nil | apply Forall_cons; cbn [snd]; [|] ]; try sup.
    - now apply arrays_supported.
    - apply sup_dict; [discriminate|apply boot_keys|apply boot_not_listlike|now apply boot_supported].
  Qed.
  Lemma save_load_general a s filename b1 : let b := an_diff a in
    an_disp_3d (an_data a) <> [] -> b_displacements b <> [] -> b_euclidian b <> [] -> s (hdf_name filename) = None ->
    bootstrap_init (b_delta_t b) (b_displacements b) (b_n_o b) (b_sub_sample_dt b) (b_dimension b) = Ok b1 ->
    b_slice b1 = b_slice b -> b_dims b1 = b_dims b ->
    exists s', analyzer_save to_d s filename a = (s', Ok tt) /\ exists n, forall fuel, (n <= fuel)%nat ->
      analyzer_load of_d fuel s' filename
      = Ok (mkAn (an_data a) (with_dim (with_data b (b_displacements b1) (b_delta_t b1)) (as_bytes (b_dimension b)))).
  Proof.
    intros b H0 H1 H2 Hs E Es Ed.
    destruct (C42_proof (analyzer_to_dict to_d a) s filename (analyzer_keys a) (analyzer_supported a H0 H1 H2) Hs) as (s' & S & n & L).
    exists s'. split; [exact S|]. exists n. intros fuel Hf. destruct (L fuel Hf) as (d' & G & La). unfold analyzer_load. rewrite G. cbn [bind].
    now apply analyzer_loaded.
  Qed.
End Save.

(** ** Entries without a trace in the file *)
Lemma dict_to_group_app {T F} path (d1 d2 : list (string * pyval T F)) : forall f, dict_to_group path (d1 ++ d2)%list f =
  match dict_to_group path d1 f with (f', Ok _) => dict_to_group path d2 f' | (f', Raise e) => (f', Raise e) end.
Proof.
  induction d1 as [|[k x] d1 IH]; intros f; cbn [app dict_to_group]; [reflexivity|].
  destruct (put _ x f) as [f' [[]|e]]; [apply IH|reflexivity].
Qed.
Lemma drop_empty {T F} path (d1 d2 : list (string * pyval T F)) k f :
  dict_to_group path (d1 ++ (k, VList []) :: d2)%list f = dict_to_group path (d1 ++ d2)%list f.
Proof. rewrite !dict_to_group_app. destruct (dict_to_group path d1 f) as [f' [[]|e]]; reflexivity. Qed.
Lemma map_last_dict {T F} path (d1 : list (string * pyval T F)) k x y f : (forall f, put (path ++ k) x f = put (path ++ k) y f) ->
  dict_to_group path (d1 ++ [(k, x)])%list f = dict_to_group path (d1 ++ [(k, y)])%list f.
Proof. intros H. rewrite !dict_to_group_app. destruct (dict_to_group path d1 f) as [f' [[]|e]]; [|reflexivity]. cbn [dict_to_group]. now rewrite H. Qed.

(** ** Only ValueError is raised while writing *)
Section Errors.
  Context {T F : Type}.
  Notation pyval := (pyval T F).
  Definition only_value_error (r : wres (T:=T) (F:=F)) : Prop := snd r = Ok tt \/ snd r = Raise ValueError.
  Lemma h5_set_error path (l : leaf T F) : forall m e, h5_set path l m = Raise e -> e = ValueError.
  Proof.
    induction path as [|k path IH]; intros m e H; [now injection H|]. destruct path as [|k2 rest].
    - cbn in H. destruct (lookup k m); [now injection H|discriminate].
    - rewrite h5_set_step in H. destruct (lookup k m) as [[?|sub]|]; [now injection H| |].
      + destruct (h5_set (k2 :: rest) l sub) eqn:E; [discriminate|]. injection H as <-. eapply IH; eassumption.
      + destruct (h5_set (k2 :: rest) l []) eqn:E; [discriminate|]. injection H as <-. eapply IH; eassumption.
  Qed.
  Lemma write_error f path l : only_value_error (h5_write f path l).
  Proof. unfold h5_write, only_value_error. destruct (h5_set _ l f) eqn:E; [now left|]. right. cbn. f_equal. eapply h5_set_error; eassumption. Qed.
  Lemma put_error n : forall path (v : pyval) f, (size v < n)%nat -> only_value_error (put path v f).
  Proof.
    induction n as [|n IH]; intros path v f Hn; [lia|].
    assert (HD : forall d path f, (size (VDict d) <= n)%nat -> only_value_error (dict_to_group path d f)).
    { intros d. induction d as [|[k x] d IHd]; intros path0 f0 Hs; [now left|]. cbn [dict_to_group].
      assert (A := size_In_dict ((k, x) :: d) k x (or_introl eq_refl)).
      destruct (IH (path0 ++ k) x f0 ltac:(lia)) as [E|E]; destruct (put (path0 ++ k) x f0) as [f' r]; cbn [snd] in E; subst r.
      - apply IHd. revert Hs. cbn [size map]. unfold list_sum. cbn [fold_right]. lia.
      - now right. }
    destruct v as [a|z|b|x|z|b|s|s| |l|d|]; try (cbn [put storable]; first [apply write_error|now right]).
    - rewrite put_VList. assert (Hn' : (size (VList l) <= n)%nat) by lia. clear Hn. generalize 0%nat. revert f. induction l as [|x l IHl]; intros f i; [now left|]. cbn [put_list].
      assert (Hx : (size x < n)%nat) by (cbn [size map list_sum fold_right] in Hn'; unfold list_sum in Hn'; cbn in Hn'; lia).
      assert (Hl : (size (VList l) <= n)%nat) by (cbn [size map] in *; unfold list_sum in *; cbn [fold_right] in *; lia).
      match goal with |- only_value_error (let (_, _) := ?e in _) => assert (A : only_value_error e) end.
      { destruct (storable x); [apply write_error|]. destruct x; try (now left). apply IH. exact Hx. }
      match goal with |- only_value_error (let (_, _) := ?e in _) => destruct e as [f' r] end. destruct A as [E|E]; cbn [snd] in E; subst r; [|now right].
      now apply IHl.
    - rewrite put_dict. apply HD. lia.
  Qed.
  Lemma dict_error path (d : list (string * pyval)) : forall f, only_value_error (dict_to_group path d f).
  Proof.
    induction d as [|[k x] d IH]; intros f; [now left|]. cbn [dict_to_group].
    destruct (put_error _ (path ++ k) x f (Nat.lt_succ_diag_r _)) as [E|E]; destruct (put (path ++ k) x f) as [f' r]; cbn [snd] in E; subst r; [apply IH|now right].
  Qed.
  Lemma dict_bad path (d : list (string * pyval)) k x : In (k, x) d -> (forall p f, snd (put p x f) = Raise ValueError) ->
    forall f, snd (dict_to_group path d f) = Raise ValueError.
  Proof.
    intros Hin Hx. induction d as [|[k' x'] d IH]; intros f; [contradiction|]. cbn [dict_to_group].
    destruct Hin as [Hin|Hin].
    - injection Hin as -> ->. specialize (Hx (path ++ k)%string f). destruct (put _ x f) as [f' r]. cbn [snd] in Hx. now subst r.
    - destruct (put_error _ (path ++ k') x' f (Nat.lt_succ_diag_r _)) as [E|E]; destruct (put (path ++ k') x' f) as [f' r]; cbn [snd] in E; subst r; [now apply IH|reflexivity].
  Qed.
  Lemma put_bad_dict (d : list (string * pyval)) k x : In (k, x) d -> (forall p f, snd (put p x f) = Raise ValueError) ->
    forall p f, snd (put p (VDict d) f) = Raise ValueError.
  Proof. intros Hin Hx p f. rewrite put_dict. eapply dict_bad; eassumption. Qed.
End Errors.

(** *** C43 *)
Section C43.
  Context {T F : Type}.
  Notation dict := (list (string * pyval T F)).
  Lemma C43_refuses_proof (s : fs (T:=T) (F:=F)) filename (d : dict) f : s (hdf_name filename) = Some f -> save s filename d = (s, Raise ValueError).
  Proof. intros H. unfold save. now rewrite H. Qed.
  Lemma C43_others_proof (s : fs (T:=T) (F:=F)) filename (d : dict) name : name <> hdf_name filename -> fst (save s filename d) name = s name.
  Proof.
    intros H. unfold save. destruct (s (hdf_name filename)); [reflexivity|]. destruct (dict_to_group "/" d []) as [f r]. cbn [fst].
    unfold fs_set. destruct (String.eqb_spec name (hdf_name filename)); [contradiction|reflexivity].
  Qed.
  Lemma C43_kept_proof (s : fs (T:=T) (F:=F)) filename (d : dict) name f : s name = Some f -> fst (save s filename d) name = Some f.
  Proof.
    intros H. destruct (string_dec name (hdf_name filename)) as [->|E]; [now rewrite (C43_refuses_proof s filename d f H)|].
    now rewrite C43_others_proof.
  Qed.
  Lemma C43_created_proof (s : fs (T:=T) (F:=F)) filename (d : dict) : fst (save s filename d) (hdf_name filename) <> None.
  Proof.
    unfold save. destruct (s (hdf_name filename)) eqn:E; [cbn; congruence|]. destruct (dict_to_group "/" d []) as [f r]. cbn [fst].
    unfold fs_set. rewrite String.eqb_refl. discriminate.
  Qed.
  Lemma C43_load_reads_proof fuel (s s2 : fs (T:=T) (F:=F)) f1 f2 : hdf_name f1 = hdf_name f2 -> s (hdf_name f1) = s2 (hdf_name f1) -> load fuel s f1 = load fuel s2 f2.
  Proof. intros H1 H2. unfold load. now rewrite <- H1, H2. Qed.
End C43.
Lemma has_dot_free s : dot_free s -> has_dot s = false.
Proof.
  unfold dot_free. induction s as [|c s IH]; cbn; intros H; [reflexivity|]. destruct (Ascii.eqb_spec c dot_char) as [E|E]; [exfalso; apply H; left; exact E|].
  cbn. apply IH. auto.
Qed.
Lemma rsplit_free s : has_dot s = false -> rsplit_dot s = s.
Proof.
  induction s as [|c s IH]; cbn; intros H; [reflexivity|]. apply Bool.orb_false_iff in H as [H1 H2]. rewrite H1. cbn. now rewrite (IH H2).
Qed.
Lemma has_dot_app a b : has_dot (a ++ b) = (has_dot a || has_dot b)%bool.
Proof. induction a as [|c a IH]; cbn; [reflexivity|]. now rewrite IH, Bool.orb_assoc. Qed.
Lemma C43_extension_proof stem ext : dot_free ext -> hdf_name (stem ++ "." ++ ext) = (stem ++ ".hdf")%string.
Proof.
  intros H. apply has_dot_free in H. unfold hdf_name. f_equal. induction stem as [|c s IH]; cbn [append rsplit_dot].
  - cbn. now rewrite H.
  - rewrite has_dot_app. cbn [append has_dot]. rewrite Ascii.eqb_refl. cbn [orb]. rewrite Bool.orb_true_r. cbn [negb]. rewrite Bool.andb_false_r. f_equal. exact IH.
Qed.
Lemma C43_no_extension_proof stem : dot_free stem -> hdf_name stem = (stem ++ ".hdf")%string.
Proof. intros H. unfold hdf_name. now rewrite (rsplit_free _ (has_dot_free _ H)). Qed.

(** *** C42 *)
Section C42.
  Context {T F : Type}.
  Notation pyval := (pyval T F).
  Lemma unchanged_same n : forall v v' : pyval, (size v < n)%nat -> unchanged v -> loads_as v v' -> py_same v v'.
  Proof.
    induction n as [|n IH]; intros v v' Hn HU HL; [lia|].
    inversion HL as [| | | | | | | | |l l' HF|d d1 d' HP HF]; subst; try constructor; inversion HU; subst; try congruence.
    - assert (Hs : forall x, In x l -> (size x < n)%nat).
      { intros x Hx. cbn [size] in Hn. clear - Hn Hx. induction l as [|y l IH]; [contradiction|]. unfold list_sum in *. cbn in Hn. destruct Hx as [->|Hx]; [lia|apply IH; [lia|exact Hx]]. }
      clear - IH Hs HF H0. induction HF as [|x y l l' A B C]; constructor; inversion H0; subst.
      + apply IH; auto. apply Hs. now left.
      + apply C; auto. intros z Hz. apply Hs. now right.
    - eapply ps_dict; [exact HP|]. assert (Hs : forall kx, In kx d1 -> (size (snd kx) < n)%nat /\ unchanged (snd kx)).
      { intros [k x] Hx. apply (Permutation_in _ (Permutation_sym HP)) in Hx. split; [cbn [snd]; assert (A := size_In_dict d k x Hx); lia|].
        rewrite Forall_forall in H0. now apply H0. }
      clear - IH Hs HF. induction HF as [|x y l l' [A1 A2] B C]; constructor.
      + split; [exact A1|]. destruct (Hs x (or_introl eq_refl)). now apply IH.
      + apply C. intros z Hz. apply Hs. now right.
  Qed.
  Lemma C42_unchanged_proof (d : list (string * pyval)) s filename : key_names d -> Forall (fun kv => supported (snd kv)) d ->
    Forall (fun kv => unchanged (snd kv)) d -> s (hdf_name filename) = None ->
    exists s', save s filename d = (s', Ok tt)
      /\ exists n, forall fuel, (n <= fuel)%nat -> exists d', load fuel s' filename = Ok d' /\ py_same (VDict d) (VDict d').
  Proof.
    intros H1 H2 H3 H4. destruct (C42_proof d s filename H1 H2 H4) as (s' & A & n & B). exists s'. split; [exact A|].
    exists n. intros fuel Hf. destruct (B fuel Hf) as (d' & C & D). exists d'. split; [exact C|].
    eapply unchanged_same; [apply Nat.lt_succ_diag_r|now constructor|exact D].
  Qed.
End C42.

Section Again.
  Context {G Seed RS : Type} (X : Ext R G Seed RS).
  Context (to_d : list R -> list (string * val)) (of_d : list (string * val) -> Res (list R)).
  Context (Hd : dist_dicts to_d of_d).
  Lemma reachable_again u b : u_sub_sample_dt u = 1 -> reachable X u b ->
    exists b1, bootstrap_init (b_delta_t b) (b_displacements b) (b_n_o b) (b_sub_sample_dt b) (b_dimension b) = Ok b1
      /\ b_slice b1 = b_slice b /\ b_dims b1 = b_dims b /\ b_displacements b1 = b_displacements b /\ b_delta_t b1 = b_delta_t b /\ b_displacements b <> [].
  Proof.
    intros H1 H2. destruct (reachable_constructed X _ _ H2) as [C K].
    destruct (constructed_again b ltac:(lia) C) as (b1 & A1 & A2 & A3 & A4 & A5). exists b1.
    assert (K1 : b_sub_sample_dt b = 1) by congruence. rewrite K1 in A4. rewrite K1 in A5. rewrite py_stride_one in A4. rewrite py_stride_one in A5.
    injection A4 as A4. injection A5 as A5. repeat split; try congruence.
    destruct C as (dts & disps & n_o & b0 & E & E1 & _). unfold bootstrap_init in E. inv_bind E ds S1. inv_bind E ts S2. inv_bind E d0 S3. inv_bind E sl S4.
    injection E as <-. cbn in E1. rewrite E1. intros ->. discriminate.
  Qed.
  Lemma with_same b : with_data b (b_displacements b) (b_delta_t b) = b.
  Proof. destruct b; reflexivity. Qed.
  Lemma C42_analyzer_proof u a s filename : u_sub_sample_dt u = 1 -> reachable X u (an_diff a) ->
    an_disp_3d (an_data a) <> [] -> b_euclidian (an_diff a) <> [] -> s (hdf_name filename) = None ->
    exists s', analyzer_save to_d s filename a = (s', Ok tt) /\ exists n, forall fuel, (n <= fuel)%nat ->
      analyzer_load of_d fuel s' filename = Ok (mkAn (an_data a) (with_dim (an_diff a) (as_bytes (b_dimension (an_diff a))))).
  Proof.
    intros H1 H2 H3 H4 H5. destruct (reachable_again u _ H1 H2) as (b1 & A1 & A2 & A3 & A4 & A5 & A6).
    destruct (save_load_general to_d of_d Hd a s filename b1 H3 A6 H4 H5 A1 A2 A3) as (s' & B & n & C).
    exists s'. split; [exact B|]. exists n. intros fuel Hf. rewrite (C fuel Hf), A4, A5, with_same. reflexivity.
  Qed.
  (** Later calls do not see the difference. *)
  Lemma gls_with_dim b dm p g b' g' o : bootstrap_GLS X b p g = (b', g', o) -> bootstrap_GLS X (with_dim b dm) p g = (with_dim b' dm, g', o).
  Proof.
    unfold bootstrap_GLS. change (set_settings (with_dim b dm) p) with (with_dim (set_settings b p) dm).
    set (b1 := set_settings b p). set (g1 := match l_random_state p with Some rs => _ | None => g end).
    change (b_dt (with_dim b1 dm)) with (b_dt b1).
    change (generate_covariance_matrix X (with_dim b1 dm)) with (generate_covariance_matrix X b1).
    destruct (find_regime _ _ _) as [r|e]; [|intros H; injection H as <- <- <-; reflexivity].
    destruct (generate_covariance_matrix X b1 p r) as [[raw|] [cov|e]];
      try (intros H; injection H as <- <- <-; reflexivity).
    change (set_covariance (with_dim b1 dm) cov) with (with_dim (set_covariance b1 cov) dm).
    change (sample_gls X (with_dim (set_covariance b1 cov) dm)) with (sample_gls X (set_covariance b1 cov)).
    destruct (sample_gls X _ p r cov g1) as [g2 [chain|e]]; [|intros H; injection H as <- <- <-; reflexivity].
    destruct (ModelDiffusion.column 0 chain) as [gr|e]; destruct (l_fit_intercept p); try destruct (ModelDiffusion.column 1 chain) as [c|e']; cbn [bind];
      intros H; injection H as <- <- <-; reflexivity.
  Qed.
  Lemma C42_calls_proof b dm c g b' g' o : run_call X b g c = (b', g', o) -> run_call X (with_dim b dm) g c = (with_dim b' dm, g', o).
  Proof.
    destruct c as [p|p|k p t vol]; cbn [run_call]; unfold diffusion, jump_diffusion, conductivity;
      destruct (bootstrap_GLS X b p g) as [[b1 g1] r] eqn:E; rewrite (gls_with_dim _ dm _ _ _ _ _ E);
      (destruct r as [u|e]; [|intros H; injection H as <- <- <-; reflexivity]);
      change (b_gradient (with_dim b1 dm)) with (b_gradient b1);
      (destruct (samples_of (b_gradient b1)) as [gr|e]; [|intros H; injection H as <- <- <-; reflexivity]);
      try (intros H; injection H as <- <- <-; reflexivity).
    change (b_displacements (with_dim b1 dm)) with (b_displacements b1).
    destruct (py_index (b_displacements b1) 0) as [d0|e]; intros H; injection H as <- <- <-; reflexivity.
  Qed.

  (** *** C56: saving a loaded analyser *)
  Lemma C56_proof u a s filename filename2 : u_sub_sample_dt u = 1 -> reachable X u (an_diff a) ->
    an_disp_3d (an_data a) <> [] -> b_euclidian (an_diff a) <> [] -> s (hdf_name filename) = None ->
    exists s1, analyzer_save to_d s filename a = (s1, Ok tt) /\ exists n, forall fuel, (n <= fuel)%nat ->
      (exists a', analyzer_load of_d fuel s1 filename = Ok a') /\
      exists s2, load_and_save to_d of_d fuel s1 filename filename2 = (s2, Raise ValueError) /\ s2 (hdf_name filename2) <> None.
  Proof.
    intros H1 H2 H3 H4 H5. destruct (reachable_again u _ H1 H2) as (b1 & A1 & A2 & A3 & A4 & A5 & A6).
    destruct (C42_proof (analyzer_to_dict to_d a) s filename (analyzer_keys to_d a) (analyzer_supported to_d of_d Hd a H3 A6 H4) H5) as (s1 & S & n & L).
    exists s1. split; [exact S|]. exists n. intros fuel Hf. destruct (L fuel Hf) as (d' & Gd & La).
    assert (AL := analyzer_loaded to_d of_d Hd a b1 d' La A1 A2 A3).
    split; [eexists; unfold analyzer_load; rewrite Gd; cbn [bind]; exact AL|].
    unfold load_and_save. rewrite Gd. cbn [bind]. rewrite AL. cbn [bind]. unfold analyzer_to_dict_again.
    destruct (loaded_get _ d' "diff" (VDict (boot_to_dict to_d (an_diff a))) La (proj1 (analyzer_keys to_d a)) eq_refl) as (v & Gv & Lv).
    rewrite Gv. cbn [bind]. inversion Lv as [| | | | | | | | | |dd d1 d2 HP HF]; subst. unfold boot_to_dict_again.
    destruct (loaded_get _ d2 "max_obs" (VInt (Z.of_nat (b_max_obs (an_diff a)))) Lv (proj1 (boot_keys to_d (an_diff a))) eq_refl) as (v1 & G1 & L1).
    rewrite G1. cbn [bind]. apply loaded_int in L1 as [_ ->].
    destruct (loaded_get _ d2 "sub_sample_dt" (VInt (b_sub_sample_dt (an_diff a))) Lv (proj1 (boot_keys to_d (an_diff a))) eq_refl) as (v2 & G2 & L2).
    rewrite G2. cbn [bind].
    destruct (loaded_get _ d2 "model" (v_opt (fun x => VBool x) (b_model (an_diff a))) Lv (proj1 (boot_keys to_d (an_diff a))) eq_refl) as (v3 & G3 & L3).
    rewrite G3. cbn [bind].
    match goal with |- context [save s1 filename2 ?dd] => set (D := dd) end.
    destruct (s1 (hdf_name filename2)) as [f|] eqn:E.
    - exists s1. rewrite (C43_refuses_proof _ _ _ _ E). split; [reflexivity|congruence].
    - exists (fst (save s1 filename2 D)). split; [|apply C43_created_proof].
      unfold save. rewrite E. assert (B : forall f, snd (dict_to_group "/" D f) = Raise ValueError).
      { match goal with D := map ?h (analyzer_to_dict to_d ?aa) |- _ => assert (HI : In ("diff", snd (h ("diff", VDict []))) D) end.
        { subst D. cbn [analyzer_to_dict map fst snd String.eqb Ascii.eqb Bool.eqb]. do 4 right. left. reflexivity. }
        cbn [fst snd String.eqb Ascii.eqb Bool.eqb] in HI. eapply dict_bad; [exact HI|].
        eapply (put_bad_dict _ "max_obs" (VNpInt (Z.of_nat (b_max_obs (an_diff a))))); [|reflexivity].
        cbn [boot_to_dict map fst snd String.eqb Ascii.eqb Bool.eqb]. do 3 right. left. reflexivity. }
      specialize (B []). destruct (dict_to_group "/" D []) as [f r]. cbn [snd] in B. subst r. reflexivity.
  Qed.

  (** *** An analyser without analysed intervals cannot be loaded *)
  Definition without (k : string) (d : list (string * val)) := filter (fun kv => negb (String.eqb (fst kv) k)) d.
  Notation trimmed b := (without "euclidian_displacements" (boot_to_dict to_d b)).
  Lemma without_keys k d : key_names d -> key_names (without k d).
  Proof.
    intros [H1 H2]. split.
    - clear H2. induction d as [|[k' v] d IH]; cbn; [constructor|]. cbn in H1. inversion H1 as [|? ? A B]; subst.
      destruct (String.eqb k' k); cbn; [now apply IH|]. constructor; [|now apply IH]. intros Hin. apply A.
      apply in_map_iff in Hin as (x & <- & Hx). apply filter_In in Hx as [Hx _]. now apply in_map.
    - unfold without. rewrite Forall_forall in *. intros kv Hin. apply filter_In in Hin as [Hin _]. now apply H2.
  Qed.
  Lemma without_incl k d x : In x (without k d) -> In x d.
  Proof. intros H. now apply filter_In in H. Qed.
  Lemma without_In k d : ~ In k (map fst (without k d)).
  Proof.
    intros Hin. apply in_map_iff in Hin as (x & E & Hx). apply filter_In in Hx as [_ Hx]. rewrite E, String.eqb_refl in Hx. discriminate.
  Qed.
  Lemma trimmed_supported b : b_displacements b <> [] -> Forall (fun kv => supported (snd kv)) (trimmed b).
  Proof.
    intros H1. destruct (b_euclidian b) as [|x l] eqn:E.
    - unfold without. rewrite Forall_forall. intros kv Hin. apply filter_In in Hin as [Hin Hk].
      unfold boot_to_dict in Hin. cbn [In] in Hin.
      destruct Hin as [<-|Hin]; [now apply arrays_supported|].
      repeat (destruct Hin as [<-|Hin]; [cbn [snd]; try solve
        [ apply (opt_dist_supported to_d of_d Hd) | apply sup_flat; left; constructor
        | match goal with |- supported (v_opt _ ?o) => destruct o; cbn [v_opt]; apply sup_flat; first [left; constructor|right; reflexivity] end
        | match goal with |- supported (v_dim ?o) => destruct o; apply sup_flat; left; constructor end
        | destruct (b_distributions b); [apply sup_flat; now right|]; eapply dists_supported; [exact Hd|discriminate]
        | discriminate Hk ]|]). contradiction.
    - assert (B := boot_supported to_d of_d Hd b H1 ltac:(congruence)). unfold without. rewrite Forall_forall in *.
      intros kv Hin. apply filter_In in Hin as [Hin _]. now apply B.
  Qed.
  Lemma trimmed_not_listlike b : not_listlike (trimmed b).
  Proof.
    intros k v Hin _. apply (boot_names to_d b k v). exact (without_incl _ _ _ Hin).
  Qed.
  Definition trimmed_analyzer (a : Analyzer R) : list (string * val) :=
    [ ("delta_t", v1 (an_delta_t (an_data a)));
      ("disp_3d", VList (map (fun x => VArr (N3 x)) (an_disp_3d (an_data a))));
      ("n_o", v1 (an_n_o (an_data a)));
      ("volume", v_opt (fun x => VFloat x) (an_volume (an_data a)));
      ("diff", VDict (trimmed (an_diff a))) ].
  Lemma trimmed_analyzer_keys a : key_names (trimmed_analyzer a).
  Proof.
    split.
    - cbn [trimmed_analyzer map fst]. repeat constructor; cbn [In]; intuition discriminate.
    - unfold trimmed_analyzer. repeat (constructor; [cbn; repeat split; try discriminate; cbn; intuition discriminate|]). constructor.
  Qed.
  Lemma trimmed_analyzer_supported a : an_disp_3d (an_data a) <> [] -> b_displacements (an_diff a) <> [] ->
    Forall (fun kv => supported (snd kv)) (trimmed_analyzer a).
  Proof.
    intros H0 H1. unfold trimmed_analyzer. repeat first [ apply Forall_nil | apply Forall_cons; cbn [snd]; [|] ].
    - apply sup_flat; left; constructor.
    - now apply arrays_supported.
    - apply sup_flat; left; constructor.
    - destruct (an_volume (an_data a)); apply sup_flat; [left; constructor|now right].
    - apply sup_dict; [discriminate|apply without_keys, boot_keys|apply trimmed_not_listlike|now apply trimmed_supported].
  Qed.
  Lemma trimmed_save a s filename : b_euclidian (an_diff a) = [] -> analyzer_save to_d s filename a = save s filename (trimmed_analyzer a).
  Proof.
    intros H. unfold analyzer_save, save. destruct (s (hdf_name filename)); [reflexivity|].
    change (analyzer_to_dict to_d a) with (removelast (trimmed_analyzer a) ++ [("diff", VDict (boot_to_dict to_d (an_diff a)))])%list.
    change (trimmed_analyzer a) with (removelast (trimmed_analyzer a) ++ [("diff", VDict (trimmed (an_diff a)))])%list at 2.
    rewrite (map_last_dict "/" _ "diff" _ (VDict (trimmed (an_diff a)))); [reflexivity|]. intros f. rewrite !put_dict.
    set (b := an_diff a) in *.
    assert (E : boot_to_dict to_d b = (firstn 24 (boot_to_dict to_d b) ++ ("euclidian_displacements", VList []) :: skipn 25 (boot_to_dict to_d b))%list).
    { unfold boot_to_dict at 1. rewrite H. reflexivity. }
    rewrite E, drop_empty. reflexivity.
  Qed.
  Ltac tget k := match goal with HL : loads_as (VDict (trimmed ?b)) (VDict ?d') |- _ =>
      let r := eval cbn [dget boot_to_dict String.eqb Ascii.eqb Bool.eqb] in (dget k (boot_to_dict to_d b)) in
      match r with Ok ?v => 
        let V := fresh "V" in let G := fresh "G" in let L := fresh "L" in
        destruct (loaded_get _ d' k v HL (proj1 (without_keys _ _ (boot_keys to_d b))) eq_refl) as (V & G & L); rewrite G; cbn [bind] end end.
  Ltac taget k := match goal with HL : loads_as (VDict (trimmed_analyzer ?b)) (VDict ?d') |- _ =>
      let r := eval cbn [dget trimmed_analyzer String.eqb Ascii.eqb Bool.eqb] in (dget k (trimmed_analyzer b)) in
      match r with Ok ?v => 
        let V := fresh "V" in let G := fresh "G" in let L := fresh "L" in
        destruct (loaded_get _ d' k v HL (proj1 (trimmed_analyzer_keys b)) eq_refl) as (V & G & L); rewrite G; cbn [bind] end end.
  Lemma C42_nothing_proof u a s filename : u_sub_sample_dt u = 1 -> reachable X u (an_diff a) ->
    an_disp_3d (an_data a) <> [] -> b_euclidian (an_diff a) = [] -> s (hdf_name filename) = None ->
    exists s', analyzer_save to_d s filename a = (s', Ok tt) /\ exists n, forall fuel, (n <= fuel)%nat ->
      analyzer_load of_d fuel s' filename = Raise KeyError.
  Proof.
    intros H1 H2 H3 H4 H5. destruct (reachable_again u _ H1 H2) as (b1 & A1 & A2 & A3 & A4 & A5 & A6).
    rewrite trimmed_save by exact H4.
    destruct (C42_proof (trimmed_analyzer a) s filename (trimmed_analyzer_keys a) (trimmed_analyzer_supported a H3 A6) H5) as (s1 & S & n & L0).
    exists s1. split; [exact S|]. exists n. intros fuel Hf. destruct (L0 fuel Hf) as (d' & Gd & La). clear L0.
    unfold analyzer_load. rewrite Gd. cbn [bind]. unfold analyzer_from_dict, field.
    taget "delta_t". apply loaded_arr in L. subst V. cbn [as1 bind]. clear G0.
    taget "disp_3d". rewrite (loaded_as3 _ _ L). cbn [bind]. clear L G0 V.
    taget "n_o". apply loaded_arr in L. subst V. cbn [as1 bind]. clear G0.
    taget "volume". rewrite (loaded_float _ _ L). cbn [bind]. clear L G0 V.
    taget "diff". inversion L as [| | | | | | | | | |dd d1 d2 HP HF]; subst. unfold boot_from_dict, field.
    clear HP HF.
    set (b := an_diff a) in *.
    assert (E' : exists b2, bootstrap_init (b_delta_t b) (b_displacements b) (b_n_o b) (b_sub_sample_dt b) (as_bytes (b_dimension b)) = Ok b2).
    { unfold bootstrap_init in *. inv_bind A1 ds S1. inv_bind A1 ts S2. inv_bind A1 d0 S3. inv_bind A1 sl S4.
      rewrite S1. cbn [bind]. rewrite S2. cbn [bind]. rewrite S3. cbn [bind]. rewrite (bytes_dim _ _ S4). cbn [bind]. eexists. reflexivity. }
    destruct E' as (b2 & E2).
    assert (HS : exists sl, dict_get (pystr_lower (b_dimension b)) DIMENSIONALITY = Ok sl).
    { unfold bootstrap_init in A1. inv_bind A1 ds S1. inv_bind A1 ts S2. inv_bind A1 d0 S3. inv_bind A1 sl S4. eauto. }
    destruct HS as (sl & HS). rename L into LT.
    tget "delta_t". apply loaded_arr in L. subst V. cbn [as1 bind]. clear G1.
    tget "displacements". rewrite (loaded_as3 _ _ L). cbn [bind]. clear L G1 V.
    tget "n_o". apply loaded_arr in L. subst V. cbn [as1 bind]. clear G1.
    tget "sub_sample_dt". apply loaded_int in L as [L _]. rewrite L. cbn [bind]. clear L G1 V.
    tget "dimension". rewrite (loaded_dim _ _ _ HS L). cbn [bind]. clear L G1 V.
    rewrite E2. cbn [bind].
    tget "max_obs". apply loaded_int in L as [L _]. rewrite L. cbn [bind]. clear L G1 V.
    rewrite (loaded_missing _ d2 "euclidian_displacements" LT (without_In _ _)). reflexivity.
  Qed.
End Again.

(** ** Witnesses *)
Definition demo_to_d (l : list R) : list (string * val) := [("name", VStr "D"); ("samples", VArr (N1 l))].
Definition demo_of_d (d : list (string * val)) : Res (list R) := let! v := dget "samples" d in as1 v.
Lemma demo_dist_dicts : dist_dicts demo_to_d demo_of_d.
Proof.
  intros l. split; [discriminate|]. assert (K : key_names (demo_to_d l)).
  { split; [repeat constructor; cbn; intuition discriminate|]. repeat constructor; cbn; try discriminate; intuition discriminate. }
  split; [exact K|]. split; [|split].
  - intros k v Hin _. destruct Hin as [Hin|[Hin|[]]]; injection Hin as <- _; reflexivity.
  - repeat constructor.
  - intros d' HL. destruct (loaded_get _ d' "samples" (VArr (N1 l)) HL (proj1 K) eq_refl) as (v & Gv & Lv).
    apply loaded_arr in Lv. subst v. unfold demo_of_d. rewrite Gv. reflexivity.
Qed.
Section Demo.
  Context {G Seed RS : Type} (X : Ext R G Seed RS) (g : G).
  Lemma demo_analyzer : exists a, reachable X (demo_boot 1 "xyz") (an_diff a) /\ an_disp_3d (an_data a) <> [] /\ b_euclidian (an_diff a) <> [] /\ b_n (an_diff a) = [2;4]%R.
  Proof.
    destruct (demo_msd X g) as (b & E & Eb & _). exists (mkAn (mkAnalyzer [1;2]%R demo_disps [4;3]%R (Some 1%R)) b). cbn [an_diff an_data an_disp_3d].
    split; [exists b, []; split; [do 5 eexists; left; exact E|constructor]|]. split; [discriminate|]. split; [|exact Eb].
    destruct (msd_run X (demo_boot 1 "xyz") _ _ _ _ _ _ eq_refl E) as (axes & shown & N1 & N2 & H3 & H4 & _ & HR).
    rewrite (br_eucl _ _ _ _ _ _ _ _ _ _ HR). assert (L := br_n_len _ _ _ _ _ _ _ _ _ _ HR). rewrite Eb in L.
    destruct shown; [discriminate L|discriminate].
  Qed.
  Definition one_interval : AnalyzerData R := mkAnalyzer [1]%R [hop_arr] [1]%R (Some 1%R).
  Lemma C42_one_interval_proof to_d of_d : dist_dicts to_d of_d -> exists a,
    jump_diffusion_analyzer X one_interval (demo_boot 1 "xyz") g = Ok (a, g)
    /\ forall s filename, s (hdf_name filename) = None -> exists s', analyzer_save to_d s filename a = (s', Ok tt)
         /\ exists n, forall fuel, (n <= fuel)%nat -> analyzer_load of_d fuel s' filename = Raise KeyError.
  Proof.
    intros Hd. eexists. split; [reflexivity|]. intros s filename Hs.
    eapply (C42_nothing_proof X to_d of_d Hd (demo_boot 1 "xyz")); [reflexivity| |discriminate|reflexivity|exact Hs].
    eexists _, []. split; [|constructor]. exists [1]%R, [hop_arr], [1]%R, g, g. right. left. reflexivity.
  Qed.
End Demo.
