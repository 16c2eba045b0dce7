(** * ProofsHdf: saving and loading (C42, C43, C56) *)
From Verif Require Import Base ModelHdf SpecHdf Lemmas ProofsTraj SpecRun.
From Coq Require Import Ascii Permutation Lia Arith Sorting.Sorted.
Open Scope string_scope.
Open Scope nat_scope.

(** ** Strings *)
Lemma sapp_assoc (a b c : string) : ((a ++ b) ++ c = a ++ (b ++ c))%string.
Proof. induction a as [|x a IH]; cbn; [reflexivity|]. now rewrite IH. Qed.
Lemma sapp_nil (a : string) : (a ++ "" = a)%string.
Proof. induction a as [|x a IH]; cbn; [reflexivity|]. now rewrite IH. Qed.
Lemma sapp_inj (a b c : string) : (a ++ b = a ++ c)%string -> b = c.
Proof. induction a as [|x a IH]; cbn; [auto|]. intros H. injection H as H. auto. Qed.

(** ** Paths *)
Lemma split_aux_slash s : forall cur t, (split_path_aux cur (s ++ String slash t) = split_path_aux cur s ++ split_path t)%list.
Proof.
  induction s as [|c s IH]; intros cur t; cbn [append split_path_aux].
  - change (Ascii.eqb slash slash) with true. reflexivity.
  - destruct (Ascii.eqb c slash); [|apply IH]. now rewrite IH, app_assoc.
Qed.
Lemma split_slash s t : (split_path (s ++ "/" ++ t) = split_path s ++ split_path t)%list.
Proof. exact (split_aux_slash s "" t). Qed.
Lemma split_aux_plain s : forall cur, ~ In slash (list_ascii_of_string s) -> split_path_aux cur s = component (cur ++ s).
Proof.
  induction s as [|c s IH]; intros cur H; cbn [split_path_aux].
  - now rewrite sapp_nil.
  - destruct (Ascii.eqb_spec c slash) as [->|Hc]; [exfalso; apply H; now left|].
    rewrite IH by (intros Hin; apply H; now right). now rewrite sapp_assoc.
Qed.
Lemma split_key k : key_name k -> split_path k = [k].
Proof.
  intros (H1 & H2 & H3). unfold split_path. rewrite split_aux_plain by exact H3. cbn [append]. unfold component.
  apply String.eqb_neq in H1, H2. now rewrite H1, H2.
Qed.
(** A path, ready for a name to be appended. *)
Definition path_ok (path : string) (comps : list string) : Prop := forall s, (split_path (path ++ s) = comps ++ split_path s)%list.
Lemma path_root : path_ok "/" [].
Proof. intros s. reflexivity. Qed.
Lemma path_sub path comps k : path_ok path comps -> key_name k -> path_ok (path ++ k ++ "/") (comps ++ [k]).
Proof.
  intros H Hk s. rewrite !sapp_assoc, H. rewrite split_slash, (split_key k Hk). now rewrite app_assoc.
Qed.
Lemma path_here path comps : path_ok path comps -> split_path path = comps.
Proof. intros H. specialize (H ""). rewrite sapp_nil in H. rewrite H. now rewrite app_nil_r. Qed.

(** ** Decimal names *)
Lemma digit_val_digit n : n < 10 -> digit_val (digit n) = Some n.
Proof. intros H. do 10 (destruct n as [|n]; [reflexivity|]). lia. Qed.
Lemma dec_digits_spec fuel : forall n acc, n < fuel -> exists s, dec_digits fuel n acc = (s ++ acc)%string /\ s <> ""
  /\ forall rest, parse_dec_aux (s ++ rest) 0 = parse_dec_aux rest n.
Proof.
  induction fuel as [|fuel IH]; intros n acc Hn; [lia|]. cbn [dec_digits].
  assert (Hm := Nat.mod_upper_bound n 10 ltac:(lia)). assert (Hd := Nat.div_mod n 10 ltac:(lia)).
  destruct (Nat.div n 10) as [|q] eqn:Eq.
  - exists (String (digit (Nat.modulo n 10)) ""). split; [reflexivity|]. split; [discriminate|].
    intros rest. cbn [append parse_dec_aux]. rewrite digit_val_digit by exact Hm. f_equal. lia.
  - assert (q < n) by (assert (n / 10 <= n) by (apply Nat.div_le_upper_bound; lia); destruct n; [discriminate|]; lia).
    assert (Hq : S q < fuel).
    { assert (S q < n) by (rewrite <- Eq; apply Nat.div_lt; lia). lia. }
    destruct (IH (S q) (String (digit (Nat.modulo n 10)) acc) Hq) as (s & E & Hs & HP).
    exists (s ++ String (digit (Nat.modulo n 10)) "")%string. split; [rewrite E, sapp_assoc; reflexivity|].
    split; [destruct s; discriminate|]. intros rest. rewrite sapp_assoc. cbn [append]. rewrite HP. cbn [parse_dec_aux].
    rewrite digit_val_digit by exact Hm. f_equal. lia.
Qed.
Lemma parse_dec_dec n : parse_dec (dec n) = Ok n.
Proof.
  unfold parse_dec, dec. destruct (dec_digits_spec (S n) n "" ltac:(lia)) as (s & E & Hs & HP). rewrite E.
  specialize (HP ""). rewrite sapp_nil in *. apply String.eqb_neq in Hs. rewrite Hs, HP. reflexivity.
Qed.
Lemma parse_no_slash s : forall k n, parse_dec_aux s k = Some n -> ~ In slash (list_ascii_of_string s).
Proof.
  induction s as [|c s IH]; intros k n H; cbn in *; [auto|]. destruct (digit_val c) as [v|] eqn:E; [|discriminate].
  intros [->|Hin]; [discriminate E|]. eapply IH; eauto.
Qed.
Lemma drop4_list s : drop4 4 ("list" ++ s) = s.
Proof. reflexivity. Qed.
Lemma take4_list s : take4 4 ("list" ++ s) = "list".
Proof. reflexivity. Qed.
Lemma in_app_string c a b : In c (list_ascii_of_string (a ++ b)) <-> In c (list_ascii_of_string a) \/ In c (list_ascii_of_string b).
Proof. induction a as [|x a IH]; cbn; [tauto|]. rewrite IH. tauto. Qed.
Lemma key_name_list n : key_name ("list" ++ dec n).
Proof.
  split; [discriminate|]. split; [discriminate|]. intros H. cbn in H.
  assert (In slash (list_ascii_of_string (dec n))) as Hs by (repeat (destruct H as [H|H]; [discriminate|]); exact H).
  assert (E := parse_dec_dec n). unfold parse_dec in E. destruct (String.eqb _ _); [discriminate|].
  destruct (parse_dec_aux (dec n) 0) as [m|] eqn:E2; [|discriminate]. eapply parse_no_slash; eauto.
Qed.
Lemma dec_inj m n : dec m = dec n -> m = n.
Proof. intros H. assert (E := parse_dec_dec m). rewrite H, parse_dec_dec in E. congruence. Qed.
Lemma take4_prefix s : (take4 4 s =? "list")%string = String.prefix "list" s.
Proof.
  assert (E : take4 4 s = String.substring 0 4 s) by (do 4 (destruct s as [|? s]; [reflexivity|]); destruct s; reflexivity).
  rewrite E. assert (P := String.prefix_correct "list" s). change (String.length "list") with 4 in P.
  destruct (String.eqb_spec (String.substring 0 4 s) "list") as [H|H]; destruct (String.prefix "list" s); tauto || intuition congruence.
Qed.

Lemma ascii_refl c : Ascii.compare c c = Eq.
Proof. unfold Ascii.compare. apply N.compare_refl. Qed.
Lemma ascii_eq a b : Ascii.compare a b = Eq -> a = b.
Proof. apply Ascii.compare_eq_iff. Qed.
Lemma ascii_lt_trans a b c : Ascii.compare a b = Lt -> Ascii.compare b c = Lt -> Ascii.compare a c = Lt.
Proof. unfold Ascii.compare. rewrite !N.compare_lt_iff. lia. Qed.
Lemma compare_refl a : String.compare a a = Eq.
Proof. induction a as [|c a IH]; cbn; [reflexivity|]. now rewrite ascii_refl. Qed.
Lemma compare_eq a b : String.compare a b = Eq -> a = b.
Proof. apply String.compare_eq_iff. Qed.
Lemma compare_lt_trans a : forall b c, String.compare a b = Lt -> String.compare b c = Lt -> String.compare a c = Lt.
Proof.
  induction a as [|x a IH]; intros [|y b] [|z c]; cbn; try discriminate; try reflexivity.
  destruct (Ascii.compare x y) eqn:E1; try discriminate.
  - apply ascii_eq in E1. subst y. destruct (Ascii.compare x z) eqn:E2; try discriminate; [apply IH|reflexivity].
  - intros _. destruct (Ascii.compare y z) eqn:E2; try discriminate.
    + apply ascii_eq in E2. subst z. now rewrite E1.
    + now rewrite (ascii_lt_trans _ _ _ E1 E2).
Qed.

(** ** Sorted members *)
Section Members.
  Context {V : Type}.
  Fixpoint placeG (k : string) (v : V) (l : list (string * V)) : list (string * V) :=
    match l with
    | [] => [(k, v)]
    | (k', v') :: t =>
        match String.compare k k' with
        | Eq => (k, v) :: t
        | Lt => (k, v) :: l
        | Gt => (k', v') :: placeG k v t
        end
    end.
  Fixpoint assoc (k : string) (l : list (string * V)) : option V :=
    match l with [] => None | (k', v) :: t => if String.eqb k k' then Some v else assoc k t end.
  Definition collect (m : list (string * V)) (l : list (string * V)) := fold_left (fun m kv => placeG (fst kv) (snd kv) m) l m.

  Lemma assoc_place_same k v l : assoc k (placeG k v l) = Some v.
  Proof.
    induction l as [|[k' v'] t IH]; cbn; [now rewrite String.eqb_refl|].
    destruct (String.compare k k') eqn:E; cbn; rewrite ?String.eqb_refl; try reflexivity.
    destruct (String.eqb_spec k k') as [->|]; [rewrite compare_refl in E; discriminate|exact IH].
  Qed.
  Lemma assoc_place_other k k1 v l : k1 <> k -> assoc k1 (placeG k v l) = assoc k1 l.
  Proof.
    intros H. apply String.eqb_neq in H. induction l as [|[k' v'] t IH]; cbn; [now rewrite H|].
    destruct (String.compare k k') eqn:E; cbn; rewrite ?H; try reflexivity.
    - apply compare_eq in E. subst k'. now rewrite H.
    - now rewrite IH.
  Qed.
  Lemma place_place k v v' l : placeG k v (placeG k v' l) = placeG k v l.
  Proof.
    induction l as [|[k1 v1] t IH]; cbn; [now rewrite compare_refl|].
    destruct (String.compare k k1) eqn:E; cbn; rewrite ?compare_refl, ?E; try reflexivity. now rewrite IH.
  Qed.
  Lemma place_perm k v l : ~ In k (map fst l) -> Permutation ((k, v) :: l) (placeG k v l).
  Proof.
    induction l as [|[k1 v1] t IH]; cbn; intros H; [constructor; constructor|].
    destruct (String.compare k k1) eqn:E.
    - apply compare_eq in E. subst. tauto.
    - reflexivity.
    - rewrite perm_swap. constructor. apply IH. tauto.
  Qed.
  Lemma assoc_none k l : assoc k l = None <-> ~ In k (map fst l).
  Proof.
    induction l as [|[k' v'] t IH]; cbn; [tauto|]. destruct (String.eqb_spec k k') as [->|H]; [split; [discriminate|tauto]|].
    rewrite IH. intuition congruence.
  Qed.
  Lemma assoc_In k v l : NoDup (map fst l) -> In (k, v) l -> assoc k l = Some v.
  Proof.
    induction l as [|[k' v'] t IH]; cbn; intros HN H; [destruct H|].
    inversion HN as [|? ? Hn HN']; subst. destruct H as [H|H].
    - injection H as -> ->. now rewrite String.eqb_refl.
    - destruct (String.eqb_spec k k') as [->|Hk]; [|now apply IH]. exfalso. apply Hn. now apply (in_map fst) in H.
  Qed.
  Lemma collect_perm l : forall m, NoDup (map fst l) -> (forall k, In k (map fst l) -> ~ In k (map fst m)) ->
    Permutation (l ++ m) (collect m l).
  Proof.
    induction l as [|[k v] t IH]; intros m HN HD; cbn [collect fold_left app]; [reflexivity|]. inversion HN as [|? ? Hn HN']; subst.
    assert (HP := place_perm k v m (HD k (or_introl eq_refl))).
    rewrite <- (IH (placeG k v m)); [| assumption |].
    - rewrite <- HP. apply Permutation_middle.
    - intros k1 H1 H3. apply (Permutation_in k1 (Permutation_map fst (Permutation_sym HP))) in H3. cbn in H3.
      destruct H3 as [<-|H3]; [contradiction|]. apply (HD k1); [now right|exact H3].
  Qed.
  (** Increasing names. *)
  Definition ordered (l : list (string * V)) : Prop := StronglySorted (fun a b => String.compare (fst a) (fst b) = Lt) l.
  Lemma place_ordered k v l : ordered l -> ordered (placeG k v l).
  Proof.
    unfold ordered. induction l as [|[k1 v1] t IH]; cbn [placeG]; intros H; [constructor; [constructor|constructor]|].
    inversion H as [|? ? H1 H2]; subst. destruct (String.compare k k1) eqn:E.
    - apply compare_eq in E. subst. constructor; assumption.
    - constructor; [exact H|]. constructor; [exact E|]. eapply Forall_impl; [|exact H2]. cbv beta. cbn [fst]. intros [k2 v2] H3.
      cbn in *. eapply compare_lt_trans; eauto.
    - constructor; [now apply IH|]. apply Forall_forall. intros [k2 v2] Hin. cbn [fst].
      assert (Hc : k2 = k \/ exists v0, In (k2, v0) t).
      { clear -Hin. induction t as [|[k3 v3] t IH]; cbn in Hin.
        - destruct Hin as [Hin|[]]. injection Hin as <- <-. now left.
        - destruct (String.compare k k3) eqn:E3; cbn in Hin.
          + destruct Hin as [Hin|Hin]; [injection Hin as <- <-; now left|right; exists v2; now right].
          + destruct Hin as [Hin|Hin]; [injection Hin as <- <-; now left|right; exists v2; exact Hin].
          + destruct Hin as [Hin|Hin]; [injection Hin as <- <-; right; exists v3; now left|].
            destruct (IH Hin) as [->|(v0 & Hv)]; [now left|right; exists v0; now right]. }
      destruct Hc as [->|(v0 & Hv)].
      + rewrite String.compare_antisym. now rewrite E.
      + rewrite Forall_forall in H2. exact (H2 _ Hv).
  Qed.
End Members.

Lemma place_map {V W} (g : V -> W) k v (l : list (string * V)) :
  placeG k (g v) (map (fun kv => (fst kv, g (snd kv))) l) = map (fun kv => (fst kv, g (snd kv))) (placeG k v l).
Proof.
  induction l as [|[k1 v1] t IH]; cbn; [reflexivity|]. destruct (String.compare k k1); cbn; try reflexivity. now rewrite IH.
Qed.
Lemma collect_map {V W} (g : V -> W) (l : list (string * V)) : forall m,
  collect (map (fun kv => (fst kv, g (snd kv))) m) (map (fun kv => (fst kv, g (snd kv))) l)
  = map (fun kv => (fst kv, g (snd kv))) (collect m l).
Proof. induction l as [|[k v] t IH]; intros m; [reflexivity|].
  cbn [map collect fold_left fst snd]. rewrite place_map. apply (IH (placeG k v m)). Qed.
Lemma collect_ordered {V} (l : list (string * V)) : forall m, ordered m -> ordered (collect m l).
Proof. induction l as [|[k v] t IH]; intros m H; [exact H|].
  cbn [collect fold_left fst snd]. apply (IH (placeG k v m)). now apply place_ordered. Qed.
Lemma collect_perm0 {V} (l : list (string * V)) : NoDup (map fst l) -> Permutation l (collect [] l).
Proof. intros H. rewrite <- (collect_perm l [] H); [now rewrite app_nil_r|]. intros ? _ []. Qed.
Lemma assoc_collect {V} (l : list (string * V)) k v : NoDup (map fst l) -> In (k, v) l -> assoc k (collect [] l) = Some v.
Proof.
  intros HN Hin. assert (HP := collect_perm0 l HN). apply assoc_In.
  - eapply Permutation_NoDup; [|exact HN]. now apply Permutation_map.
  - now apply (Permutation_in _ HP).
Qed.

(** ** Trees *)
Section Trees.
  Context {T F : Type}.
  Notation pyval := (pyval T F).
  Notation node := (node T F).

  Lemma place_G k (v : node) l : place k v l = placeG k v l.
  Proof. induction l as [|[k' v'] t IH]; cbn; [reflexivity|]. now rewrite IH. Qed.
  Lemma lookup_G k (l : list (string * node)) : lookup k l = assoc k l.
  Proof. induction l as [|[k' v'] t IH]; cbn; [reflexivity|]. now rewrite IH. Qed.

  Definition members (n : node) : list (string * node) := match n with Group m => m | Dataset _ => [] end.
  (** Put [n] at [path], whatever is there. *)
  Fixpoint over (path : list string) (n root : node) : node :=
    match path with
    | [] => n
    | k :: rest => Group (placeG k (over rest n (match assoc k (members root) with Some c => c | None => Group [] end)) (members root))
    end.
  (** Nothing is at [path], and no dataset is on the way. *)
  Fixpoint free (path : list string) (root : node) : Prop :=
    match path with
    | [] => False
    | k :: rest => match root with
                   | Dataset _ => False
                   | Group m => match assoc k m with None => True | Some c => free rest c end
                   end
    end.
  Lemma h5_set_step k k2 rest (l : leaf T F) m : h5_set (k :: k2 :: rest) l m =
    match lookup k m with
    | Some (Dataset _) => Raise ValueError
    | Some (Group sub) => let! sub' := h5_set (k2 :: rest) l sub in Ok (place k (Group sub') m)
    | None => let! sub' := h5_set (k2 :: rest) l [] in Ok (place k (Group sub') m)
    end.
  Proof. reflexivity. Qed.
  Lemma h5_set_over path l : forall m, free path (Group m) ->
    exists m', h5_set path l m = Ok m' /\ Group m' = over path (Dataset l) (Group m).
  Proof.
    assert (K0 : forall path l, path <> [] -> exists m', h5_set path l [] = Ok m' /\ Group m' = over path (Dataset (l : leaf T F)) (Group [])).
    { clear. induction path as [|k [|k2 rest] IH]; intros l H; [congruence| |].
      - cbn. eauto.
      - destruct (IH l ltac:(discriminate)) as (m' & E & E2). rewrite h5_set_step. cbn [lookup]. rewrite E. cbn [bind]. eexists. split; [reflexivity|].
        rewrite place_G. cbn [over members assoc] in *. now rewrite <- E2. }
    induction path as [|k [|k2 rest] IH]; intros m H; [destruct H| |].
    - cbn in H. cbn [h5_set over members]. rewrite lookup_G. destruct (assoc k m) as [c|] eqn:E; [destruct H|].
      eexists. split; [reflexivity|]. now rewrite place_G.
    - cbn [free] in H. rewrite h5_set_step, lookup_G. destruct (assoc k m) as [c|] eqn:E.
      + destruct c as [l0|sub]; [destruct H|]. destruct (IH sub H) as (m' & E1 & E2). rewrite E1. cbn [bind].
        eexists. split; [reflexivity|]. rewrite place_G, E2. cbn [over members]. rewrite E. reflexivity.
      + destruct (K0 (k2 :: rest) l ltac:(discriminate)) as (m' & E1 & E2). rewrite E1. cbn [bind].
        eexists. split; [reflexivity|]. rewrite place_G, E2. cbn [over members]. rewrite E. reflexivity.
  Qed.
  Lemma get_app p q : forall root n : node, h5_get p root = Ok n -> h5_get (p ++ q)%list root = h5_get q n.
  Proof.
    induction p as [|k p IH]; intros root n H; cbn in *; [congruence|]. destruct root as [?|m]; [discriminate|].
    destruct (lookup k m) as [c|]; [|discriminate]. now apply IH.
  Qed.
  Lemma get_over p n : forall root : node, h5_get p (over p n root) = Ok n.
  Proof.
    induction p as [|k p IH]; intros root; cbn; [reflexivity|]. rewrite lookup_G, assoc_place_same. apply IH.
  Qed.
  Lemma over_over p n n' : forall root, over p n (over p n' root) = over p n root.
  Proof.
    induction p as [|k p IH]; intros root; cbn; [reflexivity|]. rewrite assoc_place_same, IH, place_place. reflexivity.
  Qed.
  (** What [path] holds, when it may be written below. *)
  Definition holds (p : list string) (root : node) (m : list (string * node)) : Prop :=
    h5_get p root = Ok (Group m) \/ (m = [] /\ free p root).
  Lemma over_below p k n m : forall root, holds p root m -> over (p ++ [k]) n root = over p (Group (placeG k n m)) root.
  Proof.
    induction p as [|k1 p IH]; intros root H; cbn [app over].
    - destruct H as [H|[_ []]]. cbn in H. injection H as ->. reflexivity.
    - do 2 f_equal. destruct root as [?|ms]; [destruct H as [H|[_ []]]; discriminate|]. cbn [members].
      destruct (assoc k1 ms) as [c|] eqn:E.
      + apply IH. destruct H as [H|[-> H]]; cbn in H; rewrite ?lookup_G, E in H; [left; exact H|right; split; [reflexivity|exact H]].
      + destruct H as [H|[-> H]]; [cbn in H; rewrite lookup_G, E in H; discriminate|].
        clear. induction p as [|k2 p IH]; cbn; [reflexivity|]. now rewrite IH.
  Qed.
  Lemma free_below p k m : forall root, holds p root m -> assoc k m = None -> free (p ++ [k]) root.
  Proof.
    induction p as [|k1 p IH]; intros root H Hk; cbn [app free].
    - destruct H as [H|[_ []]]. cbn in H. injection H as ->. now rewrite Hk.
    - destruct root as [?|ms]; [destruct H as [H|[_ []]]; discriminate|].
      destruct (assoc k1 ms) as [c|] eqn:E; [|exact I].
      apply IH; [|exact Hk]. destruct H as [H|[-> H]]; cbn in H; rewrite ?lookup_G, E in H; [left; exact H|right; split; [reflexivity|exact H]].
  Qed.
  Lemma holds_over p root m : holds p (over p (Group m) root) m.
  Proof. left. apply get_over. Qed.

  (** The tree of a value. *)
  Definition names_of (n : nat) : list string := map (fun i => "list" ++ dec i)%string (seq 0 n).
  Fixpoint tree (v : pyval) : node :=
    match v with
    | VList l => Group (collect [] (combine (names_of (length l)) (map tree l)))
    | VDict d => Group (collect [] (map (fun kv => let '(k, x) := kv in (k, tree x)) d))
    | VNone => Dataset (LBytes "NULL")
    | VArr a => Dataset (LArr a) | VInt z => Dataset (LInt z) | VBool b => Dataset (LBool b)
    | VFloat x => Dataset (LFloat x) | VStr s => Dataset (LBytes s) | VBytes s => Dataset (LBytes s)
    | VNpInt _ | VNpBool _ | VOther => Group []
    end.
  Definition tree_dict (d : list (string * pyval)) : list (string * node) :=
    collect [] (map (fun kv => (fst kv, tree (snd kv))) d).
  Lemma tree_VDict d : tree (VDict d) = Group (tree_dict d).
  Proof. cbn [tree]. unfold tree_dict. do 2 f_equal. apply map_ext. now intros [k x]. Qed.

  Definition writes (path : list string) (v : pyval) (f : file T F) (r : wres) : Prop :=
    snd r = Ok tt /\ Group (fst r) = over path (tree v) (Group f).
  Lemma write_leaf path l f : free (split_path path) (Group f) -> 
    exists f', h5_write f path l = (f', Ok tt) /\ Group f' = over (split_path path) (Dataset l) (Group f).
  Proof.
    intros H. unfold h5_write. destruct (h5_set_over _ l f H) as (m & -> & E). eauto.
  Qed.
  Lemma atom_storable v : atom v -> exists l, storable v = Some l /\ tree v = Dataset l.
  Proof. intros H. inversion H; cbn; eauto. Qed.

  Lemma put_dict path (d : list (string * pyval)) f : put path (VDict d) f = dict_to_group (path ++ "/") d f.
  Proof.
    cbn [put]. revert f. induction d as [|[k x] t IH]; intros f; cbn [dict_to_group]; [reflexivity|].
    rewrite sapp_assoc. destruct (put (path ++ "/" ++ k) x f) as [f' [[]|e]]; [apply IH|reflexivity].
  Qed.
  Fixpoint put_list (path : string) (i : nat) (l : list pyval) (f : file T F) : wres :=
    match l with
    | [] => (f, Ok tt)
    | d :: rest =>
        match match storable d with
              | Some lf => h5_write f (path ++ "/list" ++ dec i) lf
              | None => match d with VDict dd => put (path ++ "/list" ++ dec i) d f | _ => (f, Ok tt) end
              end with
        | (f', Ok _) => put_list path (S i) rest f'
        | (f', Raise e) => (f', Raise e)
        end
    end.
  Lemma put_VList path (l : list pyval) f : put path (VList l) f = put_list path 0 l f.
  Proof.
    cbn [put]. generalize 0. revert f. induction l as [|d l IH]; intros f i; cbn [put_list]; [reflexivity|].
    destruct d as [ar|z|b|x|z|b|s|s| |l0|dd|]; cbn [storable];
      try (match goal with |- (let (_, _) := h5_write ?a ?b ?c in _) = _ => destruct (h5_write a b c) as [f' [[]|e]] end; [apply IH|reflexivity]);
      try apply IH.
    rewrite put_dict. match goal with |- (let (_, _) := ?X in _) = _ => assert (E : X = dict_to_group ((path ++ "/list" ++ dec i) ++ "/") dd f) end.
    { clear IH. revert f. induction dd as [|[k x] t IHd]; intros f; cbn [dict_to_group]; [reflexivity|].
      replace (((path ++ "/list" ++ dec i) ++ "/") ++ k)%string with (path ++ "/list" ++ dec i ++ "/" ++ k)%string by now rewrite !sapp_assoc.
      destruct (put _ x f) as [f' [[]|e]]; [apply IHd|reflexivity]. }
    rewrite E. destruct (dict_to_group _ dd f) as [f' [[]|e]]; [apply IH|reflexivity].
  Qed.

  (** Writing the entries of a dictionary, given that each value is written. *)
  Definition written (path : string) (v : pyval) : Prop := forall f, free (split_path path) (Group f) ->
    exists f', put path v f = (f', Ok tt) /\ Group f' = over (split_path path) (tree v) (Group f).
  Lemma write_entries path comps : path_ok path comps -> forall d f m, holds comps (Group f) m ->
    Forall (fun kv => key_name (fst kv) /\ written (path ++ fst kv) (snd kv)) d -> NoDup (map fst d) ->
    (forall k, In k (map fst d) -> ~ In k (map fst m)) ->
    exists f', dict_to_group path d f = (f', Ok tt)
      /\ (d <> [] -> Group f' = over comps (Group (collect m (map (fun kv => (fst kv, tree (snd kv))) d))) (Group f))
      /\ (d = [] -> f' = f).
  Proof.
    intros HP. induction d as [|[k x] d IH]; intros f m Hh HF HN HD; cbn [dict_to_group].
    - exists f. split; [reflexivity|]. split; [congruence|reflexivity].
    - inversion HF as [|? ? [Hk Hw] HF']; subst. cbn [map fst] in HN. inversion HN as [|? ? Hn HN']; subst. cbn [fst snd] in *.
      assert (Hp : split_path (path ++ k) = (comps ++ [k])%list) by (rewrite HP; now rewrite split_key).
      destruct (Hw f) as (f1 & E1 & E2).
      { rewrite Hp. eapply free_below; [exact Hh|]. apply assoc_none, HD. now left. }
      rewrite E1, Hp in *. rewrite (over_below _ _ _ _ _ Hh) in E2.
      assert (Hh1 : holds comps (Group f1) (placeG k (tree x) m)) by (rewrite E2; apply holds_over).
      destruct (IH f1 _ Hh1 HF' HN') as (f2 & E3 & E4 & E5).
      { intros k1 H1 H2. destruct (string_dec k1 k) as [->|Hne]; [contradiction|].
        apply (HD k1); [now right|]. assert (A1 : assoc k1 (placeG k (tree x) m) <> None) by (intros A; apply assoc_none in A; contradiction).
        rewrite assoc_place_other in A1 by exact Hne. destruct (assoc k1 m) eqn:A2; [|congruence].
        destruct (in_dec string_dec k1 (map fst m)) as [|Hni]; [assumption|]. apply assoc_none in Hni. congruence. }
      exists f2. split; [exact E3|]. split; [intros _|discriminate]. cbn [map collect fold_left fst snd].
      destruct d as [|e d].
      + rewrite (E5 eq_refl). exact E2.
      + rewrite (E4 ltac:(discriminate)). rewrite E2, over_over. reflexivity.
  Qed.
  Lemma write_dict path comps d f m : path_ok path comps -> holds comps (Group f) m -> d <> [] -> key_names d ->
    (forall k, In k (map fst d) -> ~ In k (map fst m)) ->
    Forall (fun kv => written (path ++ fst kv) (snd kv)) d ->
    exists f', dict_to_group path d f = (f', Ok tt)
      /\ Group f' = over comps (Group (collect m (map (fun kv => (fst kv, tree (snd kv))) d))) (Group f).
  Proof.
    intros HP Hh Hd [HN HK] HD HF. destruct (write_entries path comps HP d f m Hh) as (f' & E1 & E2 & _); try assumption.
    - rewrite Forall_forall in *. intros kv Hin. split; [now apply HK|now apply HF].
    - eauto.
  Qed.
  Lemma written_flat path v : flat v -> written path v.
  Proof.
    intros [H|H] f Hf.
    - destruct (atom_storable v H) as (l & E1 & E2). destruct (write_leaf path l f Hf) as (f' & E3 & E4).
      exists f'. rewrite E2. split; [|exact E4]. rewrite <- E3. inversion H; subst; cbn in *; congruence.
    - subst v. destruct (write_leaf path (LBytes "NULL") f Hf) as (f' & E3 & E4). exists f'. split; [exact E3|exact E4].
  Qed.
  (** A path with a last name. *)
  Definition ends_in (path : string) (comps : list string) (k : string) : Prop :=
    path_ok (path ++ "/") (comps ++ [k]) /\ split_path path = (comps ++ [k])%list.
  Lemma ends_sub path comps k : path_ok path comps -> key_name k -> ends_in (path ++ k) comps k.
  Proof.
    intros H Hk. split; [rewrite sapp_assoc; now apply path_sub|]. rewrite H. now rewrite split_key.
  Qed.
  Lemma written_dict path comps k d : ends_in path comps k -> d <> [] -> key_names d ->
    (forall k' x, In (k', x) d -> written ((path ++ "/") ++ k') x) -> written path (VDict d).
  Proof.
    intros [H1 H2] Hd Hk HW f Hf. rewrite put_dict, tree_VDict, H2.
    destruct (write_dict (path ++ "/") (comps ++ [k]) d f [] H1) as (f' & E1 & E2); try assumption.
    - right. split; [reflexivity|]. now rewrite <- H2.
    - intros ? _ [].
    - apply Forall_forall. intros [k' x] Hin. now apply HW.
    - eauto.
  Qed.
  Lemma written_item path comps k v : ends_in path comps k -> item v -> written path v.
  Proof.
    intros He H. destruct H as [v H|d H1 H2 H3].
    - apply written_flat. now left.
    - eapply written_dict; try eassumption. intros k' x Hin. apply written_flat. rewrite Forall_forall in H3. exact (H3 _ Hin).
  Qed.
  Lemma put_item path (v : pyval) f : item v -> 
    match storable v with
    | Some lf => h5_write f path lf
    | None => match v with VDict dd => put path v f | _ => (f, Ok tt) end
    end = put path v f.
  Proof. intros H. destruct H as [v H|d H1 H2 H3]; [|reflexivity]. inversion H; reflexivity. Qed.
  Lemma list_names_lt n : forall s, combine (map (fun i => ("list" ++ dec i)%string) (seq s n)) (seq s n) = map (fun i => (("list" ++ dec i)%string, i)) (seq s n).
  Proof. induction n as [|n IH]; intros s; cbn [seq map combine]; [reflexivity|]. now rewrite IH. Qed.
  Lemma write_items path comps k : ends_in path comps k -> forall l i f m, holds (comps ++ [k]) (Group f) m -> Forall item l ->
    (forall j, i <= j -> ~ In ("list" ++ dec j)%string (map fst m)) ->
    exists f', put_list path i l f = (f', Ok tt)
      /\ (l <> [] -> Group f' = over (comps ++ [k]) (Group (collect m (combine (map (fun i => "list" ++ dec i)%string (seq i (length l))) (map tree l)))) (Group f))
      /\ (l = [] -> f' = f).
  Proof.
    intros [H1 H2]. induction l as [|v l IH]; intros i f m Hh HF HD; cbn [put_list].
    - exists f. split; [reflexivity|]. split; [congruence|reflexivity].
    - inversion HF as [|? ? Hv HF']; subst. rewrite put_item by exact Hv.
      assert (He : ends_in (path ++ "/list" ++ dec i) (comps ++ [k]) ("list" ++ dec i)).
      { change ("/list" ++ dec i)%string with ("/" ++ "list" ++ dec i)%string. rewrite <- sapp_assoc. apply ends_sub; [exact H1|apply key_name_list]. }
      destruct (written_item _ _ _ _ He Hv f) as (f1 & E1 & E2).
      { rewrite (proj2 He). eapply free_below; [exact Hh|]. apply assoc_none, HD. lia. }
      rewrite E1. rewrite (proj2 He), (over_below _ _ _ _ _ Hh) in E2.
      assert (Hh1 : holds (comps ++ [k]) (Group f1) (placeG ("list" ++ dec i)%string (tree v) m)) by (rewrite E2; apply holds_over).
      destruct (IH (S i) f1 _ Hh1 HF') as (f2 & E3 & E4 & E5).
      { intros j Hj Hin. apply (HD j); [lia|].
        assert (Hne : ("list" ++ dec j)%string <> ("list" ++ dec i)%string) by (intros E; apply sapp_inj, dec_inj in E; lia).
        assert (A1 : assoc ("list" ++ dec j)%string (placeG ("list" ++ dec i)%string (tree v) m) <> None) by (intros A; apply assoc_none in A; contradiction).
        rewrite assoc_place_other in A1 by exact Hne. destruct (assoc _ m) eqn:A2; [|congruence].
        destruct (in_dec string_dec ("list" ++ dec j)%string (map fst m)) as [|Hni]; [assumption|]. apply assoc_none in Hni. congruence. }
      exists f2. split; [exact E3|]. split; [intros _|discriminate].
      cbn [length seq map combine collect fold_left fst snd].
      destruct l as [|e l].
      + rewrite (E5 eq_refl). exact E2.
      + rewrite (E4 ltac:(discriminate)). rewrite E2, over_over. reflexivity.
  Qed.
  Lemma written_list path comps k l : ends_in path comps k -> l <> [] -> Forall item l -> written path (VList l).
  Proof.
    intros He Hl HF f Hf. rewrite put_VList.
    destruct (write_items path comps k He l 0 f []) as (f' & E1 & E2 & _).
    - right. split; [reflexivity|]. now rewrite <- (proj2 He).
    - exact HF.
    - intros ? _ [].
    - exists f'. split; [exact E1|]. rewrite (proj2 He), (E2 Hl). reflexivity.
  Qed.

  Fixpoint size (v : pyval) : nat :=
    match v with
    | VList l => S (list_sum (map size l))
    | VDict d => S (list_sum (map (fun kv => let '(k, x) := kv in size x) d))
    | _ => 1
    end.
  Lemma size_In_dict d k x : In (k, x) d -> size x < size (VDict d).
  Proof.
    cbn [size]. intros H. induction d as [|[k' x'] d IH]; cbn [map list_sum fold_right] in *; [destruct H|].
    change (list_sum (?a :: ?l)) with (a + list_sum l). destruct H as [H|H]; [injection H as -> ->|apply IH in H]; cbn; unfold list_sum in *; lia.
  Qed.
  Lemma written_supported n : forall v path comps k, size v < n -> supported v -> ends_in path comps k -> written path v.
  Proof.
    induction n as [|n IH]; intros v path comps k Hn Hs He; [lia|]. destruct Hs as [v H|l H1 H2|d H1 H2 H3 H4].
    - now apply written_flat.
    - eapply written_list; eassumption.
    - eapply written_dict; try eassumption. intros k' x Hin. rewrite Forall_forall in H4. destruct H2 as [HN HK]. rewrite Forall_forall in HK.
      eapply IH; [|exact (H4 _ Hin)|eapply ends_sub; [exact (proj1 He)|exact (HK _ Hin)]].
      assert (L := size_In_dict d k' x Hin). lia.
  Qed.
  (** Saving a dictionary. *)
  Lemma save_tree (d : list (string * pyval)) : key_names d -> Forall (fun kv => supported (snd kv)) d ->
    dict_to_group "/" d [] = (tree_dict d, Ok tt).
  Proof.
    intros Hk HS. destruct d as [|e d]; [reflexivity|].
    destruct (write_dict "/" [] (e :: d) [] [] path_root) as (f' & E1 & E2).
    - left. reflexivity.
    - discriminate.
    - exact Hk.
    - intros ? _ [].
    - rewrite Forall_forall in *. intros [k x] Hin. eapply written_supported; [apply Nat.lt_succ_diag_r|exact (HS _ Hin)|].
      apply ends_sub; [exact path_root|]. destruct Hk as [_ Hk]. rewrite Forall_forall in Hk. exact (Hk _ Hin).
    - rewrite E1. f_equal. cbn [over] in E2. injection E2 as ->. reflexivity.
  Qed.
End Trees.

(** ** Sorting list positions *)
Lemma insert_perm x l : Permutation (x :: l) (insert_nat x l).
Proof.
  induction l as [|y t IH]; cbn; [reflexivity|]. destruct (Nat.leb x y); [reflexivity|].
  rewrite perm_swap. now constructor.
Qed.
Lemma sort_perm l : Permutation l (sort_nat l).
Proof. induction l as [|x l IH]; cbn; [constructor|]. rewrite <- insert_perm. now constructor. Qed.
Lemma insert_sorted x l : StronglySorted le l -> StronglySorted le (insert_nat x l).
Proof.
  induction l as [|y t IH]; cbn; intros H; [repeat constructor|]. inversion H as [|? ? H1 H2]; subst.
  destruct (Nat.leb_spec x y).
  - constructor; [exact H|]. constructor; [assumption|]. eapply Forall_impl; [|exact H2]. intros; lia.
  - constructor; [now apply IH|]. rewrite Forall_forall in *. intros z Hz.
    apply (Permutation_in _ (Permutation_sym (insert_perm x t))) in Hz. destruct Hz as [<-|Hz]; [lia|auto].
Qed.
Lemma sort_sorted l : StronglySorted le (sort_nat l).
Proof. induction l as [|x l IH]; cbn; [constructor|]. now apply insert_sorted. Qed.
Lemma sorted_unique l : forall l', StronglySorted le l -> StronglySorted le l' -> Permutation l l' -> l = l'.
Proof.
  induction l as [|x l IH]; intros l' H H' HP.
  - apply Permutation_nil in HP. now subst.
  - destruct l' as [|y l']; [apply Permutation_sym, Permutation_nil in HP; discriminate|].
    inversion H as [|? ? H1 H2]; subst. inversion H' as [|? ? H1' H2']; subst. rewrite Forall_forall in H2, H2'.
    assert (x = y).
    { assert (A := Permutation_in x HP (or_introl eq_refl)). assert (B := Permutation_in y (Permutation_sym HP) (or_introl eq_refl)).
      destruct A as [|A]; [auto|]. destruct B as [|B]; [auto|]. apply H2' in A. apply H2 in B. lia. }
    subst y. f_equal. apply IH; try assumption. now apply Permutation_cons_inv in HP.
Qed.
Lemma seq_sorted n : forall s, StronglySorted le (seq s n).
Proof.
  induction n as [|n IH]; intros s; cbn; [constructor|]. constructor; [apply IH|]. apply Forall_forall. intros x Hx. apply in_seq in Hx. lia.
Qed.
Lemma sort_positions ids n : Permutation ids (seq 0 n) -> sort_nat ids = seq 0 n.
Proof. intros H. apply sorted_unique; [apply sort_sorted|apply seq_sorted|]. now rewrite <- sort_perm. Qed.

Section Loading.
  Context {T F : Type}.
  Notation pyval := (pyval T F).
  Notation node := (node T F).

  Definition entry_loads (kx ky : string * pyval) : Prop := fst kx = fst ky /\ loads_as (snd kx) (snd ky).
  Lemma flat_loads (v : pyval) : flat v -> exists l : leaf T F, tree v = Dataset l /\ loads_as v (load_leaf l).
  Proof.
    intros [H|H].
    - destruct H as [a|z|b|x|s|s]; cbn; eexists; (split; [reflexivity|]); cbn; try constructor.
      + destruct (String.eqb_spec s "NULL") as [->|E]; now constructor.
      + destruct (String.eqb_spec s "NULL") as [->|E]; now constructor.
    - subst v. cbn. eexists. split; [reflexivity|]. cbn. constructor.
  Qed.
  Lemma mapM_members (f : string * node -> Res (string * pyval)) (d1 : list (string * pyval)) :
    Forall (fun kx => exists y, f (fst kx, tree (snd kx)) = Ok (fst kx, y) /\ loads_as (snd kx) y) d1 ->
    exists d', mapM f (map (fun kx => (fst kx, tree (snd kx))) d1) = Ok d' /\ Forall2 entry_loads d1 d'.
  Proof.
    induction 1 as [|[k x] d1 (y & E & L) _ (d' & E2 & L2)]; [exists []; split; [reflexivity|constructor]|].
    cbn [map mapM fst snd] in *. rewrite E, E2. cbn [bind]. eexists. split; [reflexivity|]. constructor; [split; [reflexivity|exact L]|exact L2].
  Qed.
  (** The members of a dictionary's group are its entries in another order. *)
  Lemma tree_dict_perm (d : list (string * pyval)) : NoDup (map fst d) -> exists d1, Permutation d d1
    /\ tree_dict d = map (fun kx => (fst kx, tree (snd kx))) d1 /\ ordered d1.
  Proof.
    intros HN. exists (collect [] d). split; [now apply collect_perm0|]. split.
    - unfold tree_dict. apply (collect_map tree d []).
    - apply collect_ordered. constructor.
  Qed.
  (** A dictionary of atoms: the form of [path] does not matter. *)
  Lemma load_flat fuel root path (d : list (string * pyval)) : 0 < fuel -> h5_get (split_path path) root = Ok (Group (tree_dict d)) ->
    NoDup (map fst d) -> Forall (fun kv => flat (snd kv)) d ->
    exists d', group_to_dict fuel root path = Ok d' /\ loads_as (VDict d) (VDict d').
  Proof.
    intros Hf Hg HN HF. destruct fuel as [|fuel]; [lia|]. cbn [group_to_dict]. rewrite Hg. cbn [bind].
    destruct (tree_dict_perm d HN) as (d1 & HP & -> & _).
    match goal with |- context [mapM ?f _] => destruct (mapM_members f d1) as (d' & E & L) end.
    - apply Forall_forall. intros [k x] Hin. rewrite Forall_forall in HF.
      destruct (flat_loads x (HF (k, x) (Permutation_in _ (Permutation_sym HP) Hin))) as (l & E & L).
      cbn [fst snd]. rewrite E. eexists. split; [reflexivity|exact L].
    - rewrite E. exists d'. split; [reflexivity|]. econstructor; eauto.
  Qed.
  Lemma names_nodup n : NoDup (names_of n).
  Proof.
    unfold names_of. apply FinFun.Injective_map_NoDup; [|apply seq_NoDup].
    intros i j H. apply sapp_inj in H. now apply dec_inj.
  Qed.
  Lemma names_length n : length (names_of n) = n.
  Proof. unfold names_of. now rewrite map_length, seq_length. Qed.
  Lemma combine_fst {A B} (l : list A) : forall l' : list B, length l = length l' -> map fst (combine l l') = l.
  Proof. induction l as [|x l IH]; intros [|y l'] H; cbn in *; try discriminate; [reflexivity|]. f_equal. apply IH. lia. Qed.
  Lemma nth_names {V} n i (l : list V) v : length l = n -> nth_error l i = Some v -> In (("list" ++ dec i)%string, v) (combine (names_of n) l).
  Proof.
    intros Hl Hi. assert (Hlt : i < n) by (rewrite <- Hl; apply nth_error_Some; congruence).
    apply (nth_error_In _ i). assert (G : forall (a : list string) (b : list V) i x y, nth_error a i = Some x -> nth_error b i = Some y -> nth_error (combine a b) i = Some (x, y)).
    { clear. induction a as [|x a IH]; intros [|y b] [|i] x0 y0 H1 H2; try discriminate; cbn in *; [congruence|]. now apply IH. }
    apply G; [|exact Hi]. unfold names_of. apply (map_nth_error (fun i => ("list" ++ dec i)%string)).
    rewrite (nth_error_nth' _ 0) by (rewrite seq_length; exact Hlt). now rewrite seq_nth.
  Qed.
  Lemma mapM_dec ids : mapM (fun s => parse_dec (drop4 4 s)) (map (fun i => ("list" ++ dec i)%string) ids) = Ok ids.
  Proof. induction ids as [|i ids IH]; [reflexivity|]. cbn [map mapM]. rewrite drop4_list, parse_dec_dec, IH. reflexivity. Qed.
  Lemma list_keys (l : list node) : exists ids, map fst (collect [] (combine (names_of (length l)) l)) = map (fun i => ("list" ++ dec i)%string) ids
    /\ Permutation ids (seq 0 (length l)).
  Proof.
    assert (HP : Permutation (names_of (length l)) (map fst (collect [] (combine (names_of (length l)) l)))).
    { rewrite <- (combine_fst (names_of (length l)) l) at 1 by apply names_length. apply Permutation_map, collect_perm0.
      rewrite combine_fst by apply names_length. apply names_nodup. }
    unfold names_of in HP at 1. apply Permutation_sym, Permutation_map_inv in HP as (ids & E & HP). exists ids. split; [exact E|]. now apply Permutation_sym.
  Qed.
  Lemma load_items (root : node) (g : nat -> Res pyval) (l : list pyval) :
    (forall i v, nth_error l i = Some v -> exists y, g i = Ok y /\ loads_as v y) ->
    exists l', mapM g (seq 0 (length l)) = Ok l' /\ Forall2 loads_as l l'.
  Proof.
    intros H. assert (G : forall s l, (forall i v, nth_error l i = Some v -> exists y, g (s + i) = Ok y /\ loads_as v y) ->
      exists l', mapM g (seq s (length l)) = Ok l' /\ Forall2 loads_as l l').
    { clear. intros s l. revert s. induction l as [|v l IH]; intros s H; [exists []; split; [reflexivity|constructor]|].
      destruct (H 0 v eq_refl) as (y & E & L). rewrite Nat.add_0_r in E. destruct (IH (S s)) as (l' & E2 & L2).
      - intros i w Hi. destruct (H (S i) w Hi) as (y' & E' & L'). exists y'. split; [|exact L']. now rewrite Nat.add_succ_r in E'.
      - cbn [length seq mapM]. rewrite E, E2. cbn [bind]. eexists. split; [reflexivity|]. now constructor. }
    apply (G 0). exact H.
  Qed.
  Lemma load_dict n : forall fuel root path comps (d : list (string * pyval)), size (VDict d) <= n -> n <= fuel ->
    path_ok path comps -> h5_get comps root = Ok (Group (tree_dict d)) -> key_names d -> Forall (fun kv => supported (snd kv)) d ->
    exists d', group_to_dict fuel root path = Ok d' /\ loads_as (VDict d) (VDict d').
  Proof.
    induction n as [|n IH]; intros fuel root path comps d Hn Hf HP Hg [HN HK] HS; [cbn in Hn; lia|].
    destruct fuel as [|fuel]; [lia|]. cbn [group_to_dict]. rewrite (path_here _ _ HP), Hg. cbn [bind].
    destruct (tree_dict_perm d HN) as (d1 & Hd1 & ET & _). rewrite ET.
    match goal with |- context [mapM ?f _] => destruct (mapM_members f d1) as (d' & E & L) end.
    2:{ rewrite E. exists d'. split; [reflexivity|]. econstructor; eauto. }
    apply Forall_forall. intros [k x] Hin1. cbn [fst snd].
    assert (Hin := Permutation_in _ (Permutation_sym Hd1) Hin1). rewrite Forall_forall in HK, HS.
    assert (Hk := HK _ Hin). assert (Hx := HS _ Hin). cbn [fst snd] in Hk, Hx. assert (Hsz := size_In_dict d k x Hin).
    assert (Hsub : forall s, (split_path (path ++ k ++ "/" ++ s) = comps ++ [k] ++ split_path s)%list).
    { intros s. rewrite HP, split_slash, (split_key k Hk). reflexivity. }
    assert (Hgk : h5_get (comps ++ [k]) root = Ok (tree x)).
    { rewrite (get_app _ _ _ _ Hg). cbn [h5_get]. rewrite lookup_G. unfold tree_dict.
      rewrite (assoc_collect _ k (tree x)); [reflexivity| |].
      - rewrite map_map. cbn [fst]. exact HN.
      - apply (in_map (fun kv => (fst kv, tree (snd kv)))) in Hin. exact Hin. }
    destruct Hx as [v Hfl|l Hl HI|dd Hd HK' HL' HS'].
    - destruct (flat_loads v Hfl) as (lf & -> & L). exists (load_leaf lf). split; [reflexivity|exact L].
    - (* list *)
      remember (tree (VList l)) as tr eqn:Etr. cbn [tree] in Etr. rewrite Etr.
      specialize (Hsub ""). change (split_path "") with (@nil string) in Hsub. rewrite !app_nil_r in Hsub.
      change ("/" ++ "")%string with "/" in Hsub. rewrite Hsub, Hgk, Etr. cbn [bind].
      destruct (list_keys (map tree l)) as (ids & EI & HPI). rewrite map_length in EI, HPI.
      rewrite EI. destruct ids as [|i0 ids]; [apply Permutation_nil in HPI; destruct l; [congruence|discriminate]|].
      cbn [map hd_error opt_res bind]. rewrite take4_list. cbn [String.eqb Ascii.eqb Bool.eqb].
      change (("list" ++ dec i0)%string :: map (fun i => ("list" ++ dec i)%string) ids) with (map (fun i => ("list" ++ dec i)%string) (i0 :: ids)).
      rewrite mapM_dec. cbn [bind]. rewrite (sort_positions _ _ HPI).
      match goal with |- context [mapM ?g (seq 0 _)] => destruct (load_items root g l) as (l' & EL & LL) end.
      2:{ rewrite EL. cbn [bind]. exists (VList l'). split; [reflexivity|]. now constructor. }
      intros i v Hi. rewrite Forall_forall in HI. assert (Hv := HI v (nth_error_In _ _ Hi)).
      assert (Hp : (split_path (path ++ k ++ "/list" ++ dec i) = comps ++ [k] ++ [("list" ++ dec i)%string])%list).
      { change ("/list" ++ dec i)%string with ("/" ++ "list" ++ dec i)%string. rewrite HP, split_slash, (split_key k Hk), (split_key _ (key_name_list i)). reflexivity. }
      assert (Hgi : h5_get (split_path (path ++ k ++ "/list" ++ dec i)) root = Ok (tree v)).
      { rewrite Hp, app_assoc, (get_app _ _ _ _ Hgk), Etr. cbn [h5_get]. rewrite lookup_G.
        rewrite (assoc_collect _ _ (tree v)); [reflexivity| |].
        - rewrite combine_fst by (rewrite names_length, map_length; reflexivity). apply names_nodup.
        - apply nth_names; [apply map_length|]. now apply map_nth_error. }
      rewrite Hgi. cbn [bind]. destruct Hv as [v Ha|dd Hd1' Hd2 Hd3].
      + destruct (flat_loads v (or_introl Ha)) as (lf & -> & L). exists (load_leaf lf). split; [reflexivity|exact L].
      + rewrite tree_VDict in *. destruct (load_flat fuel root (path ++ k ++ "/list" ++ dec i) dd) as (d2 & E2 & L2); [cbn in *; lia|exact Hgi|exact (proj1 Hd2)|exact Hd3|].
        rewrite E2. cbn [bind]. exists (VDict d2). split; [reflexivity|exact L2].
    - (* dictionary *)
      rewrite tree_VDict in *.
      specialize (Hsub ""). change (split_path "") with (@nil string) in Hsub. rewrite !app_nil_r in Hsub.
      change ("/" ++ "")%string with "/" in Hsub. rewrite Hsub, Hgk. cbn [bind].
      destruct (tree_dict_perm dd (proj1 HK')) as (d2 & Hd2 & ET2 & HO). rewrite ET2. rewrite map_map. cbn [fst].
      destruct d2 as [|[k2 x2] d2]; [apply Permutation_sym, Permutation_nil in Hd2; congruence|].
      cbn [map hd_error opt_res bind fst]. rewrite take4_prefix.
      rewrite (HL' k2 x2).
      + destruct (IH fuel root (path ++ k ++ "/") (comps ++ [k])%list dd) as (d3 & E3 & L3).
        * lia.
        * lia.
        * now apply path_sub.
        * exact Hgk.
        * exact HK'.
        * exact HS'.
        * rewrite E3. cbn [bind]. exists (VDict d3). split; [reflexivity|exact L3].
      + apply (Permutation_in _ (Permutation_sym Hd2)). now left.
      + intros k' v' Hk'. apply (Permutation_in _ Hd2) in Hk'. inversion HO as [|? ? HO1 HO2]; subst.
        destruct Hk' as [Hk'|Hk']; [injection Hk' as <- <-; rewrite compare_refl; discriminate|].
        rewrite Forall_forall in HO2. specialize (HO2 _ Hk'). cbn [fst] in HO2. rewrite HO2. discriminate.
  Qed.

  (** *** C42 *)
  Lemma C42_proof (d : list (string * pyval)) s filename : key_names d -> Forall (fun kv => supported (snd kv)) d ->
    s (hdf_name filename) = None ->
    exists s', save s filename d = (s', Ok tt)
      /\ exists n, forall fuel, n <= fuel -> exists d', load fuel s' filename = Ok d' /\ loads_as (VDict d) (VDict d').
  Proof.
    intros HK HS Hn. unfold save. rewrite Hn, save_tree by assumption. eexists. split; [reflexivity|].
    exists (size (VDict d)). intros fuel Hf. unfold load, fs_set. rewrite String.eqb_refl. cbn [opt_res bind].
    apply (load_dict (size (VDict d)) fuel (Group (tree_dict d)) "/" [] d); try assumption; try lia; try reflexivity. exact path_root.
  Qed.
End Loading.
