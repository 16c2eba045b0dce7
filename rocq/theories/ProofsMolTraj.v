(** * ProofsMolTraj: molecules in whole trajectories (C19, C20, C53) *)
From Verif Require Import Base ModelParser Spec SpecParser SpecMol SpecAnalyzer Lemmas ProofsDisp ProofsIntervals ProofsWindows ProofsParser ProofsTraj ProofsAnalyzer ProofsMol SpecRun.
From Coq Require Import Reals Lra Lia Sorting.
Open Scope R_scope.

Definition minus_one (mol : list Z) : list Z := map (fun z => z - 1)%Z mol.
Definition drift_of (natoms : nat) (indices : list (list Z)) (framework : pyseq Z) : list Z :=
  match framework with PyList l => minus_one l | _ => complement natoms (List.concat (map minus_one indices)) end.

Lemma Forall2_weaken {S T} (P Q : S -> T -> Prop) l l' : (forall x y, P x y -> Q x y) -> Forall2 P l l' -> Forall2 Q l l'.
Proof. intros H F. induction F; constructor; auto. Qed.
Lemma same_length_In {T} (l : list (list T)) x : same_length l = true -> In x l -> length x = length (hd [] l).
Proof.
  destruct l as [|y l]; [contradiction|]. cbn [same_length hd]. intros H X. rewrite forallb_forall in H.
  apply Nat.eqb_eq, (H x X).
Qed.
Lemma get_molecules_inv circ natoms coords indices masses framework new idx didx :
  get_molecules (A:=R) circ natoms coords indices masses framework = Ok (new, (idx, didx)) ->
  let drift := drift_of natoms indices framework in
  (forall mol, In mol indices -> length (weights_of masses (length mol)) = length mol)
  /\ idx = map Z.of_nat (seq 0 (length indices)) /\ didx = map Z.of_nat (seq (length indices) (length drift))
  /\ mapM (molecule_frame circ masses (map minus_one indices) drift) coords = Ok new.
Proof.
  intros H. intros drift. unfold get_molecules in H. inv_bind H u1 E1. destruct u1. apply guard_ok in E1.
  change (match framework with PyList l => map (fun i : Z => (i - 1)%Z) l | _ => complement natoms (List.concat (map (map (fun z : Z => (z - 1)%Z)) indices)) end)
    with drift in H.
  change (map (map (fun z : Z => (z - 1)%Z)) indices) with (map minus_one indices) in H.
  inv_bind H u2 E2. inv_bind H u3 E3. inv_bind H u4 E4. inv_bind H u5 E5. inv_bind H c E6. injection H as <- <- <-.
  split; [|repeat split; assumption]. intros mol M. destruct masses as [ws|]; cbn [weights_of]; [|apply repeat_length].
  destruct u2. apply guard_ok, Nat.eqb_eq in E2. rewrite E2, (same_length_In _ _ E1 M). destruct indices as [|m0 l]; [contradiction|].
  cbn [map hd]. unfold minus_one. apply map_length.
Qed.
Lemma molecule_frame_inv (circ : option (list R) -> list R -> Res R) w mols drift frame r :
  molecule_frame circ w mols drift frame = Ok r -> exists cs fw, r = (cs ++ fw)%list
  /\ Forall2 (fun m c => exists atoms, gather frame m = Ok atoms /\ molecule_centre circ w atoms = Ok c) mols cs
  /\ gather frame drift = Ok fw.
Proof.
  unfold molecule_frame. intros H. inv_bind H cs E1. inv_bind H fw E2. injection H as <-. exists cs, fw. split; [reflexivity|]. split; [|reflexivity].
  apply mapM_ok in E1. eapply Forall2_weaken; [|exact E1]. cbv beta. intros m c E. inv_bind E atoms E3. eauto.
Qed.
Lemma centre_inv (circ : option (list R) -> list R -> Res R) w atoms c : molecule_centre circ w atoms = Ok c ->
  molecule_axis circ w (map vx atoms) = Ok (vx c) /\ molecule_axis circ w (map vy atoms) = Ok (vy c) /\ molecule_axis circ w (map vz atoms) = Ok (vz c).
Proof. unfold molecule_centre. intros H. inv_bind H x E1. inv_bind H y E2. inv_bind H z E3. injection H as <-. auto. Qed.
Lemma centre_intro (circ : option (list R) -> list R -> Res R) w atoms x y z :
  molecule_axis circ w (map vx atoms) = Ok x -> molecule_axis circ w (map vy atoms) = Ok y -> molecule_axis circ w (map vz atoms) = Ok z ->
  molecule_centre circ w atoms = Ok (mkV x y z).
Proof. unfold molecule_centre. intros -> -> ->. reflexivity. Qed.

Lemma images_axes u s : Forall2 image3 u s -> images (map vx u) (map vx s) /\ images (map vy u) (map vy s) /\ images (map vz u) (map vz s).
Proof.
  unfold images. induction 1 as [|x y u s [k ->] _ (I1 & I2 & I3)]; [repeat split; constructor|].
  cbn. repeat split; constructor; try assumption; eexists; reflexivity.
Qed.

(** ** One molecule *)
Lemma centre_images w u s : Forall2 image3 u s -> molecule_centre circular_mean_R w s = molecule_centre circular_mean_R w u.
Proof.
  intros I. destruct (images_axes u s I) as (I1 & I2 & I3). unfold molecule_centre.
  now rewrite (axis_images w _ _ I1), (axis_images w _ _ I2), (axis_images w _ _ I3).
Qed.
Lemma weights_pos masses n : positive_masses masses -> Forall (fun x => 0 < x) (weights_of masses n).
Proof.
  destruct masses as [ws|]; cbn; [trivial|]. intros _. apply Forall_forall. intros x X. apply repeat_spec in X. subst. lra.
Qed.
Lemma weights_sum masses n : (0 < n)%nat -> nonzero_masses masses -> rsum (weights_of masses n) <> 0.
Proof.
  destruct masses as [ws|]; cbn [weights_of nonzero_masses]; [trivial|]. intros N _. rewrite rsum_repeat_1. apply not_0_INR. lia.
Qed.
Lemma map_plus_axes (t : V3 R) s : map vx (map (plus3 t) s) = map (fun x => x + vx t) (map vx s)
  /\ map vy (map (plus3 t) s) = map (fun x => x + vy t) (map vy s) /\ map vz (map (plus3 t) s) = map (fun x => x + vz t) (map vz s).
Proof. rewrite !map_map. repeat split; apply map_ext; intros p; cbn; ring. Qed.
Lemma centre_com masses u s : u <> [] -> length (weights_of masses (length u)) = length u -> positive_masses masses ->
  on_axes narrow u -> Forall2 image3 u s ->
  exists c, molecule_centre circular_mean_R masses s = Ok c /\ wraps3 c (com3 (weights_of masses (length u)) u).
Proof.
  intros N L P (C1 & C2 & C3) I. destruct (images_axes u s I) as (I1 & I2 & I3).
  assert (N' : (0 < length u)%nat) by (destruct u; [contradiction|cbn; lia]). pose proof (weights_pos masses (length u) P) as P'.
  destruct (axis_com masses (map vx u) (map vx s)) as (x & X1 & X2); rewrite ?map_length; try assumption.
  destruct (axis_com masses (map vy u) (map vy s)) as (y & Y1 & Y2); rewrite ?map_length; try assumption.
  destruct (axis_com masses (map vz u) (map vz s)) as (z & Z1 & Z2); rewrite ?map_length; try assumption.
  rewrite map_length in X2, Y2, Z2.
  exists (mkV x y z). split; [apply centre_intro; assumption|]. split; [exact X2|split; [exact Y2|exact Z2]].
Qed.
Lemma centre_translate masses s t c : s <> [] -> length (weights_of masses (length s)) = length s -> nonzero_masses masses ->
  on_axes (has_direction (weights_of masses (length s))) s -> molecule_centre circular_mean_R masses s = Ok c ->
  exists c', molecule_centre circular_mean_R masses (map (plus3 t) s) = Ok c' /\ wraps3 c' (plus3 c t).
Proof.
  intros N L Z (D1 & D2 & D3) H. destruct (centre_inv _ _ _ _ H) as (H1 & H2 & H3).
  assert (N' : (0 < length s)%nat) by (destruct s; [contradiction|cbn; lia]). pose proof (weights_sum masses (length s) N' Z) as Z'.
  destruct (map_plus_axes t s) as (M1 & M2 & M3).
  assert (W : forall f : V3 R -> R, weights_ok masses (length (map f s))) by (intros f; rewrite map_length; repeat split; assumption).
  destruct (axis_translate masses (map vx s) (vx t) (vx c) (W vx)) as (x & X1 & X2); [now rewrite map_length|assumption|].
  destruct (axis_translate masses (map vy s) (vy t) (vy c) (W vy)) as (y & Y1 & Y2); [now rewrite map_length|assumption|].
  destruct (axis_translate masses (map vz s) (vz t) (vz c) (W vz)) as (z & Z1 & Z2); [now rewrite map_length|assumption|].
  exists (mkV x y z). split; [apply centre_intro; rewrite ?M1, ?M2, ?M3; assumption|]. split; [exact X2|split; [exact Y2|exact Z2]].
Qed.

(** ** get_molecules *)
Lemma gather_members frame mol atoms : gather frame (minus_one mol) = Ok atoms <-> members frame mol atoms.
Proof.
  unfold gather, minus_one. rewrite mapM_map, mapM_ok. unfold members. split; apply Forall2_weaken; intros i p.
  - intros H. assert (V : valid_site (length frame) (i - 1)).
    { unfold py_index in H. destruct (_ && _) eqn:E; [|discriminate]. apply andb_true_iff in E as [E1 E2]. apply Z.leb_le in E1. apply Z.ltb_lt in E2.
      unfold valid_site. destruct (_ <? 0)%Z eqn:E3; [apply Z.ltb_lt in E3|apply Z.ltb_ge in E3]; lia. }
    split; [exact V|]. destruct (nth_error_site _ _ V) as (q & Q1 & Q2). congruence.
  - intros [V H]. destruct (nth_error_site _ _ V) as (q & Q1 & Q2). congruence.
Qed.
Lemma members_unique frame mol a b : members frame mol a -> members frame mol b -> a = b.
Proof. intros H1 H2. apply gather_members in H1, H2. congruence. Qed.
Lemma members_length frame mol a : members frame mol a -> length a = length mol.
Proof. intros H. symmetry. eapply Forall2_length. exact H. Qed.

(** The centre reported for molecule [j] in frame [f]. *)
Lemma get_molecules_at circ natoms coords indices masses framework new idx didx f j frame mol :
  get_molecules (A:=R) circ natoms coords indices masses framework = Ok (new, (idx, didx)) ->
  nth_error coords f = Some frame -> nth_error indices j = Some mol ->
  exists c atoms, entry new f j = Some c /\ members frame mol atoms /\ molecule_centre circ masses atoms = Ok c.
Proof.
  intros H Hf Hj. destruct (get_molecules_inv _ _ _ _ _ _ _ _ _ H) as (_ & _ & _ & M). apply mapM_ok in M.
  destruct (Forall2_nth_error _ _ _ _ _ M Hf) as (r & R1 & R2). destruct (molecule_frame_inv _ _ _ _ _ _ R2) as (cs & fw & -> & F & _).
  destruct (Forall2_nth_error _ _ _ j (minus_one mol) F) as (c & C1 & atoms & C2 & C3); [now rewrite nth_error_map, Hj|].
  exists c, atoms. split; [|split; [now apply gather_members|exact C3]]. unfold entry. rewrite R1, nth_error_app1; [exact C1|]. apply nth_error_Some. congruence.
Qed.
Lemma get_molecules_weights circ natoms coords indices masses framework r mol :
  get_molecules (A:=R) circ natoms coords indices masses framework = Ok r -> In mol indices -> length (weights_of masses (length mol)) = length mol.
Proof. destruct r as [new [idx didx]]. intros H. apply (get_molecules_inv _ _ _ _ _ _ _ _ _ H). Qed.

Lemma C19_range_proof : forall natoms coords indices masses framework new idx didx f j c,
  get_molecules circular_mean_R natoms coords indices masses framework = Ok (new, (idx, didx)) ->
  (j < length indices)%nat -> entry new f j = Some c -> 0 <= vx c < 1 /\ 0 <= vy c < 1 /\ 0 <= vz c < 1.
Proof.
  intros natoms coords indices masses framework new idx didx f j c H Hj E.
  destruct (nth_error indices j) as [mol|] eqn:Em; [|apply nth_error_None in Em; lia].
  assert (L : length new = length coords) by (destruct (get_molecules_inv _ _ _ _ _ _ _ _ _ H) as (_ & _ & _ & M); eapply mapM_length; exact M).
  destruct (nth_error coords f) as [frame|] eqn:Ef.
  - destruct (get_molecules_at _ _ _ _ _ _ _ _ _ _ _ _ _ H Ef Em) as (c' & atoms & E' & _ & M).
    assert (c' = c) by congruence. subst c'. destruct (centre_inv _ _ _ _ M) as (X & Y & Z).
    split; [|split]; eapply axis_range; eassumption.
  - apply nth_error_None in Ef. unfold entry in E. destruct (nth_error new f) eqn:En; [|discriminate].
    assert (f < length new)%nat by (apply nth_error_Some; congruence). lia.
Qed.
Lemma C20_proof : forall natoms coords indices masses framework new idx didx f frame j mol atoms u,
  get_molecules circular_mean_R natoms coords indices masses framework = Ok (new, (idx, didx)) ->
  nth_error coords f = Some frame -> nth_error indices j = Some mol -> mol <> [] ->
  members frame mol atoms -> Forall2 image3 u atoms -> on_axes narrow u -> positive_masses masses ->
  exists c, entry new f j = Some c /\ wraps3 c (com3 (weights_of masses (length mol)) u).
Proof.
  intros natoms coords indices masses framework new idx didx f frame j mol atoms u H Hf Hj Hne HM HI HN HP.
  destruct (get_molecules_at _ _ _ _ _ _ _ _ _ _ _ _ _ H Hf Hj) as (c & atoms' & E & M & C).
  rewrite (members_unique _ _ _ _ M HM) in C. exists c. split; [exact E|].
  assert (L : length u = length mol) by (rewrite (Forall2_length _ _ _ HI); now apply members_length with frame).
  destruct (centre_com masses u atoms) as (c' & C1 & C2); try assumption.
  - intros ->. destruct mol; [contradiction|discriminate].
  - rewrite L. eapply get_molecules_weights; [exact H|eapply nth_error_In; exact Hj].
  - rewrite C in C1. injection C1 as <-. now rewrite L in C2.
Qed.

(** Two trajectories related frame by frame and atom by atom. *)
Lemma gather_related {S T} (P : S -> T -> Prop) l l' idx r : Forall2 P l l' -> gather l idx = Ok r -> exists r', gather l' idx = Ok r' /\ Forall2 P r r'.
Proof.
  intros F. unfold gather. revert r. induction idx as [|i idx IH]; cbn [mapM]; intros r H.
  - injection H as <-. exists []. split; [reflexivity|constructor].
  - inv_bind H x E1. inv_bind H xs E2. injection H as <-. destruct (IH xs eq_refl) as (xs' & -> & G).
    unfold py_index in *. rewrite <- (Forall2_length _ _ _ F). destruct (_ && _); [|discriminate].
    destruct (nth_error l _) as [y|] eqn:E3; [|discriminate]. injection E1 as <-.
    destruct (Forall2_nth_error _ _ _ _ _ F E3) as (y' & E4 & Py). rewrite E4. cbn [opt_res bind]. exists (y' :: xs'). split; [reflexivity|]. now constructor.
Qed.
Lemma mapM_related {S S' T T'} (P : S -> S' -> Prop) (Q : T -> T' -> Prop) (f : S -> Res T) (g : S' -> Res T') l l' r :
  Forall2 P l l' -> (forall x x' y, P x x' -> f x = Ok y -> exists y', g x' = Ok y' /\ Q y y') -> mapM f l = Ok r ->
  exists r', mapM g l' = Ok r' /\ Forall2 Q r r'.
Proof.
  intros F H. revert r. induction F as [|x x' l l' Px F IH]; cbn [mapM]; intros r E.
  - injection E as <-. exists []. split; [reflexivity|constructor].
  - inv_bind E y E1. inv_bind E ys E2. injection E as <-. destruct (H _ _ _ Px E1) as (y' & -> & Qy). destruct (IH ys eq_refl) as (ys' & -> & G).
    cbn [bind]. exists (y' :: ys'). split; [reflexivity|]. now constructor.
Qed.
Lemma same_length_related {S T} (P : S -> T -> Prop) l l' : Forall2 (Forall2 P) l l' -> same_length l = same_length l'.
Proof.
  destruct 1 as [|x y l l' H F]; [reflexivity|]. unfold same_length. rewrite <- (Forall2_length _ _ _ H).
  assert (A : Forall2 (Forall2 P) (x :: l) (y :: l')) by (constructor; assumption). generalize (length x). intros n. clear H F.
  induction A as [|a b la lb H F IH]; [reflexivity|]. cbn [forallb]. now rewrite IH, (Forall2_length _ _ _ H).
Qed.
Lemma Forall2_refl_In {S} (P : S -> S -> Prop) l : (forall x, In x l -> P x x) -> Forall2 P l l.
Proof. induction l; intros H; constructor; [apply H; now left|apply IHl; intros; apply H; now right]. Qed.
Lemma get_molecules_related (P : list (V3 R) -> list (V3 R) -> Prop) natoms coords coords' indices masses framework new idx didx :
  get_molecules circular_mean_R natoms coords indices masses framework = Ok (new, (idx, didx)) ->
  Forall2 P coords coords' -> (forall frame frame', P frame frame' -> Forall2 (fun _ _ => True) frame frame') ->
  (forall frame frame' mol atoms atoms' c, P frame frame' -> In mol indices -> members frame mol atoms -> members frame' mol atoms' ->
     molecule_centre circular_mean_R masses atoms = Ok c -> exists c', molecule_centre circular_mean_R masses atoms' = Ok c') ->
  exists new', get_molecules circular_mean_R natoms coords' indices masses framework = Ok (new', (idx, didx)).
Proof.
  intros H F HT HC. assert (H0 := H). unfold get_molecules in H. inv_bind H u1 E1. inv_bind H u2 E2. inv_bind H u3 E3. inv_bind H u4 E4. inv_bind H u5 E5.
  inv_bind H c E6. injection H as <- <- <-.
  unfold get_molecules. rewrite E1. cbn [bind]. rewrite E2. cbn [bind].
  assert (F' : Forall2 (Forall2 (fun _ _ => True)) coords coords') by (eapply Forall2_weaken; [|exact F]; exact HT).
  rewrite <- (same_length_related _ _ _ F'), E3. cbn [bind].
  destruct (fun h => mapM_related (Forall2 (fun _ _ : V3 R => True)) (fun _ _ => True) (fun frame => mapM (gather frame) (map (map (fun z => (z - 1)%Z)) indices))
     (fun frame => mapM (gather frame) (map (map (fun z => (z - 1)%Z)) indices)) _ _ _ F' h E4) as (r' & -> & _).
  { intros x x' y Px Ex. destruct (fun h => mapM_related eq (fun _ _ => True) (gather x) (gather x') _ _ _ (Forall2_refl_In eq _ (fun _ _ => eq_refl)) h Ex) as (y' & -> & _); [|eauto].
    intros m m' z <- Ez. destruct (gather_related _ _ _ _ _ Px Ez) as (z' & -> & _). eauto. }
  cbn [bind]. rewrite E5. cbn [bind].
  set (mols := map (map (fun z => (z - 1)%Z)) indices) in *. match type of E6 with mapM (molecule_frame _ _ _ ?d) _ = _ => set (drift := d) in * end.
  destruct (fun h => mapM_related P (fun _ _ => True) (molecule_frame circular_mean_R masses mols drift) (molecule_frame circular_mean_R masses mols drift) _ _ _ F h E6) as (new' & -> & _); [|cbn [bind]; eauto].
  intros x x' y Px Ex. unfold molecule_frame in *. inv_bind Ex cs E7. inv_bind Ex fw E8. clear Ex.
  destruct (gather_related _ _ _ _ _ (HT _ _ Px) E8) as (fw' & -> & _).
  destruct (fun h1 h2 => mapM_related (fun m m' => m = m' /\ In m mols) (fun _ _ => True) (fun m => let! atoms := gather x m in molecule_centre circular_mean_R masses atoms)
     (fun m => let! atoms := gather x' m in molecule_centre circular_mean_R masses atoms) mols mols cs h1 h2 E7) as (cs' & -> & _); [| |cbn [bind]; eauto].
  - apply Forall2_refl_In. auto.
  - intros m m' ce [<- Hm] Em. inv_bind Em atoms E9. destruct (gather_related _ _ _ _ _ (HT _ _ Px) E9) as (atoms' & E10 & _). rewrite E10. cbn [bind].
    unfold mols in Hm. apply in_map_iff in Hm as (mol & <- & Hm).
    destruct (HC x x' mol atoms atoms' ce Px Hm) as (c' & C'); [now apply gather_members|now apply gather_members|exact Em|eauto].
Qed.

Lemma members_related (P : V3 R -> V3 R -> Prop) frame frame' mol atoms atoms' : Forall2 P frame frame' ->
  members frame mol atoms -> members frame' mol atoms' -> Forall2 P atoms atoms'.
Proof.
  intros F M M'. apply gather_members in M. destruct (gather_related _ _ _ _ _ F M) as (r & R1 & R2).
  apply gather_members in M'. rewrite R1 in M'. now injection M' as <-.
Qed.
Lemma C19_images_proof : forall natoms coords coords' indices masses framework new idx didx,
  get_molecules circular_mean_R natoms coords indices masses framework = Ok (new, (idx, didx)) ->
  Forall2 (Forall2 image3) coords coords' ->
  exists new', get_molecules circular_mean_R natoms coords' indices masses framework = Ok (new', (idx, didx))
  /\ forall f j, (j < length indices)%nat -> entry new' f j = entry new f j.
Proof.
  intros natoms coords coords' indices masses framework new idx didx H F.
  destruct (get_molecules_related (Forall2 image3) _ _ coords' _ _ _ _ _ _ H F) as (new' & H').
  - intros a b. apply Forall2_weaken. trivial.
  - intros frame frame' mol atoms atoms' c P _ M M' C. exists c. rewrite <- C. apply centre_images. eapply members_related; eassumption.
  - exists new'. split; [exact H'|]. intros f j Hj.
    destruct (nth_error indices j) as [mol|] eqn:Em; [|apply nth_error_None in Em; lia].
    destruct (nth_error coords f) as [frame|] eqn:Ef.
    + destruct (Forall2_nth_error _ _ _ _ _ F Ef) as (frame' & Ef' & P).
      destruct (get_molecules_at _ _ _ _ _ _ _ _ _ _ _ _ _ H Ef Em) as (c & atoms & -> & M & C).
      destruct (get_molecules_at _ _ _ _ _ _ _ _ _ _ _ _ _ H' Ef' Em) as (c' & atoms' & -> & M' & C').
      rewrite (centre_images _ atoms) in C' by (eapply members_related; eassumption). congruence.
    + assert (L : length new = length coords) by (destruct (get_molecules_inv _ _ _ _ _ _ _ _ _ H) as (_ & _ & _ & M); eapply mapM_length; exact M).
      assert (L' : length new' = length coords') by (destruct (get_molecules_inv _ _ _ _ _ _ _ _ _ H') as (_ & _ & _ & M); eapply mapM_length; exact M).
      apply Forall2_length in F. apply nth_error_None in Ef. unfold entry.
      rewrite (proj2 (nth_error_None new f)) by lia. rewrite (proj2 (nth_error_None new' f)) by lia. reflexivity.
Qed.
Lemma C19_translation_proof : forall natoms coords coords' ts indices masses framework new idx didx,
  get_molecules circular_mean_R natoms coords indices masses framework = Ok (new, (idx, didx)) ->
  length ts = length coords -> coords' = map (fun p => map (plus3 (fst p)) (snd p)) (combine ts coords) ->
  nonzero_masses masses ->
  (forall frame mol atoms, In frame coords -> In mol indices -> members frame mol atoms ->
     mol <> [] /\ on_axes (has_direction (weights_of masses (length mol))) atoms) ->
  exists new', get_molecules circular_mean_R natoms coords' indices masses framework = Ok (new', (idx, didx))
  /\ forall f j t c, (j < length indices)%nat -> nth_error ts f = Some t -> entry new f j = Some c ->
     exists c', entry new' f j = Some c' /\ wraps3 c' (plus3 c t).
Proof.
  intros natoms coords coords' ts indices masses framework new idx didx H L -> HZ HD.
  assert (step : forall frame mol atoms atoms' t c, In frame coords -> In mol indices -> members frame mol atoms ->
     members (map (plus3 t) frame) mol atoms' -> molecule_centre circular_mean_R masses atoms = Ok c ->
     exists c', molecule_centre circular_mean_R masses atoms' = Ok c' /\ wraps3 c' (plus3 c t)).
  { intros frame mol atoms atoms' t c Hf Hm M M' C. destruct (HD frame mol atoms Hf Hm M) as [Hne HA].
    assert (La := members_length _ _ _ M). assert (E : atoms' = map (plus3 t) atoms).
    { apply gather_members in M, M'. rewrite gather_map, M in M'. now injection M' as <-. }
    subst atoms'. rewrite <- La in HA. eapply centre_translate; try eassumption.
    - intros ->. now destruct mol.
    - rewrite La. eapply get_molecules_weights; eassumption. }
  set (coords' := map _ _).
  assert (F : Forall2 (fun a b => In a coords /\ exists t, b = map (plus3 t) a) coords coords').
  { unfold coords'. clear - L. assert (A : forall big l (ts : list (V3 R)), incl l big -> length ts = length l ->
      Forall2 (fun a b => In a big /\ exists t, b = map (plus3 t) a) l (map (fun p => map (plus3 (fst p)) (snd p)) (combine ts l))).
    { intros big l. induction l as [|a l IH]; intros [|t us] G L'; try discriminate; constructor.
      - split; [apply G; now left|]. now exists t.
      - apply IH; [|now injection L']. intros x X; apply G; now right. }
    apply A; [apply incl_refl|exact L]. }
  destruct (get_molecules_related (fun a b => In a coords /\ exists t, b = map (plus3 t) a) _ _ coords' _ _ _ _ _ _ H F) as (new' & H').
  - intros a b [_ [t ->]]. clear. induction a; constructor; auto.
  - intros frame frame' mol atoms atoms' c [Hf [t ->]] Hm M M' C. destruct (step _ _ _ _ _ _ Hf Hm M M' C) as (c' & C' & _). eauto.
  - exists new'. split; [exact H'|]. intros f j t c Hj Ht E.
    destruct (nth_error indices j) as [mol|] eqn:Em; [|apply nth_error_None in Em; lia].
    destruct (nth_error coords f) as [frame|] eqn:Ef.
    2:{ apply nth_error_None in Ef. assert (f < length ts)%nat by (apply nth_error_Some; congruence). lia. }
    assert (Ef' : nth_error coords' f = Some (map (plus3 t) frame)).
    { unfold coords'. rewrite nth_error_map. replace (nth_error (combine ts coords) f) with (Some (t, frame)); [reflexivity|].
      clear - Ht Ef. revert f coords Ht Ef. induction ts as [|a ts IH]; intros [|f] [|b l] H1 H2; cbn in *; try discriminate; [congruence|]. now apply IH. }
    destruct (get_molecules_at _ _ _ _ _ _ _ _ _ _ _ _ _ H Ef Em) as (c0 & atoms & E0 & M & C). rewrite E0 in E. injection E as ->.
    destruct (get_molecules_at _ _ _ _ _ _ _ _ _ _ _ _ _ H' Ef' Em) as (c' & atoms' & E' & M' & C').
    destruct (step _ _ _ _ _ _ (nth_error_In _ _ Ef) (nth_error_In _ _ Em) M M' C) as (c1 & C1 & W). exists c'. split; [exact E'|].
    rewrite C' in C1. now injection C1 as ->.
Qed.

(** ** Whole trajectories *)
Lemma drift_spec natoms indices framework : molecule_framework natoms indices (given_framework framework) (drift_of natoms indices framework).
Proof.
  assert (A : molecule_framework natoms indices None (complement natoms (List.concat (map minus_one indices)))).
  { destruct (complement_spec natoms (List.concat (map minus_one indices))) as [S H]. split; [exact S|]. intros i. rewrite H. split; intros [B C]; (split; [exact B|]).
    - intros mol M I. apply C. apply in_concat. exists (minus_one mol). split; [now apply in_map|]. unfold minus_one.
      apply in_map_iff. exists (i + 1)%Z. split; [lia|exact I].
    - intros I. apply in_concat in I as (m & M & I). apply in_map_iff in M as (mol & <- & M). unfold minus_one in I. apply in_map_iff in I as (z & <- & Z).
      apply (C mol M). now replace (z - 1 + 1)%Z with z by lia. }
  destruct framework; [exact A|reflexivity|exact A].
Qed.
Lemma members_tab n (p : nat -> V3 R) mol atoms : members (tab n p) mol atoms -> atoms = map (fun i => p (site n (i - 1))) mol.
Proof.
  unfold members. rewrite tab_length. intros H. induction H as [|i q mol atoms [V E] _ IH]; [reflexivity|].
  cbn. rewrite <- IH. f_equal. rewrite tab_nth_error in E by now apply site_lt. now injection E.
Qed.
Lemma gather_tab_inv {T} n (p : nat -> T) idx r : gather (tab n p) idx = Ok r -> r = map (fun i => p (site n i)) idx.
Proof.
  unfold gather. rewrite mapM_ok. intros H. induction H as [|i q idx r E _ IH]; [reflexivity|]. cbn. rewrite <- IH. f_equal.
  assert (V : valid_site n i).
  { unfold py_index in E. rewrite tab_length in E. destruct (_ && _) eqn:B; [|discriminate]. apply andb_true_iff in B as [E1 E2]. apply Z.leb_le in E1. apply Z.ltb_lt in E2.
    unfold valid_site. destruct (_ <? 0)%Z eqn:E3; [apply Z.ltb_lt in E3|apply Z.ltb_ge in E3]; lia. }
  rewrite py_index_tab in E by exact V. now injection E.
Qed.
Lemma frame_values circ masses indices drift n (p : nat -> V3 R) r :
  molecule_frame circ masses (map minus_one indices) drift (tab n p) = Ok r ->
  length r = (length indices + length drift)%nat
  /\ (forall b mol, nth_error indices b = Some mol -> molecule_centre circ masses (map (fun i => p (site n (i - 1))) mol) = Ok (nth b r zero3))
  /\ (forall b i, nth_error drift b = Some i -> nth (length indices + b) r zero3 = p (site n i)).
Proof.
  intros H. destruct (molecule_frame_inv _ _ _ _ _ _ H) as (cs & fw & -> & F & G). apply gather_tab_inv in G.
  assert (L : length cs = length indices) by (rewrite <- (Forall2_length _ _ _ F); apply map_length).
  split; [rewrite app_length, L, G, map_length; reflexivity|]. split.
  - intros b mol E. destruct (Forall2_nth_error _ _ _ b (minus_one mol) F) as (c & C1 & atoms & C2 & C3); [now rewrite nth_error_map, E|].
    apply gather_members, members_tab in C2. subst atoms. rewrite app_nth1 by (apply nth_error_Some; congruence). now rewrite (nth_error_nth _ _ _ C1).
  - intros b i E. rewrite app_nth2 by lia. rewrite L, Nat.add_comm, Nat.add_sub. subst fw. apply nth_error_nth. now rewrite nth_error_map, E.
Qed.
Lemma wraps3_image c y : wraps3 c y -> image3 y c.
Proof.
  intros ((_ & k1 & E1) & (_ & k2 & E2) & (_ & k3 & E3)). exists (mkV (- k1)%Z (- k2)%Z (- k3)%Z). apply V3_eq; cbn; rewrite opp_IZR; lra.
Qed.
Definition floor3 (v : V3 R) : V3 Z := mkV (Rfloor (vx v)) (Rfloor (vy v)) (Rfloor (vz v)).
Lemma Rfloor_IZR (k : Z) : Rfloor (IZR k) = k.
Proof. apply Rfloor_unique. lra. Qed.
Lemma image3_floor x y : image3 x y -> y = plus3 x (ivec (floor3 (minus3 y x))).
Proof.
  intros [k ->]. f_equal. assert (E : minus3 (plus3 x (ivec k)) x = ivec k) by (apply V3_eq; cbn; ring). rewrite E.
  unfold floor3. apply V3_eq; cbn; now rewrite Rfloor_IZR.
Qed.
Lemma mapM_duplicate {S T} (F : S -> Res T) l l2 r2 : duplicate_first l = Ok l2 -> mapM F l2 = Ok r2 -> exists r, mapM F l = Ok r /\ duplicate_first r = Ok r2.
Proof.
  destruct l as [|x l]; [discriminate|]. cbn [duplicate_first]. intros H. injection H as <-. intros H.
  change (mapM F (x :: x :: l)) with (let! y := F x in let! ys := mapM F (x :: l) in Ok (y :: ys)) in H. inv_bind H y E1. inv_bind H ys E2. injection H as <-.
  exists ys. split; [reflexivity|]. cbn [mapM] in E2. rewrite E1 in E2. cbn [bind] in E2. inv_bind E2 zs E3. injection E2 as <-. reflexivity.
Qed.
Lemma pseudo_read types types' vol n natoms k (pos Y : nat -> nat -> V3 R) (cell : nat -> M3 R) st coords latt circ indices masses framework new ix N' :
  (0 < k)%nat -> get_structure_coords_latt (frames_of types vol n natoms pos cell) (Z.of_nat k) = Ok (st, coords, latt) ->
  get_molecules circ natoms coords indices masses framework = Ok (new, ix) ->
  (forall f r, (f * k < n)%nat -> molecule_frame circ masses (map minus_one indices) (drift_of natoms indices framework) (tab natoms (pos (f * k)%nat)) = Ok r ->
     r = tab N' (Y (f * k)%nat)) ->
  get_structure_coords_latt (frames_of types' vol n N' Y cell) (Z.of_nat k) = Ok (mkStructure types' vol, new, latt).
Proof.
  intros Hk E G HY. destruct ix as [idx didx]. destruct (get_molecules_inv _ _ _ _ _ _ _ _ _ G) as (_ & _ & _ & M).
  unfold get_structure_coords_latt, frames_of in *. rewrite py_stride_tab in E by exact Hk. rewrite py_stride_tab by exact Hk. cbn [bind] in *.
  inv_bind E c1 E1. inv_bind E l1 E2.
  assert (EC : c1 = coords /\ l1 = latt) by (destruct (tab (kept n k) _); [discriminate|]; injection E as _ <- <-; auto). destruct EC as [-> ->].
  destruct (mapM_duplicate _ _ _ _ E1 M) as (r & R1 & R2). unfold tab in R1 at 1. rewrite map_map in R1. cbn [f_pos] in R1.
  change (map (fun x => tab natoms (pos (x * k)%nat)) (seq 0 (kept n k))) with (tab (kept n k) (fun f => tab natoms (pos (f * k)%nat))) in R1.
  destruct (mapM_tab_ok _ _ _ _ [] R1) as [Er Hi].
  assert (ER : map f_pos (tab (kept n k) (fun i => mkFrame types' (tab N' (Y (i * k)%nat)) (cell (i * k)%nat) vol)) = r).
  { rewrite Er. unfold tab at 1. rewrite map_map. apply tab_ext. intros i H. cbn [f_pos]. symmetry. apply HY; [now apply kept_spec|]. now apply Hi. }
  rewrite ER, R2. cbn [bind].
  assert (EL : map f_cell (tab (kept n k) (fun i => mkFrame types' (tab N' (Y (i * k)%nat)) (cell (i * k)%nat) vol))
    = map f_cell (tab (kept n k) (fun i => mkFrame types (tab natoms (pos (i * k)%nat)) (cell (i * k)%nat) vol))) by (unfold tab; now rewrite !map_map).
  rewrite EL, E2. cbn [bind]. destruct (kept n k) as [|m]; [discriminate|]. rewrite tab_S. reflexivity.
Qed.
Lemma choose_molecules circ st coords (a : Params R) indices r : molecule_selection a indices -> choose_atoms circ st coords a = Ok r ->
  get_molecules circ (length (s_types st)) coords indices (a_masses a) (a_framework a) = Ok r.
Proof. intros [H1 H2]. unfold choose_atoms. rewrite H1, H2. destruct indices; [discriminate|trivial]. Qed.
Lemma read_structure types vol n natoms k (pos : nat -> nat -> V3 R) cell st coords latt : (0 < k)%nat ->
  get_structure_coords_latt (frames_of types vol n natoms pos cell) (Z.of_nat k) = Ok (st, coords, latt) -> st = mkStructure types vol.
Proof.
  intros Hk E. unfold get_structure_coords_latt, frames_of in E. rewrite py_stride_tab in E by exact Hk. cbn [bind] in E.
  inv_bind E u1 F1. inv_bind E u2 F2. destruct (kept n k); [discriminate|]. rewrite tab_S in E. now injection E as <- _ _.
Qed.
Lemma molecule_pseudo types types' vol n natoms k (pos y : nat -> nat -> V3 R) (cell : nat -> M3 R) st coords latt circ (a : Params R) indices new ix :
  (0 < k)%nat -> length types = natoms -> molecule_selection a indices ->
  let drift := drift_of natoms indices (a_framework a) in let N' := (length indices + length drift)%nat in
  get_structure_coords_latt (frames_of types vol n natoms pos cell) (Z.of_nat k) = Ok (st, coords, latt) ->
  choose_atoms circ st coords a = Ok (new, ix) ->
  ((forall mol, In mol indices -> length (weights_of (a_masses a) (length mol)) = length mol) ->
   forall f r b, (f * k < n)%nat -> molecule_frame circ (a_masses a) (map minus_one indices) drift (tab natoms (pos (f * k)%nat)) = Ok r ->
     (b < N')%nat -> image3 (y (f * k)%nat b) (nth b r zero3)) ->
  ix = (centre_ids indices, framework_ids indices drift) /\ exists img' : nat -> nat -> V3 Z,
  get_structure_coords_latt (frames_of types' vol n N' (fun f b => plus3 (y f b) (ivec (img' f b))) cell) (Z.of_nat k) = Ok (mkStructure types' vol, new, latt).
Proof.
  intros Hk Hl Hs drift N' E C HY. pose proof (read_structure _ _ _ _ _ _ _ _ _ _ Hk E) as ->. apply (choose_molecules _ _ _ _ _ _ Hs) in C.
  cbn [s_types] in C. rewrite Hl in C. destruct ix as [I D]. destruct (get_molecules_inv _ _ _ _ _ _ _ _ _ C) as (W & -> & -> & _). split; [reflexivity|].
  set (fr := fun f => match molecule_frame circ (a_masses a) (map minus_one indices) drift (tab natoms (pos f)) with Ok r => r | Raise _ => [] end).
  exists (fun f b => floor3 (minus3 (nth b (fr f) zero3) (y f b))).
  eapply pseudo_read; try eassumption. intros f r Hf Er. destruct (frame_values _ _ _ _ _ _ _ Er) as [Lr _].
  specialize (HY W f r). fold drift in Er. rewrite (list_is_tab zero3 r N' Lr). apply tab_ext. intros b Hb. unfold fr. rewrite Er.
  apply image3_floor. now apply HY.
Qed.
Lemma images_self (x : nat -> V3 R) (img : nat -> V3 Z) l : Forall2 image3 (map x l) (map (fun i => plus3 (x i) (ivec (img i))) l).
Proof. induction l; constructor; [eexists; reflexivity|assumption]. Qed.
Lemma weighted_images (x : nat -> V3 R) (img : nat -> V3 Z) n (mol : list Z) :
  Forall2 image3 (map (fun i => x (site n (i - 1))) mol) (map (fun i => plus3 (x (site n (i - 1))) (ivec (img (site n (i - 1))))) mol).
Proof. rewrite <- (map_map (fun i => site n (i - 1)) x), <- (map_map (fun i => site n (i - 1)) (fun i => plus3 (x i) (ivec (img i)))). apply images_self. Qed.

(** *** Centres of mass *)
Lemma centres_images masses indices drift natoms (x : nat -> nat -> V3 R) (img : nat -> nat -> V3 Z) f r b :
  positive_masses masses -> (forall mol, In mol indices -> mol <> [] /\ length (weights_of masses (length mol)) = length mol
     /\ on_axes narrow (map (fun i => x f (site natoms (i - 1))) mol)) ->
  molecule_frame circular_mean_R masses (map minus_one indices) drift (tab natoms (fun a => plus3 (x f a) (ivec (img f a)))) = Ok r ->
  (b < length indices + length drift)%nat -> image3 (centres natoms masses indices drift x f b) (nth b r zero3).
Proof.
  intros HP HM E Hb. destruct (frame_values _ _ _ _ _ _ _ E) as (Lr & V1 & V2). unfold centres.
  destruct (nth_error indices b) as [mol|] eqn:Em.
  - specialize (V1 _ _ Em). destruct (HM mol (nth_error_In _ _ Em)) as (Hne & Hw & Hn).
    destruct (centre_com masses (map (fun i => x f (site natoms (i - 1))) mol) (map (fun i => plus3 (x f (site natoms (i - 1))) (ivec (img f (site natoms (i - 1))))) mol)) as (c & C1 & C2);
      rewrite ?map_length; try assumption.
    + intros Z. destruct mol; [contradiction|discriminate].
    + apply (weighted_images (x f) (img f)).
    + rewrite map_length in C2. rewrite V1 in C1. injection C1 as <-. now apply wraps3_image.
  - apply nth_error_None in Em. destruct (nth_error drift (b - length indices)) as [i|] eqn:Ei.
    + specialize (V2 _ _ Ei). replace (length indices + (b - length indices))%nat with b in V2 by lia. rewrite V2. eexists. reflexivity.
    + apply nth_error_None in Ei. lia.
Qed.
Lemma ids_valid n m l : (n + m <= l)%nat -> Forall (valid_site l) (map Z.of_nat (seq n m)).
Proof. intros H. apply Forall_forall. intros z Z. apply in_map_iff in Z as (i & <- & I). apply in_seq in I. unfold valid_site. lia. Qed.
Lemma run_molecules cell types vol n natoms k x (img : nat -> nat -> V3 Z) st coords latt (a : Params R) indices ss p :
  cell_volume cell <> 0 -> (0 < k)%nat -> length types = natoms -> molecule_selection a indices -> positive_masses (a_masses a) ->
  (forall mol, In mol indices -> mol <> []) ->
  (forall f mol, (f * k < n)%nat -> In mol indices -> on_axes narrow (map (fun i => x (f * k)%nat (site natoms (i - 1))) mol)) ->
  let fw := drift_of natoms indices (a_framework a) in
  let N := (length indices + length fw)%nat in
  let y := centres natoms (a_masses a) indices fw x in
  small_steps n N k y ->
  get_structure_coords_latt (frames_of types vol n natoms (fun f a => plus3 (x f a) (ivec (img f a))) (fun _ => cell)) (Z.of_nat k) = Ok (st, coords, latt) ->
  let ts := pynum_val (a_time_step a) in
  sensible (kept n k) (IZR ss * ts) (a_opts a) -> o_sampling (a_opts a) = "multi-origin"%string ->
  finish_parse geomspace_R circular_mean_R st coords latt a ss = Ok p ->
  p_indices p = centre_ids indices /\ p_drift_indices p = framework_ids indices fw
  /\ forall q arr, nth_error (p_disp_3d p) q = Some arr -> exists m : nat, (0 < m <= kept n k)%nat
     /\ nth_error (p_intervals p) q = Some (Z.of_nat m)
     /\ nth_error (p_delta_t p) q = Some (INR m * ts * IZR ss)%R
     /\ reports_interval N (kept n k) k (fun f b => cart cell (y f b)) (p_indices p) (p_drift_indices p) m arr.
Proof.
  intros Hc Hk Hl Ha HP Hne HN fw N y Hs E ts HS Hm Hp.
  assert (CH : forall c' ix, choose_atoms circular_mean_R st coords a = Ok (c', ix) ->
     ix = (centre_ids indices, framework_ids indices fw) /\ get_disp c' latt = Ok (table N (kept n k) (fun a t => minus3 (cart cell (y (t * k)%nat a)) (cart cell (y 0%nat a))))).
  { intros c' ix C. destruct (molecule_pseudo types types vol n natoms k (fun f a => plus3 (x f a) (ivec (img f a))) y (fun _ => cell) st coords latt circular_mean_R a indices c' ix Hk Hl Ha E C) as (-> & img' & E').
    - intros W f r b Hf Er Hb. eapply centres_images; try eassumption. intros mol M. split; [now apply Hne|]. split; [now apply W|now apply HN].
    - split; [reflexivity|]. eapply read_displacements in E'; try eassumption. apply E'. }
  destruct (finish_inv _ _ _ _ _ _ _ Hp) as (c' & I & D & disp & q & E1 & E2 & E3 & Ep).
  destruct (CH _ _ E1) as [EI _]. injection EI as -> ->.
  destruct (parser_init_sel _ _ _ _ _ _ _ _ E3) as [EI ED].
  assert (PI : p_indices p = centre_ids indices) by (rewrite Ep; exact EI).
  assert (PD : p_drift_indices p = framework_ids indices fw) by (rewrite Ep; exact ED).
  split; [exact PI|]. split; [exact PD|].
  destruct (finish_multi_gen circular_mean_R st coords latt a ss N (kept n k) _ p (fun c' ix C => proj2 (CH c' ix C)) HS Hm Hp) as [_ F].
  - rewrite PI. apply ids_valid. unfold N. lia.
  - rewrite PD. apply ids_valid. unfold N. lia.
  - intros q' arr Hq. destruct (F q' arr Hq) as (m & M1 & M2 & M3 & _ & ->). exists m. do 3 (split; [assumption|]).
    apply (multi_window_reports N (kept n k) k (fun f b => cart cell (y f b))). exact M1.
Qed.

(** *** Common motion *)
Definition moving (natoms : nat) (masses : option (list R)) (indices : list (list Z)) (fw : list Z) (x0 : nat -> V3 R) (b : nat) : V3 R :=
  match nth_error indices b with
  | Some mol => match molecule_centre circular_mean_R masses (map (fun i => x0 (site natoms (i - 1))) mol) with Ok c => c | Raise _ => zero3 end
  | None => match nth_error fw (b - length indices) with Some i => x0 (site natoms i) | None => zero3 end
  end.
Lemma moving_images masses indices drift natoms (x0 u : nat -> V3 R) (img : nat -> nat -> V3 Z) f r b :
  nonzero_masses masses -> (forall mol, In mol indices -> mol <> [] /\ length (weights_of masses (length mol)) = length mol
     /\ on_axes (has_direction (weights_of masses (length mol))) (map (fun i => x0 (site natoms (i - 1))) mol)) ->
  molecule_frame circular_mean_R masses (map minus_one indices) drift (tab natoms (fun a => plus3 (plus3 (x0 a) (u f)) (ivec (img f a)))) = Ok r ->
  (b < length indices + length drift)%nat -> image3 (plus3 (moving natoms masses indices drift x0 b) (u f)) (nth b r zero3).
Proof.
  intros HZ HM E Hb. destruct (frame_values _ _ _ _ _ _ _ E) as (Lr & V1 & V2). unfold moving.
  destruct (nth_error indices b) as [mol|] eqn:Em.
  - specialize (V1 _ _ Em). destruct (HM mol (nth_error_In _ _ Em)) as (Hne & Hw & Hd).
    set (s := map (fun i => x0 (site natoms (i - 1))) mol) in *.
    assert (Ls : length s = length mol) by apply map_length.
    assert (I : Forall2 image3 (map (plus3 (u f)) s) (map (fun i => plus3 (plus3 (x0 (site natoms (i - 1))) (u f)) (ivec (img f (site natoms (i - 1))))) mol)).
    { unfold s. rewrite map_map. erewrite map_ext with (f := fun i => plus3 (u f) (x0 (site natoms (i - 1)))).
      - apply (weighted_images (fun a => plus3 (x0 a) (u f)) (img f)).
      - intros i. apply V3_eq; cbn; ring. }
    rewrite (centre_images _ _ _ I) in V1.
    assert (Ex : exists c, molecule_centre circular_mean_R masses s = Ok c).
    { assert (W : forall g : V3 R -> R, weights_ok masses (length (map g s))).
      { intros g. rewrite map_length, Ls. repeat split; [destruct mol; [contradiction|cbn; lia]|exact Hw|].
        apply weights_sum; [destruct mol; [contradiction|cbn; lia]|exact HZ]. }
      eexists. apply centre_intro; apply axis_ok, W. }
    destruct Ex as (c & C). rewrite C.
    destruct (centre_translate masses s (u f) c) as (c' & C1 & C2); rewrite ?Ls; try assumption.
    + intros Z. rewrite Z in Ls. now destruct mol.
    + rewrite V1 in C1. injection C1 as <-. now apply wraps3_image.
  - apply nth_error_None in Em. destruct (nth_error drift (b - length indices)) as [i|] eqn:Ei.
    + specialize (V2 _ _ Ei). replace (length indices + (b - length indices))%nat with b in V2 by lia. rewrite V2. eexists. reflexivity.
    + apply nth_error_None in Ei. lia.
Qed.
Lemma still_molecules cell types vol n natoms k (x0 u : nat -> V3 R) (img : nat -> nat -> V3 Z) st coords latt (a : Params R) indices ss p :
  cell_volume cell <> 0 -> (0 < k)%nat -> length types = natoms -> molecule_selection a indices -> nonzero_masses (a_masses a) ->
  (forall mol, In mol indices -> mol <> [] /\ on_axes (has_direction (weights_of (a_masses a) (length mol))) (map (fun i => x0 (site natoms (i - 1))) mol)) ->
  get_structure_coords_latt (frames_of types vol n natoms (fun f a => plus3 (plus3 (x0 a) (u f)) (ivec (img f a))) (fun _ => cell)) (Z.of_nat k) = Ok (st, coords, latt) ->
  finish_parse geomspace_R circular_mean_R st coords latt a ss = Ok p -> p_drift_indices p <> [] -> motionless p.
Proof.
  intros Hc Hk Hl Ha HZ HM E Hp Hd.
  set (fw := drift_of natoms indices (a_framework a)). set (y := moving natoms (a_masses a) indices fw x0). set (N := (length indices + length fw)%nat).
  destruct (finish_inv _ _ _ _ _ _ _ Hp) as (c' & I & D & disp & q & E1 & E2 & E3 & Ep).
  destruct (molecule_pseudo types types vol n natoms k (fun f a => plus3 (plus3 (x0 a) (u f)) (ivec (img f a))) (fun f b => plus3 (y b) (u f)) (fun _ => cell)
     st coords latt circular_mean_R a indices c' (I, D) Hk Hl Ha E E1) as (EI & img' & E').
  - intros W f r b Hf Er Hb. eapply moving_images; try eassumption. intros mol M. destruct (HM mol M). auto.
  - assert (Ed := E2). rewrite <- (displacements_read _ _ _ _ _ E') in Ed.
    destruct (common_motion cell types vol n N k y u img' disp Hc Hk Ed) as (z & ->).
    eapply (finish_still_gen circular_mean_R st coords latt a ss N (kept n k) z p); try eassumption.
    intros c2 ix C2. rewrite E1 in C2. injection C2 as <- _. exact E2.
Qed.

(** *** The three parsers *)
Lemma sorted_lt_unique (l : list Z) : forall l', StronglySorted Z.lt l -> StronglySorted Z.lt l' -> (forall i, In i l <-> In i l') -> l = l'.
Proof.
  induction l as [|a l IH]; intros [|b l'] S1 S2 H; [reflexivity|exfalso; apply (proj2 (H b)); now left|exfalso; apply (proj1 (H a)); now left|].
  inversion S1 as [|? ? S1' F1]; inversion S2 as [|? ? S2' F2]; subst. rewrite Forall_forall in F1, F2.
  assert (E : a = b).
  { destruct (proj1 (H a) (or_introl eq_refl)) as [E|Ia]; [now symmetry|]. destruct (proj2 (H b) (or_introl eq_refl)) as [E|Ib]; [exact E|].
    specialize (F1 b Ib). specialize (F2 a Ia). lia. }
  subst b. f_equal. apply IH; try assumption. intros i. split; intros I.
  - destruct (proj1 (H i) (or_intror I)) as [<-|J]; [|exact J]. specialize (F1 a I). lia.
  - destruct (proj2 (H i) (or_intror I)) as [<-|J]; [|exact J]. specialize (F2 a I). lia.
Qed.
Lemma framework_unique natoms indices g fw fw' : molecule_framework natoms indices g fw -> molecule_framework natoms indices g fw' -> fw = fw'.
Proof.
  destruct g as [l|]; cbn; [congruence|]. intros [S1 H1] [S2 H2]. apply sorted_lt_unique; try assumption. intros i. now rewrite H1, H2.
Qed.
Section Runs.
  Context (cell : M3 R) (types : list string) (vol : R) (n natoms k : nat) (a : Params R) (indices : list (list Z)) (fw : list Z).
  Context (Hc : cell_volume cell <> 0) (Hk : (0 < k)%nat) (Hl : length types = natoms) (Ha : molecule_selection a indices)
    (Hfw : molecule_framework natoms indices (given_framework (a_framework a)) fw) (Ek : a_sub_sample_traj a = Z.of_nat k).

  Section Centres.
    Context (x : nat -> nat -> V3 R) (img : nat -> nat -> V3 Z).
    Context (Hne : forall mol, In mol indices -> mol <> []) (HP : positive_masses (a_masses a))
      (HN : forall f mol, (f * k < n)%nat -> In mol indices -> on_axes narrow (map (fun i => x (f * k)%nat (site natoms (i - 1))) mol)).
    Context (Hs : small_steps n (length indices + length fw) k (centres natoms (a_masses a) indices fw x)) (Hm : o_sampling (a_opts a) = "multi-origin"%string).
    Let report := reports_centres cell n k natoms (a_masses a) indices fw x.
    Lemma run_core types' st coords latt ss p : length types' = natoms ->
      get_structure_coords_latt (frames_of types' vol n natoms (fun f a => plus3 (x f a) (ivec (img f a))) (fun _ => cell)) (Z.of_nat k) = Ok (st, coords, latt) ->
      sensible (kept n k) (IZR ss * pynum_val (a_time_step a)) (a_opts a) -> finish_parse geomspace_R circular_mean_R st coords latt a ss = Ok p ->
      report (pynum_val (a_time_step a) * IZR ss) p.
    Proof.
      intros Hl' E HS Hp. assert (Ef : drift_of natoms indices (a_framework a) = fw) by (eapply framework_unique; [apply drift_spec|exact Hfw]).
      destruct (run_molecules cell types' vol n natoms k x img st coords latt a indices ss p Hc Hk Hl' Ha HP Hne HN) as (P1 & P2 & P3); rewrite ?Ef; try assumption.
      rewrite Ef in *. constructor; [exact P1|exact P2|]. intros q arr Hq. destruct (P3 q arr Hq) as (m & M1 & M2 & M3 & M4).
      exists m. do 2 (split; [assumption|]). split; [rewrite M3; f_equal; ring|exact M4].
    Qed.
    Let frames := frames_of types vol n natoms (fun f a => plus3 (x f a) (ivec (img f a))) (fun _ => cell).
    Lemma run_ase p : sensible (kept n k) (IZR (a_step_skip a) * pynum_val (a_time_step a)) (a_opts a) ->
      ase_parser geomspace_R circular_mean_R frames a = Ok p -> report (pynum_val (a_time_step a) * IZR (a_step_skip a)) p.
    Proof.
      intros HS Hp. unfold ase_parser in Hp. rewrite Ek in Hp. inv_bind Hp r E. destruct r as [[st coords] latt]. eapply run_core; eassumption.
    Qed.
    Lemma run_pymatgen p : sensible (kept n k) (IZR (a_step_skip a * Z.of_nat k) * pynum_val (a_time_step a)) (a_opts a) ->
      pymatgen_parser geomspace_R circular_mean_R frames a = Ok p -> report (pynum_val (a_time_step a) * IZR (a_step_skip a) * INR k / 1000) p.
    Proof.
      intros HS Hp. unfold pymatgen_parser in Hp. rewrite Ek in Hp. inv_bind Hp r E. destruct r as [[st coords] latt]. inv_bind Hp q Eq.
      assert (Rq := run_core _ _ _ _ _ _ Hl E HS Eq). assert (p = set_delta_t q (map (fun d => d * (1 / 1000)) (p_delta_t q))) as ->
        by (destruct (a_time_step a); [discriminate|]; now injection Hp as <-).
      destruct Rq as [R1 R2 R3]. constructor; [exact R1|exact R2|]. cbn [set_delta_t p_indices p_drift_indices p_disp_3d p_intervals p_delta_t] in *.
      intros i arr Hi. destruct (R3 i arr Hi) as (m & M1 & M2 & M3 & M4). exists m. do 2 (split; [assumption|]). split; [|exact M4].
      rewrite nth_error_map, M3. cbn [option_map]. f_equal. rewrite mult_IZR, <- INR_IZR_INZ. field.
    Qed.
    Lemma run_mda p : sensible (kept n k) (IZR (a_step_skip a * Z.of_nat k) * pynum_val (a_time_step a)) (a_opts a) ->
      mda_parser geomspace_R circular_mean_R (frames_of types vol n natoms (fun f a => cart cell (plus3 (x f a) (ivec (img f a)))) (fun _ => cell)) a = Ok p ->
      report (pynum_val (a_time_step a) * IZR (a_step_skip a) * INR k) p.
    Proof.
      intros HS Hp. unfold mda_parser in Hp. inv_bind Hp u1 E0.
      assert (Ea : a_sub_sample_atoms a = Z.of_nat 1).
      { destruct u1. apply guard_ok in E0. destruct Ha as [_ Hi]. rewrite Hi, orb_false_r in E0. now apply Z.eqb_eq in E0. }
      rewrite Ek, Ea in Hp. inv_bind Hp r E. destruct r as [[st coords] latt].
      apply (read_mda_fun types vol n natoms (fun f i => plus3 (x f i) (ivec (img f i))) (fun _ => cell)) in E; try assumption; [|lia].
      destruct E as (types' & Ht & _ & E). rewrite kept_one in *.
      rewrite (frames_of_ext _ _ _ _ _ (fun f i => plus3 (x f i) (ivec (img f i)))) in E by (intros; now rewrite Nat.mul_1_r).
      replace (pynum_val (a_time_step a) * IZR (a_step_skip a) * INR k) with (pynum_val (a_time_step a) * IZR (a_step_skip a * Z.of_nat k))
        by (rewrite mult_IZR, <- INR_IZR_INZ; ring). eapply run_core; eassumption.
    Qed.
  End Centres.

  Section Still.
    Context (x0 u : nat -> V3 R) (img : nat -> nat -> V3 Z) (HZ : nonzero_masses (a_masses a))
      (HM : forall mol, In mol indices -> mol <> [] /\ on_axes (has_direction (weights_of (a_masses a) (length mol))) (map (fun i => x0 (site natoms (i - 1))) mol)).
    Lemma still_ase p : let frames := frames_of types vol n natoms (fun f i => plus3 (plus3 (x0 i) (u f)) (ivec (img f i))) (fun _ => cell) in
      ase_parser geomspace_R circular_mean_R frames a = Ok p \/ pymatgen_parser geomspace_R circular_mean_R frames a = Ok p ->
      p_drift_indices p <> [] -> motionless p.
    Proof.
      intros frames [Hp|Hp] Hd.
      - unfold ase_parser in Hp. rewrite Ek in Hp. inv_bind Hp r E. destruct r as [[st coords] latt].
        eapply still_molecules; [exact Hc|exact Hk|exact Hl|exact Ha|exact HZ|exact HM|exact E|exact Hp|exact Hd].
      - unfold pymatgen_parser in Hp. rewrite Ek in Hp. inv_bind Hp r E. destruct r as [[st coords] latt]. inv_bind Hp q Eq.
        destruct (a_time_step a); [discriminate|]. injection Hp as <-. assert (M : motionless q); [|exact M].
        eapply still_molecules; [exact Hc|exact Hk|exact Hl|exact Ha|exact HZ|exact HM|exact E|exact Eq|exact Hd].
    Qed.
    Lemma still_mda p :
      mda_parser geomspace_R circular_mean_R (frames_of types vol n natoms (fun f i => cart cell (plus3 (plus3 (x0 i) (u f)) (ivec (img f i)))) (fun _ => cell)) a = Ok p ->
      p_drift_indices p <> [] -> motionless p.
    Proof.
      intros Hp Hd. unfold mda_parser in Hp. inv_bind Hp u1 E0.
      assert (Ea : a_sub_sample_atoms a = Z.of_nat 1).
      { destruct u1. apply guard_ok in E0. destruct Ha as [_ Hi]. rewrite Hi, orb_false_r in E0. now apply Z.eqb_eq in E0. }
      rewrite Ek, Ea in Hp. inv_bind Hp r E. destruct r as [[st coords] latt].
      apply (read_mda_fun types vol n natoms (fun f i => plus3 (plus3 (x0 i) (u f)) (ivec (img f i))) (fun _ => cell)) in E; try assumption; [|lia].
      destruct E as (types' & Ht & _ & E). rewrite kept_one in *.
      rewrite (frames_of_ext _ _ _ _ _ (fun f i => plus3 (plus3 (x0 i) (u f)) (ivec (img f i)))) in E by (intros; now rewrite Nat.mul_1_r).
      eapply still_molecules; [exact Hc|exact Hk|exact Ht|exact Ha|exact HZ|exact HM|exact E|exact Hp|exact Hd].
    Qed.
  End Still.
End Runs.

(** ** Running forward *)
Lemma get_molecules_forward circ natoms (coords : list (list (V3 R))) indices masses framework new :
  same_length indices = true -> match masses with Some m => length m = length (hd [] indices) | None => True end -> framework <> PyList [] ->
  Forall2 (fun frame r => length frame = natoms /\ molecule_frame circ masses (map minus_one indices) (drift_of natoms indices framework) frame = Ok r) coords new ->
  get_molecules circ natoms coords indices masses framework = Ok (new, (centre_ids indices, framework_ids indices (drift_of natoms indices framework))).
Proof.
  intros H1 H2 H3 F. unfold get_molecules. rewrite H1. cbn [guard bind].
  match goal with |- context [map (map (fun z : Z => (z - 1)%Z)) indices] => change (map (map (fun z : Z => (z - 1)%Z)) indices) with (map minus_one indices) end.
  assert (G2 : match masses with Some m => guard (length m =? length (hd [] (map minus_one indices)))%nat ValueError | None => Ok tt end = Ok tt).
  { destruct masses as [m|]; [|reflexivity]. apply guard_ok, Nat.eqb_eq. rewrite H2. destruct indices; [reflexivity|]. symmetry. apply map_length. }
  rewrite G2. cbn [bind].
  assert (G3 : same_length coords = true).
  { assert (A : forall x, In x coords -> length x = natoms).
    { clear -F. induction F as [|a b l l' [L _] _ IH]; [contradiction|]. intros x [<-|X]; [exact L|now apply IH]. }
    unfold same_length. destruct coords as [|x l]; [reflexivity|]. apply forallb_forall. intros y Y. apply Nat.eqb_eq. rewrite (A y Y). symmetry. apply A. now left. }
  rewrite G3. cbn [guard bind].
  assert (G4 : exists r, mapM (fun frame => mapM (gather frame) (map minus_one indices)) coords = Ok r).
  { clear - F. induction F as [|a b l l' [_ E] _ [r IH]]; [now exists []|]. cbn [mapM].
    unfold molecule_frame in E. inv_bind E cs E1. clear E. assert (X : exists q, mapM (gather a) (map minus_one indices) = Ok q).
    { revert cs E1. generalize (map minus_one indices). intros ms. induction ms as [|m ms IHm]; intros cs E1; [now exists []|]. cbn [mapM] in *.
      inv_bind E1 c E2. inv_bind E2 at0 E3. inv_bind E1 cs' E4. destruct (IHm _ eq_refl) as [q ->]. cbn [bind]. eauto. }
    destruct X as [q ->]. rewrite IH. cbn [bind]. eauto. }
  destruct G4 as [r ->]. cbn [bind].
  assert (G5 : match framework with PyList [] => Raise IndexError | _ => Ok tt end = Ok tt) by (destruct framework as [|[|]|]; congruence).
  rewrite G5. cbn [bind].
  assert (G6 : mapM (molecule_frame circ masses (map minus_one indices) (drift_of natoms indices framework)) coords = Ok new).
  { apply mapM_ok. eapply Forall2_weaken; [|exact F]. cbv beta. tauto. }
  unfold drift_of, minus_one in *. rewrite G6. reflexivity.
Qed.
Lemma ase_mol_run geo circ cell types vol n natoms (pos y : nat -> nat -> V3 R) (a : Params R) indices :
  cell_volume cell <> 0 -> (0 < n)%nat -> length types = natoms -> molecule_selection a indices -> indices <> [] -> a_sub_sample_traj a = 1%Z ->
  same_length indices = true -> match a_masses a with Some m => length m = length (hd [] indices) | None => True end -> a_framework a <> PyList [] ->
  let fw := drift_of natoms indices (a_framework a) in let N := (length indices + length fw)%nat in
  (forall f, (f < n)%nat -> molecule_frame circ (a_masses a) (map minus_one indices) fw (tab natoms (pos f)) = Ok (tab N (y f))) -> small_steps n N 1 y ->
  ase_parser geo circ (frames_of types vol n natoms pos (fun _ => cell)) a
  = let! p := parser_init geo (table N n (fun b t => minus3 (cart cell (y t b)) (cart cell (y 0%nat b)))) (centre_ids indices) (framework_ids indices fw)
                (pynum_val (a_time_step a)) (a_step_skip a) (a_opts a) in Ok (set_volume p vol).
Proof.
  intros Hc Hn Hl Ha Hi Ek H1 H2 H3 fw N HF Hs. unfold ase_parser. rewrite Ek. change 1%Z with (Z.of_nat 1).
  destruct (read_ok cell types vol n natoms 1 pos Hn ltac:(lia)) as (coords & latt & E). rewrite E. cbn [bind].
  assert (EC : duplicate_first (tab n (fun f => tab natoms (pos f))) = Ok coords).
  { unfold get_structure_coords_latt, frames_of in E. rewrite py_stride_tab in E by lia. rewrite kept_one in E. cbn [bind] in E.
    inv_bind E c1 E1. inv_bind E l1 E2. assert (c1 = coords) by (destruct (tab n _); [discriminate|]; now injection E). subst c1.
    rewrite <- E1. f_equal. unfold tab at 1 3. rewrite map_map. apply map_ext. intros f. cbn [f_pos]. now rewrite Nat.mul_1_r. }
  assert (EG : get_molecules circ natoms coords indices (a_masses a) (a_framework a)
     = Ok (hd [] (tab n (fun f => tab N (y f))) :: tab n (fun f => tab N (y f)), (centre_ids indices, framework_ids indices fw))).
  { apply get_molecules_forward; try assumption. destruct n as [|m]; [lia|]. rewrite tab_S in *. cbn [duplicate_first] in EC. injection EC as <-. cbn [hd].
    assert (A : Forall2 (fun frame r => length frame = natoms /\ molecule_frame circ (a_masses a) (map minus_one indices) fw frame = Ok r)
       (tab (S m) (fun f => tab natoms (pos f))) (tab (S m) (fun f => tab N (y f)))).
    { unfold tab at 1 3. clear - HF. assert (G : forall f, In f (seq 0 (S m)) -> (f < S m)%nat) by (intros f I; apply in_seq in I; lia).
      induction (seq 0 (S m)) as [|f l IH]; constructor.
      - split; [apply tab_length|]. apply HF, G. now left.
      - apply IH. intros; apply G; now right. }
    rewrite !tab_S in A. inversion A as [|? ? ? ? A1 A2]; subst. constructor; [exact A1|]. constructor; assumption. }
  unfold finish_parse.
  assert (ECh : choose_atoms circ (mkStructure types vol) coords a = get_molecules circ natoms coords indices (a_masses a) (a_framework a)).
  { unfold choose_atoms. destruct Ha as [Ha1 Ha2]. rewrite Ha1, Ha2. cbn [s_types]. rewrite Hl. clear -Hi. destruct indices; [contradiction|reflexivity]. }
  rewrite ECh. rewrite EG. cbn [bind fst snd s_volume].
  assert (EP : get_structure_coords_latt (frames_of types vol n N (fun f b => plus3 (y f b) (ivec (no_image f b))) (fun _ => cell)) (Z.of_nat 1)
     = Ok (mkStructure types vol, hd [] (tab n (fun f => tab N (y f))) :: tab n (fun f => tab N (y f)), latt)).
  { eapply pseudo_read; [lia|exact E|exact EG|]. intros f r Hf Er. fold fw in Er. rewrite !Nat.mul_1_r in *. rewrite HF in Er by exact Hf. injection Er as <-.
    apply tab_ext. intros b _. symmetry. apply no_image_id. }
  assert (EQ := read_displacements cell types vol n N 1 y no_image _ _ _ Hc ltac:(lia) Hs EP).
  destruct EQ as [_ EQ]. rewrite EQ, kept_one. cbn [bind].
  replace (table N n (fun a0 t => minus3 (cart cell (y (t * 1)%nat a0)) (cart cell (y 0%nat a0)))) with (table N n (fun a0 t => minus3 (cart cell (y t a0)) (cart cell (y 0%nat a0)))).
  - reflexivity.
  - unfold table. f_equal. apply tab_ext. intros b _. apply tab_ext. intros t _. now rewrite Nat.mul_1_r.
Qed.

(** ** Examples and counterexamples *)
Lemma wraps_unique y x z : wraps_to y x -> (0 <= z < 1 /\ exists k : Z, x = z + IZR k) -> y = z.
Proof.
  intros [R1 [k1 E1]] [R2 [k2 E2]]. assert (A : IZR (k1 - k2) = z - y) by (rewrite minus_IZR; lra).
  assert (k1 - k2 = 0)%Z by (apply IZR_between; rewrite A; lra). rewrite H in A. lra.
Qed.
Lemma opposite_axis u : molecule_axis circular_mean_R None [u; u + 1 / 2]
  = Ok (let m := ((u - 1 - IZR (Rfloor (u - 1))) + (u - 1 / 2 - IZR (Rfloor (u - 1 / 2)))) / 2 + 1 in m - IZR (Rfloor m)).
Proof.
  rewrite (axis_ok None) by (repeat split; cbn; try lia; lra). f_equal.
  change (weights_of None (length [u; u + 1 / 2])) with [1; 1].
  assert (C : circle_mean [1; 1] [u; u + 1 / 2] = 1 / 2).
  { generalize PI_RGT_0; intros P. unfold circle_mean, circle_angle, weighted. cbn [combine map rsum fst snd].
    replace (2 * PI * (u + 1 / 2)) with (2 * PI * u + PI) by field. rewrite neg_cos, neg_sin.
    replace (- ((1 * sin (2 * PI * u) + (1 * - sin (2 * PI * u) + 0)) / (1 + (1 + 0)))) with 0 by field.
    replace (- ((1 * cos (2 * PI * u) + (1 * - cos (2 * PI * u) + 0)) / (1 + (1 + 0)))) with 0 by field.
    unfold atan2. destruct (Rlt_dec 0 0); [lra|]. field. lra. }
  unfold axis_value. rewrite C. unfold weighted. cbn [combine map rsum fst snd].
  replace (1 / 2 + / 2) with 1 by field. replace (u + 1 / 2 - 1) with (u - 1 / 2) by field.
  replace ((1 * (u - 1 - IZR (Rfloor (u - 1))) + (1 * (u - 1 / 2 - IZR (Rfloor (u - 1 / 2))) + 0)) / (1 + (1 + 0)) + 1)
    with ((u - 1 - IZR (Rfloor (u - 1)) + (u - 1 / 2 - IZR (Rfloor (u - 1 / 2)))) / 2 + 1) by field. reflexivity.
Qed.
Lemma opposite_value u j k m v : Rfloor (u - 1) = j -> Rfloor (u - 1 / 2) = k -> Rfloor (((u - 1 - IZR j) + (u - 1 / 2 - IZR k)) / 2 + 1) = m ->
  ((u - 1 - IZR j) + (u - 1 / 2 - IZR k)) / 2 + 1 - IZR m = v -> molecule_axis circular_mean_R None [u; u + 1 / 2] = Ok v.
Proof. intros <- <- <- <-. apply opposite_axis. Qed.
Lemma zero_axis w : match w with Some ws => length ws = 2%nat /\ Forall (fun x => 0 < x) ws | None => True end -> molecule_axis circular_mean_R w [0; 0] = Ok 0.
Proof.
  intros H. destruct (axis_com w [0; 0] [0; 0]) as (y & E & W).
  - cbn; lia.
  - destruct w; [apply H|reflexivity].
  - destruct w; [apply H|cbn; repeat constructor; lra].
  - intros p q [<-|[<-|[]]] [<-|[<-|[]]]; rewrite Rminus_eq_0, Rabs_R0; lra.
  - repeat constructor; exists 0%Z; cbn; lra.
  - rewrite E. f_equal. eapply wraps_unique; [exact W|]. split; [lra|]. exists 0%Z.
    unfold centre_of_mass, weighted. destruct w as [ws|]; [destruct ws as [|p [|q [|r ws]]]; try (destruct H; discriminate)|]; cbn; unfold Rdiv; ring.
Qed.
Definition line3 (x : R) : V3 R := mkV x 0 0.
Lemma centre_line w p q v : match w with Some ws => length ws = 2%nat /\ Forall (fun x => 0 < x) ws | None => True end ->
  molecule_axis circular_mean_R w [p; q] = Ok v -> molecule_centre circular_mean_R w [line3 p; line3 q] = Ok (line3 v).
Proof. intros H E. unfold molecule_centre, line3. cbn [map vx vy vz]. rewrite E. cbn [bind]. rewrite (zero_axis w H). reflexivity. Qed.

Definition pair_types : list string := ["N"; "N"; "Li"]%string.
Definition pair_params (masses : option (list R)) : Params R :=
  mkParams None (PyFloat 1) 1 1 1 one_step (SIMol [[1; 2]%Z]) masses PyNone.
Lemma pair_frame w (p : nat -> V3 R) c : molecule_centre circular_mean_R w [p 0%nat; p 1%nat] = Ok c ->
  molecule_frame circular_mean_R w (map minus_one [[1; 2]%Z]) (drift_of 3 [[1; 2]%Z] PyNone) (tab 3 p) = Ok [c; p 2%nat].
Proof.
  intros H. unfold molecule_frame. change (map minus_one [[1; 2]%Z]) with [[0; 1]%Z]. change (drift_of 3 [[1; 2]%Z] PyNone) with [2%Z].
  cbn [mapM]. change (gather (tab 3 p) [0; 1]%Z) with (Ok [p 0%nat; p 1%nat]). cbn [bind]. rewrite H. reflexivity.
Qed.
Lemma pair_run w (pos : nat -> nat -> V3 R) (y : nat -> V3 R) :
  match w with Some m => length m = 2%nat | None => True end ->
  (forall f, (f < 3)%nat -> molecule_centre circular_mean_R w [pos f 0%nat; pos f 1%nat] = Ok (y f)) ->
  small_steps 3 2 1 (fun f b => match b with O => y f | _ => pos f 2%nat end) ->
  exists p arr, ase_parser geomspace_R circular_mean_R (frames_of pair_types 1 3 3 pos (fun _ => unit_cell)) (pair_params w) = Ok p
  /\ p_indices p = [0%Z] /\ p_drift_indices p = [1%Z] /\ p_disp_3d p = [arr]
  /\ a_rows arr = [[minus3 (minus3 (cart unit_cell (y 0%nat)) (cart unit_cell (y 0%nat))) (average3 [minus3 (cart unit_cell (pos 0%nat 2%nat)) (cart unit_cell (pos 0%nat 2%nat))]);
     minus3 (minus3 (minus3 (cart unit_cell (y 1%nat)) (cart unit_cell (y 0%nat))) (average3 [minus3 (cart unit_cell (pos 1%nat 2%nat)) (cart unit_cell (pos 0%nat 2%nat))]))
            (minus3 (minus3 (cart unit_cell (y 0%nat)) (cart unit_cell (y 0%nat))) (average3 [minus3 (cart unit_cell (pos 0%nat 2%nat)) (cart unit_cell (pos 0%nat 2%nat))]));
     minus3 (minus3 (minus3 (cart unit_cell (y 2%nat)) (cart unit_cell (y 0%nat))) (average3 [minus3 (cart unit_cell (pos 2%nat 2%nat)) (cart unit_cell (pos 0%nat 2%nat))]))
            (minus3 (minus3 (cart unit_cell (y 1%nat)) (cart unit_cell (y 0%nat))) (average3 [minus3 (cart unit_cell (pos 1%nat 2%nat)) (cart unit_cell (pos 0%nat 2%nat))]))]].
Proof.
  intros Hw Hy Hs.
  rewrite (ase_mol_run geomspace_R circular_mean_R unit_cell pair_types 1 3 3 pos (fun f b => match b with O => y f | _ => pos f 2%nat end) (pair_params w) [[1; 2]%Z]).
  - cbn [pair_params a_time_step pynum_val a_step_skip a_opts a_framework]. change (length [[1; 2]%Z] + length (drift_of 3 [[1; 2]%Z] PyNone))%nat with 2%nat.
    change (centre_ids [[1; 2]%Z]) with [0%Z]. change (framework_ids [[1; 2]%Z] (drift_of 3 [[1; 2]%Z] PyNone)) with [1%Z].
    unfold one_step. rewrite (parser_init_ints geomspace_R 2 3 _ [0%Z] [1%Z] 1 1 1 "multi-origin" 8 8) by (first [repeat constructor; cbn; lia | lia]).
    change (tab _ (lin _ 1 _)) with (map Z.of_nat [1]%nat).
    rewrite get_disps_multi' by (repeat constructor; cbn; lia).
    assert (E : Rltb 8 (in_gigabytes (fold_right Z.add 0%Z (map (estimate (length [0%Z]) 3 8) [1]%nat))) = false).
    { apply Rltb_false. unfold in_gigabytes. cbn. lra. }
    rewrite E. cbn [bind]. do 2 eexists. split; [reflexivity|]. do 3 (split; [reflexivity|]). reflexivity.
  - exact unit_cell_volume.
  - lia.
  - reflexivity.
  - split; reflexivity.
  - discriminate.
  - reflexivity.
  - reflexivity.
  - destruct w; [exact Hw|exact I].
  - discriminate.
  - intros f Hf. cbn [pair_params a_masses a_framework]. rewrite (pair_frame w (pos f) (y f)) by now apply Hy. reflexivity.
  - exact Hs.
Qed.

(** Two atoms half a cell apart, with a Li atom: everything moves by a quarter of the cell per frame. *)
Definition opposite (i : nat) : V3 R := match i with O => line3 0 | S O => line3 (1 / 2) | _ => line3 (1 / 4) end.
Definition quarters (f : nat) : V3 R := line3 (INR f / 4).
Lemma opposite_run (f : nat) : (f < 3)%nat ->
  molecule_centre circular_mean_R None [plus3 (opposite 0) (quarters f); plus3 (opposite 1) (quarters f)]
  = Ok (line3 (match f with O => 1 / 4 | S O => 1 / 2 | _ => 1 / 4 end)).
Proof.
  intros Hf. unfold opposite, quarters.
  replace (plus3 (line3 0) (line3 (INR f / 4))) with (line3 (INR f / 4)) by (apply V3_eq; cbn; ring).
  replace (plus3 (line3 (1 / 2)) (line3 (INR f / 4))) with (line3 (INR f / 4 + 1 / 2)) by (apply V3_eq; cbn; ring).
  apply centre_line; [exact I|]. destruct f as [|[|[|f]]]; [| | |lia].
  - apply (opposite_value _ (-1)%Z (-1)%Z 1%Z); cbn [INR]; try apply Rfloor_unique; try field; cbn; lra.
  - apply (opposite_value _ (-1)%Z (-1)%Z 1%Z); cbn [INR]; try apply Rfloor_unique; try field; cbn; lra.
  - apply (opposite_value _ (-1)%Z 0%Z 1%Z); cbn [INR]; try apply Rfloor_unique; try field; cbn; lra.
Qed.
Lemma C53_molecules_refuted_proof : exists p,
  ase_parser geomspace_R circular_mean_R (frames_of pair_types 1 3 3 (fun f i => plus3 (opposite i) (quarters f)) (fun _ => unit_cell)) (pair_params None) = Ok p
  /\ p_drift_indices p <> [] /\ ~ motionless p.
Proof.
  destruct (pair_run None (fun f i => plus3 (opposite i) (quarters f)) (fun f => line3 (match f with O => 1 / 4 | S O => 1 / 2 | _ => 1 / 4 end))) as (p & arr & P & _ & D & A & R0).
  - exact I.
  - intros f Hf. now apply opposite_run.
  - intros f b Hf Hb. unfold quarters, opposite, line3. destruct f as [|[|f]]; [| |lia]; destruct b as [|[|b]]; try lia; unfold within_half; cbn; lra.
  - exists p. split; [exact P|]. split; [now rewrite D|]. intros M. specialize (M arr). rewrite A, R0 in M.
    specialize (M _ (minus3 (minus3 (minus3 (cart unit_cell (line3 (1 / 4))) (cart unit_cell (line3 (1 / 4)))) (average3 [minus3 (cart unit_cell (plus3 (opposite 2) (quarters 2))) (cart unit_cell (plus3 (opposite 2) (quarters 0)))]))
            (minus3 (minus3 (cart unit_cell (line3 (1 / 2))) (cart unit_cell (line3 (1 / 4)))) (average3 [minus3 (cart unit_cell (plus3 (opposite 2) (quarters 1))) (cart unit_cell (plus3 (opposite 2) (quarters 0)))]))) (or_introl eq_refl) (or_introl eq_refl)).
    specialize (M (or_intror (or_intror (or_introl eq_refl)))). apply (f_equal vx) in M. revert M. unfold average3, average, opposite, quarters, line3. cbn. lra.
Qed.
Lemma C19_translation_refuted_proof : exists new new' c c', let two := [line3 0; line3 (1 / 2)] in
  get_molecules circular_mean_R 2 [two] [[1; 2]%Z] None PyNone = Ok (new, ([0%Z], []))
  /\ get_molecules circular_mean_R 2 [map (plus3 (line3 (1 / 2))) two] [[1; 2]%Z] None PyNone = Ok (new', ([0%Z], []))
  /\ entry new 0 0 = Some c /\ entry new' 0 0 = Some c' /\ ~ wraps3 c' (plus3 c (line3 (1 / 2))).
Proof.
  assert (A0 : molecule_centre circular_mean_R None [line3 0; line3 (1 / 2)] = Ok (line3 (1 / 4))).
  { replace (1 / 2) with (0 + 1 / 2) at 1 by lra. apply centre_line; [exact I|].
    apply (opposite_value _ (-1)%Z (-1)%Z 1%Z); try apply Rfloor_unique; try field; cbn; lra. }
  assert (A1 : molecule_centre circular_mean_R None [plus3 (line3 (1 / 2)) (line3 0); plus3 (line3 (1 / 2)) (line3 (1 / 2))] = Ok (line3 (1 / 4))).
  { replace (plus3 (line3 (1 / 2)) (line3 0)) with (line3 (1 / 2)) by (apply V3_eq; cbn; lra).
    replace (plus3 (line3 (1 / 2)) (line3 (1 / 2))) with (line3 (1 / 2 + 1 / 2)) by (apply V3_eq; cbn; lra). apply centre_line; [exact I|].
    apply (opposite_value _ (-1)%Z 0%Z 1%Z); try apply Rfloor_unique; try field; cbn; lra. }
  exists [[line3 (1 / 4)]], [[line3 (1 / 4)]], (line3 (1 / 4)), (line3 (1 / 4)). intros two. split; [|split; [|split; [reflexivity|split; [reflexivity|]]]].
  - change [0%Z] with (centre_ids [[1; 2]%Z]). change (@nil Z) with (framework_ids [[1; 2]%Z] (drift_of 2 [[1; 2]%Z] PyNone)).
    apply get_molecules_forward; [reflexivity|exact I|discriminate|]. constructor; [|constructor]. split; [reflexivity|].
    unfold molecule_frame. cbn [map]. cbn [mapM]. change (gather two (minus_one [1; 2]%Z)) with (Ok two). cbn [bind]. unfold two. rewrite A0. reflexivity.
  - change [0%Z] with (centre_ids [[1; 2]%Z]). change (@nil Z) with (framework_ids [[1; 2]%Z] (drift_of 2 [[1; 2]%Z] PyNone)).
    apply get_molecules_forward; [reflexivity|exact I|discriminate|]. constructor; [|constructor]. split; [reflexivity|].
    unfold molecule_frame. set (tw := map (plus3 (line3 (1 / 2))) two). cbn [map]. cbn [mapM]. change (gather tw (minus_one [1; 2]%Z)) with (Ok tw). cbn [bind].
    unfold tw, two. cbn [map]. rewrite A1. reflexivity.
  - intros ((_ & k & E) & _). cbn in E. assert (X : IZR k = 1 / 2) by lra.
    assert (k = 0)%Z by (apply IZR_between; lra). subst k. lra.
Qed.

(** A molecule across the cell boundary: atoms at 9/10 and 11/10 (seen at 1/10), masses 1 and 3, moving by 1/10 per frame; the Li atom stays. *)
Definition crossing (f i : nat) : V3 R := match i with O => line3 (9 / 10 + INR f / 10) | S O => line3 (11 / 10 + INR f / 10) | _ => line3 0 end.
Definition crossing_img (f i : nat) : V3 Z := match i with S O => mkV (-1)%Z 0%Z 0%Z | O => match f with O => mkV 0%Z 0%Z 0%Z | _ => mkV (-1)%Z 0%Z 0%Z end | _ => mkV 0%Z 0%Z 0%Z end.
Definition crossing_masses : option (list R) := Some [1; 3].
Lemma crossing_narrow f : on_axes narrow [crossing f 0; crossing f 1].
Proof.
  repeat split; intros a b [<-|[<-|[]]] [<-|[<-|[]]]; cbn; apply Rabs_def1; lra.
Qed.
Lemma crossing_centre f : (f < 3)%nat -> molecule_centre circular_mean_R crossing_masses
   [plus3 (crossing f 0) (ivec (crossing_img f 0)); plus3 (crossing f 1) (ivec (crossing_img f 1))] = Ok (line3 (1 / 20 + INR f / 10)).
Proof.
  intros Hf. destruct (centre_com crossing_masses [crossing f 0; crossing f 1] [plus3 (crossing f 0) (ivec (crossing_img f 0)); plus3 (crossing f 1) (ivec (crossing_img f 1))]) as (c & C & W1 & W2 & W3).
  - discriminate.
  - reflexivity.
  - cbn; repeat constructor; lra.
  - apply crossing_narrow.
  - repeat constructor; eexists; reflexivity.
  - rewrite C. f_equal.
    assert (B : 0 <= INR f <= 2) by (split; [apply pos_INR|]; apply (le_INR f 2); lia).
    apply V3_eq; cbn; [eapply wraps_unique; [exact W1|]; split; [lra|]; exists 1%Z|eapply wraps_unique; [exact W2|]; split; [lra|]; exists 0%Z|eapply wraps_unique; [exact W3|]; split; [lra|]; exists 0%Z];
      unfold com3, centre_of_mass, weighted; cbn; field.
Qed.
Lemma C20_example_proof : exists p arr,
  ase_parser geomspace_R circular_mean_R (frames_of pair_types 1 3 3 (fun f i => plus3 (crossing f i) (ivec (crossing_img f i))) (fun _ => unit_cell)) (pair_params crossing_masses) = Ok p
  /\ p_disp_3d p = [arr] /\ arr_entry arr 0 2 = Some (line3 (1 / 10)).
Proof.
  destruct (pair_run crossing_masses (fun f i => plus3 (crossing f i) (ivec (crossing_img f i))) (fun f => line3 (1 / 20 + INR f / 10))) as (p & arr & P & _ & D & A & R0).
  - reflexivity.
  - intros f Hf. now apply crossing_centre.
  - intros f b Hf Hb. unfold crossing, line3. rewrite Nat.mul_1_r in *. destruct b as [|[|b]]; try lia; unfold within_half; cbn [plus3 minus3 vx vy vz ivec crossing_img]; rewrite ?Nat.mul_1_r, ?S_INR; lra.
  - exists p, arr. split; [exact P|]. split; [exact A|]. unfold arr_entry, entry. rewrite R0. cbn [nth_error]. f_equal.
    unfold average3, average, crossing, line3. apply V3_eq; cbn; field.
Qed.

Lemma narrow_directions ws u : u <> [] -> length ws = length u -> Forall (fun x => 0 < x) ws -> on_axes narrow u -> on_axes (has_direction ws) u.
Proof.
  intros N L P (A & B & C). repeat split; apply narrow_direction; rewrite ?map_length; try assumption; intros E; apply N; now apply map_eq_nil in E.
Qed.
Lemma C19_example_proof : exists new, let frame := [line3 (9 / 10); line3 (11 / 10); line3 0] in
  get_molecules circular_mean_R 3 [frame] [[1; 2]%Z] (Some [1; 3]) PyNone = Ok (new, ([0%Z], [1%Z]))
  /\ members frame [1; 2]%Z [line3 (9 / 10); line3 (11 / 10)]
  /\ on_axes (has_direction (weights_of (Some [1; 3]) 2)) [line3 (9 / 10); line3 (11 / 10)].
Proof.
  assert (N : on_axes narrow [line3 (9 / 10); line3 (11 / 10)]) by (repeat split; intros a b [<-|[<-|[]]] [<-|[<-|[]]]; cbn; apply Rabs_def1; lra).
  assert (M : members [line3 (9 / 10); line3 (11 / 10); line3 0] [1; 2]%Z [line3 (9 / 10); line3 (11 / 10)]).
  { repeat constructor; unfold valid_site; cbn [length]; try lia; reflexivity. }
  destruct (centre_com (Some [1; 3]) [line3 (9 / 10); line3 (11 / 10)] [line3 (9 / 10); line3 (11 / 10)]) as (c & C & _).
  - discriminate.
  - reflexivity.
  - cbn; repeat constructor; lra.
  - exact N.
  - repeat constructor; exists (mkV 0%Z 0%Z 0%Z); apply V3_eq; cbn; ring.
  - exists [[c; line3 0]]. intros frame. split; [|split; [exact M|]].
    + change [0%Z] with (centre_ids [[1; 2]%Z]). change [1%Z] with (framework_ids [[1; 2]%Z] (drift_of 3 [[1; 2]%Z] PyNone)).
      apply get_molecules_forward; [reflexivity|reflexivity|discriminate|]. constructor; [|constructor]. split; [reflexivity|].
      unfold molecule_frame. cbn [map mapM]. apply gather_members in M. unfold frame. rewrite M. cbn [bind]. rewrite C. reflexivity.
    + apply narrow_directions; try discriminate; try reflexivity; try exact N. cbn; repeat constructor; lra.
Qed.
