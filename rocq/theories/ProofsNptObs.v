(** * ProofsNptObs: C07 for changing cells *)
From Verif Require Import Base Spec SpecParser SpecStats ModelParser ModelDiffusion ModelHdf ModelAnalyzer SpecRun SpecTrue SpecNpt Lemmas ProofsDisp ProofsWindows ProofsTraj ProofsTrue ProofsNpt.
From Coq Require Import Reals Lra Lia Sorted FunctionalExtensionality.
Open Scope Z_scope.

Lemma npt_window i circ l types vol n natoms k x img a p : npt_read i circ l types vol n natoms k x img a p ->
  forall q arr, nth_error (p_disp_3d p) q = Some arr -> exists m, (0 < m <= kept n k)%nat /\ nth_error (p_intervals p) q = Some (Z.of_nat m)
    /\ arr = multi_window natoms (kept n k) (corrected natoms (tor_path l k x img) (p_drift_indices p)) (p_indices p) m.
Proof.
  intros F q arr Hq. destruct (npt_form _ _ _ _ _ _ _ _ _ _ _ _ F) as (tis & RF).
  destruct (rf_used _ _ _ _ _ _ _ _ _ _ RF) as (_ & Ed & _). rewrite Ed, nth_error_map in Hq.
  set (ks := firstn (length (filter (enough (length (p_indices p)) (kept n k)) tis)) tis) in *.
  destruct (nth_error ks q) as [m|] eqn:Em; [|discriminate]. injection Hq as <-.
  assert (Et : nth_error tis q = Some m).
  { unfold ks in Em. assert (L : (q < length (firstn (length (filter (enough (length (p_indices p)) (kept n k)) tis)) tis))%nat) by (apply nth_error_Some; congruence).
    rewrite firstn_length in L. rewrite nth_error_firstn in Em by lia. exact Em. }
  exists m. split.
  - assert (R := rf_range _ _ _ _ _ _ _ _ _ _ RF). rewrite Forall_forall in R. apply R. eapply nth_error_In. exact Et.
  - split; [rewrite (rf_intervals _ _ _ _ _ _ _ _ _ _ RF), nth_error_map, Et; reflexivity|].
    assert (Hk := nr_k _ _ _ _ _ _ _ _ _ _ _ _ F).
    replace (drifting unit_cell k (straightened l k x img)) with (tor_path l k x img); [reflexivity|].
    apply functional_extensionality. intros b. apply functional_extensionality. intros t. symmetry. now apply straightened_drift.
Qed.
Lemma C07_npt_proof i circ l types vol n natoms k x img a p : npt_read i circ l types vol n natoms k x img a p ->
  forall q arr, nth_error (p_disp_3d p) q = Some arr -> exists m : nat, (0 < m <= kept n k)%nat /\ nth_error (p_intervals p) q = Some (Z.of_nat m)
    /\ reports_interval natoms (kept n k) 1 (fun t b => tor_path l k x img b t) (p_indices p) (p_drift_indices p) m arr.
Proof.
  intros F q arr Hq. destruct (npt_window _ _ _ _ _ _ _ _ _ _ _ _ F q arr Hq) as (m & Hm & Em & ->). exists m. split; [exact Hm|]. split; [exact Em|].
  assert (K := multi_window_reports natoms (kept n k) 1 (fun t b => tor_path l k x img b t) (p_indices p) (p_drift_indices p) m Hm). cbv beta in K.
  replace (fun b t => minus3 (tor_path l k x img b (t * 1)%nat) (tor_path l k x img b 0%nat)) with (tor_path l k x img) in K; [exact K|].
  symmetry. apply functional_extensionality. intros b. apply functional_extensionality. intros t. rewrite Nat.mul_1_r.
  unfold tor_path at 2, cartesian_path. cbn [breathing Nat.mul]. v3eq.
Qed.
Lemma C07_npt_unwrapped_proof i circ l types vol n natoms k x img a p : npt_read i circ l types vol n natoms k x img a p ->
  (forall f b, img f b = mkV 0 0 0) ->
  forall q arr, nth_error (p_disp_3d p) q = Some arr -> exists m : nat, (0 < m <= kept n k)%nat /\ nth_error (p_intervals p) q = Some (Z.of_nat m)
    /\ reports_interval natoms (kept n k) k (fun f b => cart (l f) (x f b)) (p_indices p) (p_drift_indices p) m arr.
Proof.
  intros F HI q arr Hq. destruct (npt_window _ _ _ _ _ _ _ _ _ _ _ _ F q arr Hq) as (m & Hm & Em & ->). exists m. split; [exact Hm|]. split; [exact Em|].
  replace (tor_path l k x img) with (fun b t => minus3 (cart (l (t * k)%nat) (x (t * k)%nat b)) (cart (l 0%nat) (x 0%nat b))).
  - exact (multi_window_reports natoms (kept n k) k (fun f b => cart (l f) (x f b)) (p_indices p) (p_drift_indices p) m Hm).
  - apply functional_extensionality. intros b. apply functional_extensionality. intros t. symmetry. now rewrite C92_unwrapped_proof by (intros; apply HI).
Qed.
