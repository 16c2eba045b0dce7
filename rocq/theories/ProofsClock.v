(** * ProofsClock: times, and the start of the fit, in double precision (C103) *)
From Verif Require Import Base ModelParser ModelDiffusion Spec SpecStats SpecDouble SpecUnwrap SpecRun SpecRound SpecClock
  Lemmas ProofsDisp ProofsParser ProofsTraj ProofsFloat ProofsUnwrap ProofsBoot ProofsStats ProofsRound.
From Coq Require Import Reals Lra Lia Psatz.
From Coq.Floats Require Import SpecFloat.
From Flocq Require Import Core BinarySingleNaN.
Open Scope Z_scope.

#[local] Instance prec_pos : Prec_gt_0 fprec := eq_refl.
#[local] Instance prec_emax : Prec_lt_emax fprec femax := eq_refl.

Lemma leb_value x y : finite_double x -> finite_double y -> SFleb x y = Rle_bool (value x) (value y).
Proof.
  intros Hx Hy. destruct (of_double x (proj1 Hx)) as (bx & ->). destruct (of_double y (proj1 Hy)) as (by' & ->).
  rewrite finite_B in Hx, Hy. rewrite !value_B. change (SFleb (B2SF bx) (B2SF by')) with (Bleb bx by'). now apply Bleb_correct.
Qed.
Lemma leb_true x y : finite_double x -> finite_double y -> (value x <= value y)%R -> SFleb x y = true.
Proof. intros Hx Hy H. rewrite leb_value by assumption. now apply Rle_bool_true. Qed.
Lemma leb_false x y : finite_double x -> finite_double y -> (value y < value x)%R -> SFleb x y = false.
Proof. intros Hx Hy H. rewrite leb_value by assumption. now apply Rle_bool_false. Qed.

Section Init.
  Context {A : Type} {NA : Num A}.
  Lemma get_disps_times ts ss idx s ml isz tis dc r : get_disps ts ss idx s ml isz tis dc = Ok r ->
    fst (fst r) = map (fun ti => nmul (nmul (nofZ ti) ts) (nofZ ss)) tis.
  Proof.
    unfold get_disps. destruct tis as [|m tis].
    - destruct (nltb _ _); [discriminate|]. intros [= <-]. reflexivity.
    - intros H. repeat match type of H with context [bind ?c _] => destruct c; cbn [bind] in H; [|discriminate] end.
      repeat match type of H with context [if ?c then _ else _] => destruct c; cbn [bind] in H; try discriminate end.
      repeat match type of H with context [bind ?c _] => destruct c; cbn [bind] in H; [|discriminate] end.
      injection H as <-. reflexivity.
  Qed.
End Init.

(** ** One time *)
Lemma bpow_R e : bpow radix2 e = powerRZ 2 e.
Proof. rewrite bpow_powerRZ. reflexivity. Qed.
Lemma usual_pos x : usual x -> (0 < value x)%R.
Proof. intros [_ [H _]]. assert (0 < powerRZ 2 (-800))%R by (apply powerRZ_lt; lra). lra. Qed.
(** A product of positive numbers, rounded, of a size between 2^-1000 and 2^1000. *)
Lemma mul_near j k x y a b : finite_double x -> finite_double y -> near j (value x) a -> near k (value y) b -> (0 < a)%R -> (0 < b)%R ->
  (bpow radix2 (-1000) <= value x * value y <= bpow radix2 1000)%R ->
  finite_double (SFmul fprec femax x y) /\ near (1 + (j + k)) (value (SFmul fprec femax x y)) (a * b).
Proof.
  intros Fx Fy Nx Ny Ha Hb [B1 B2]. assert (P : (0 < value x * value y)%R) by (eapply Rlt_le_trans; [apply bpow_gt_0|exact B1]).
  assert (Vx := near_nonneg _ _ _ (Rlt_le _ _ Ha) Nx). assert (Vy := near_nonneg _ _ _ (Rlt_le _ _ Hb) Ny).
  destruct (bounded_finite _ _ (mul_rounds x y Fx Fy)) as [F E]; [rewrite Rabs_pos_eq; lra|]. split; [exact F|]. rewrite E.
  apply (near_trans _ _ (value x * value y)%R); [apply Rlt_le, Rmult_lt_0_compat; assumption| |].
  - apply near_rnd; [lra|]. right. eapply Rle_trans; [|exact B1]. apply bpow_le. lia.
  - apply (near_trans _ _ (a * value y)%R); [apply Rlt_le, Rmult_lt_0_compat; assumption| |].
    + apply near_scale; assumption.
    + rewrite !(Rmult_comm a). apply near_scale; [lra|exact Ny].
Qed.
Lemma near_exact x : (0 < x)%R -> near 0 x x.
Proof. intros H. unfold near. cbn [pow]. lra. Qed.
Lemma near_half k a r : (0 < r)%R -> (INR k * eps <= / 2)%R -> near k a r -> (r / 2 <= a <= 2 * r)%R.
Proof. intros H K N. split; [|now apply (near_double k); [lra| |]]. destruct N as [N _]. pose proof (low_bound k). nra. Qed.
Lemma IZR_pow a e : 0 <= e -> a < 2 ^ e -> (IZR a <= bpow radix2 e)%R.
Proof. intros He H. rewrite <- (IZR_Zpower radix2) by exact He. apply IZR_le. change (radix_val radix2) with 2. lia. Qed.
Definition stamp (ts : spec_float) (ss m : Z) : spec_float := SFmul fprec femax (SFmul fprec femax (SFofZ m) ts) (SFofZ ss).
Lemma three_bounds a b c (A0 : (0 < a)%R) (B0 : (0 < b)%R) (lo hi lo' hi' lo2 hi2 : Z) :
  (bpow radix2 lo <= a <= bpow radix2 hi)%R -> (bpow radix2 lo' <= b <= bpow radix2 hi')%R -> lo2 <= lo + lo' -> hi + hi' <= hi2 ->
  c = (a * b)%R -> (bpow radix2 lo2 <= c <= bpow radix2 hi2)%R.
Proof.
  intros [H1 H2] [H3 H4] L1 L2 ->. pose proof (bpow_gt_0 radix2 lo). pose proof (bpow_gt_0 radix2 lo'). split.
  - eapply Rle_trans; [apply bpow_le, L1|]. rewrite bpow_plus. apply Rmult_le_compat; lra.
  - eapply Rle_trans; [|apply bpow_le, L2]. rewrite bpow_plus. apply Rmult_le_compat; lra.
Qed.
Lemma one_bpow : (bpow radix2 0 = 1)%R. Proof. reflexivity. Qed.
Lemma int_bounds m : 1 <= m < 2 ^ 48 -> (0 < IZR m)%R /\ (bpow radix2 0 <= IZR m <= bpow radix2 48)%R.
Proof. intros [H1 H2]. assert (1 <= IZR m)%R by (apply IZR_le; lia). rewrite one_bpow. pose proof (IZR_pow m 48 ltac:(lia) H2). lra. Qed.
Lemma usual_bounds x : usual x -> (bpow radix2 (-800) <= value x <= bpow radix2 800)%R.
Proof. intros [_ H]. now rewrite !bpow_R. Qed.
Lemma widen k a r lo hi : (0 < r)%R -> (k <= 1000)%nat -> near k a r -> (bpow radix2 lo <= r <= bpow radix2 hi)%R -> (0 < a)%R /\ (bpow radix2 (lo - 1) <= a <= bpow radix2 (hi + 1))%R.
Proof.
  intros Hr Hk N [H1 H2]. assert (T : (INR k * eps <= / 2)%R).
  { apply tiny_index. apply Rle_trans with (INR 1000); [now apply le_INR|]. rewrite INR_IZR_INZ. apply IZR_le. cbn. lia. }
  destruct (near_half k a r Hr T N) as [N1 N2]. replace (lo - 1) with (lo + -1) by lia. rewrite !bpow_plus.
  change (bpow radix2 (-1)) with (/ 2)%R. change (bpow radix2 1) with 2%R. lra.
Qed.
Lemma stamp_near ts ss m : usual ts -> 1 <= m < 2 ^ 48 -> 1 <= ss < 2 ^ 48 ->
  finite_double (stamp ts ss m) /\ near 2 (value (stamp ts ss m)) (IZR m * (IZR ss * value ts)).
Proof.
  intros U Hm Hs. destruct (ofZ_small m ltac:(lia)) as [F1 V1]. destruct (ofZ_small ss ltac:(lia)) as [F2 V2].
  destruct (int_bounds m Hm) as [P1 B1]. destruct (int_bounds ss Hs) as [P2 B2]. assert (PT := usual_pos ts U). assert (BT := usual_bounds ts U).
  assert (BM := three_bounds _ _ _ P1 PT _ _ _ _ (-800) 850 B1 BT ltac:(lia) ltac:(lia) eq_refl).
  destruct (mul_near 0 0 (SFofZ m) ts (IZR m) (value ts) F1 (proj1 U)) as [F3 N3]; try assumption.
  { rewrite V1. now apply near_exact. } { now apply near_exact. }
  { rewrite V1. exact (three_bounds _ _ _ P1 PT _ _ _ _ (-1000) 1000 B1 BT ltac:(lia) ltac:(lia) eq_refl). }
  assert (PM : (0 < IZR m * value ts)%R) by now apply Rmult_lt_0_compat.
  destruct (widen 1 _ _ _ _ PM ltac:(lia) N3 BM) as [P3 B3].
  destruct (mul_near 1 0 (SFmul fprec femax (SFofZ m) ts) (SFofZ ss) (IZR m * value ts) (IZR ss) F3 F2) as [F4 N4]; try assumption.
  { rewrite V2. now apply near_exact. }
  { rewrite V2. exact (three_bounds _ _ _ P3 P2 _ _ _ _ (-1000) 1000 B3 B2 ltac:(lia) ltac:(lia) eq_refl). }
  split; [exact F4|]. replace (IZR m * (IZR ss * value ts))%R with (IZR m * value ts * IZR ss)%R by ring. exact N4.
Qed.
Definition milli_stamp (ts : spec_float) (ss m : Z) : spec_float := SFmul fprec femax (stamp ts ss m) (SFdiv fprec femax (SFofZ 1) (SFofZ 1000)).
Lemma milli_near : finite_double (SFdiv fprec femax (SFofZ 1) (SFofZ 1000)) /\ near 1 (value (SFdiv fprec femax (SFofZ 1) (SFofZ 1000))) (/ 1000).
Proof.
  destruct (ofZ_small 1 ltac:(lia)) as [F1 V1]. destruct (ofZ_small 1000 ltac:(lia)) as [F2 V2].
  assert (R := div_rounds _ _ F1 F2 ltac:(rewrite V2; lra)). rewrite V1, V2 in R.
  destruct (bounded_finite _ _ R) as [F E]. { apply small_bound. rewrite Rabs_pos_eq; lra. }
  split; [exact F|]. rewrite E. replace (1 / 1000)%R with (/ 1000)%R by field. apply near_rnd; [lra|]. right.
  apply Rle_trans with (bpow radix2 (-10)); [apply bpow_le; lia|]. change (bpow radix2 (-10)) with (/ 1024)%R. apply Rinv_le; lra.
Qed.
Lemma milli_stamp_near ts ss m : usual ts -> 1 <= m < 2 ^ 48 -> 1 <= ss < 2 ^ 48 ->
  finite_double (milli_stamp ts ss m) /\ near 4 (value (milli_stamp ts ss m)) (IZR m * (IZR ss * value ts / 1000)).
Proof.
  intros U Hm Hs. destruct (stamp_near ts ss m U Hm Hs) as [F N]. destruct milli_near as [F' N'].
  destruct (int_bounds m Hm) as [P1 B1]. destruct (int_bounds ss Hs) as [P2 B2]. assert (PT := usual_pos ts U). assert (BT := usual_bounds ts U).
  assert (PS : (0 < IZR ss * value ts)%R) by now apply Rmult_lt_0_compat.
  assert (PM : (0 < IZR m * (IZR ss * value ts))%R) by now apply Rmult_lt_0_compat.
  assert (BS := three_bounds _ _ _ P2 PT _ _ _ _ (-800) 848 B2 BT ltac:(lia) ltac:(lia) eq_refl).
  assert (BM := three_bounds _ _ _ P1 PS _ _ _ _ (-800) 896 B1 BS ltac:(lia) ltac:(lia) eq_refl).
  destruct (widen 2 _ _ _ _ PM ltac:(lia) N BM) as [P3 B3].
  assert (BI : (bpow radix2 (-10) <= / 1000 <= bpow radix2 0)%R).
  { change (bpow radix2 (-10)) with (/ 1024)%R. rewrite one_bpow. split; [apply Rinv_le; lra|]. lra. }
  destruct (widen 1 _ (/ 1000)%R _ _ ltac:(lra) ltac:(lia) N' BI) as [P4 B4].
  destruct (mul_near 2 1 _ _ _ (/ 1000)%R F F' N N' PM ltac:(lra)) as [F4 N4].
  { exact (three_bounds _ _ _ P3 P4 _ _ _ _ (-1000) 1000 B3 B4 ltac:(lia) ltac:(lia) eq_refl). }
  split; [exact F4|]. replace (IZR m * (IZR ss * value ts / 1000))%R with (IZR m * (IZR ss * value ts) * / 1000)%R by (unfold Rdiv; ring). exact N4.
Qed.

(** ** All times of a parser *)
Lemma near_accurate k x r : (k <= 1000)%nat -> (0 <= r)%R -> finite_double x -> near k (value x) r -> accurate (INR k) x r.
Proof.
  intros Hk Hr F N. split; [exact F|]. assert (T : (INR k * eps <= / 2)%R).
  { apply tiny_index. apply Rle_trans with (INR 1000); [now apply le_INR|]. rewrite INR_IZR_INZ. apply IZR_le. cbn. lia. }
  eapply Rle_trans; [exact (near_abs k _ _ Hr T N)|]. apply Req_le. unfold eps. replace (2 ^ 52)%R with 4503599627370496%R by (cbn; lra). field.
Qed.
Lemma Forall2_maps {T U V} (P : U -> V -> Prop) (f : T -> U) (h : T -> V) l : Forall (fun x => P (f x) (h x)) l -> Forall2 P (map f l) (map h l).
Proof. induction 1; cbn; constructor; auto. Qed.
Lemma parser_times {A} {NA : Num A} geo (disp : Arr A) idx didx ts ss o p : parser_init geo disp idx didx ts ss o = Ok p ->
  p_delta_t p = map (fun ti => nmul (nmul (nofZ ti) ts) (nofZ ss)) (p_intervals p).
Proof.
  unfold parser_init. intros H.
  destruct (correct_drift didx disp); cbn [bind] in H; [|discriminate].
  destruct (py_div _ _); cbn [bind] in H; [|discriminate]. destruct (py_int _); cbn [bind] in H; [|discriminate].
  destruct (_ <=? _); [discriminate|]. destruct (get_time_intervals _ _ _ _ _ _ _) as [tis|]; cbn [bind] in H; [|discriminate].
  destruct (get_disps _ _ _ _ _ _ _ _) as [r|] eqn:E; cbn [bind] in H; [|discriminate]. injection H as <-. cbn. exact (get_disps_times _ _ _ _ _ _ _ _ _ E).
Qed.
Lemma unit_pos ts ss : usual ts -> 1 <= ss < 2 ^ 48 -> (0 < IZR ss * value ts)%R.
Proof. intros U H. apply Rmult_lt_0_compat; [apply IZR_lt; lia|now apply usual_pos]. Qed.
Lemma stamps_accurate ts ss l : usual ts -> 1 <= ss < 2 ^ 48 -> counted l -> all_accurate 2 (map (stamp ts ss) l) (clock (IZR ss * value ts) l).
Proof.
  intros U Hs Hl. apply Forall2_maps. eapply Forall_impl; [|exact Hl]. intros m Hm. cbv beta in Hm |- *. destruct (stamp_near ts ss m U Hm Hs) as [F N].
  apply (near_accurate 2); try assumption; [lia|]. pose proof (unit_pos ts ss U Hs). assert (0 < IZR m)%R by (apply IZR_lt; lia). apply Rmult_le_pos; lra.
Qed.
Lemma milli_stamps_accurate ts ss l : usual ts -> 1 <= ss < 2 ^ 48 -> counted l -> all_accurate 4 (map (milli_stamp ts ss) l) (clock (IZR ss * value ts / 1000) l).
Proof.
  intros U Hs Hl. apply Forall2_maps. eapply Forall_impl; [|exact Hl]. intros m Hm. cbv beta in Hm |- *. destruct (milli_stamp_near ts ss m U Hm Hs) as [F N].
  replace 4%R with (INR 4) by (cbn; lra). apply near_accurate; try assumption; [lia|]. pose proof (unit_pos ts ss U Hs). assert (0 < IZR m)%R by (apply IZR_lt; lia). apply Rmult_le_pos; lra.
Qed.
Lemma C103_init_proof geo disp idx didx ts ss o p : usual ts -> 1 <= ss < 2 ^ 48 -> parser_init geo disp idx didx ts ss o = Ok p -> counted (p_intervals p) ->
  all_accurate 2 (p_delta_t p) (clock (IZR ss * value ts) (p_intervals p)).
Proof. intros U Hs H Hc. rewrite (parser_times _ _ _ _ _ _ _ _ H). now apply stamps_accurate. Qed.
Lemma finish_times {A} {NA : Num A} geo circ st coords latt (a : Params A) ss p : finish_parse geo circ st coords latt a ss = Ok p ->
  p_delta_t p = map (fun ti => nmul (nmul (nofZ ti) (pynum_val (a_time_step a))) (nofZ ss)) (p_intervals p).
Proof.
  unfold finish_parse. intros H. destruct (choose_atoms _ _ _ _); cbn [bind] in H; [|discriminate]. destruct (get_disp _ _); cbn [bind] in H; [|discriminate].
  destruct (parser_init _ _ _ _ _ _ _) as [q|] eqn:E; cbn [bind] in H; [|discriminate]. injection H as <-. exact (parser_times _ _ _ _ _ _ _ _ E).
Qed.
Lemma C103_ase_proof geo circ frames (a : Params spec_float) ts p : a_time_step a = PyFloat ts -> usual ts -> 1 <= a_step_skip a < 2 ^ 48 ->
  ase_parser geo circ frames a = Ok p -> counted (p_intervals p) -> all_accurate 2 (p_delta_t p) (clock (IZR (a_step_skip a) * value ts) (p_intervals p)).
Proof.
  intros ET U Hs H Hc. unfold ase_parser in H. destruct (get_structure_coords_latt _ _) as [[[st c] l]|]; cbn [bind] in H; [|discriminate].
  rewrite (finish_times _ _ _ _ _ _ _ _ H), ET. now apply stamps_accurate.
Qed.
Lemma C103_mda_proof geo circ frames (a : Params spec_float) ts p : a_time_step a = PyFloat ts -> usual ts -> 1 <= a_step_skip a * a_sub_sample_traj a < 2 ^ 48 ->
  mda_parser geo circ frames a = Ok p -> counted (p_intervals p) -> all_accurate 2 (p_delta_t p) (clock (IZR (a_step_skip a * a_sub_sample_traj a) * value ts) (p_intervals p)).
Proof.
  intros ET U Hs H Hc. unfold mda_parser in H. destruct (guard _ _); cbn [bind] in H; [|discriminate].
  destruct (get_structure_coords_latt_mda _ _ _) as [[[st c] l]|]; cbn [bind] in H; [|discriminate].
  rewrite (finish_times _ _ _ _ _ _ _ _ H), ET. now apply stamps_accurate.
Qed.
Lemma C103_pymatgen_proof geo circ frames (a : Params spec_float) ts p : a_time_step a = PyFloat ts -> usual ts -> 1 <= a_step_skip a * a_sub_sample_traj a < 2 ^ 48 ->
  pymatgen_parser geo circ frames a = Ok p -> counted (p_intervals p) ->
  all_accurate 4 (p_delta_t p) (clock (IZR (a_step_skip a * a_sub_sample_traj a) * value ts / 1000) (p_intervals p)).
Proof.
  intros ET U Hs H Hc. unfold pymatgen_parser in H. destruct (get_structure_coords_latt _ _) as [[[st c] l]|]; cbn [bind] in H; [|discriminate].
  destruct (finish_parse _ _ _ _ _ _ _) as [q|] eqn:E; cbn [bind] in H; [|discriminate]. rewrite ET in H. injection H as <-. cbn in Hc |- *.
  rewrite (finish_times _ _ _ _ _ _ _ _ E), ET, map_map. exact (milli_stamps_accurate ts _ _ U Hs Hc).
Qed.

(** ** Order *)
Definition ulp52 : R := (/ 2 ^ 52)%R.
Lemma ulp52_v : ulp52 = (/ 4503599627370496)%R.
Proof. unfold ulp52. f_equal. cbn. lra. Qed.
Lemma accurate_nth k l c ms : all_accurate k l (clock c ms) -> forall i x, nth_error l i = Some x -> exists m, nth_error ms i = Some m /\ accurate k x (IZR m * c).
Proof.
  unfold all_accurate, clock. revert ms. induction l as [|y l IH]; intros [|m ms] H i x E; inversion H; subst; [destruct i; discriminate|].
  destruct i as [|i]; cbn in E |- *; [injection E as <-; eauto|]. eapply IH; [eassumption|exact E].
Qed.
Lemma accurate_nth' k l c ms : all_accurate k l (clock c ms) -> forall i m, nth_error ms i = Some m -> exists x, nth_error l i = Some x /\ accurate k x (IZR m * c).
Proof.
  unfold all_accurate, clock. revert ms. induction l as [|y l IH]; intros [|m' ms] H i x E; inversion H; subst; [destruct i; discriminate|].
  destruct i as [|i]; cbn in E |- *; [injection E as <-; eauto|]. eapply IH; [eassumption|exact E].
Qed.
Lemma accurate_range k x r : (0 <= k <= 6)%R -> (0 <= r)%R -> accurate k x r -> ((1 - 6 * ulp52) * r <= value x <= (1 + 6 * ulp52) * r)%R.
Proof.
  intros Hk Hr [_ H]. fold ulp52 in H. rewrite ulp52_v in *. apply abs_le in H.
  assert (k * / 4503599627370496 * r <= 6 * / 4503599627370496 * r)%R by (apply Rmult_le_compat_r; lra). lra.
Qed.
Lemma C103_order_proof k l c ms : (0 <= k <= 6)%R -> (0 < c)%R -> counted ms -> all_accurate k l (clock c ms) -> strictly_increasing ms -> doubles_increase l.
Proof.
  intros Hk Hc Hm HA HI i j x y Hij Ex Ey. destruct (accurate_nth _ _ _ _ HA _ _ Ex) as (m & Em & Am). destruct (accurate_nth _ _ _ _ HA _ _ Ey) as (n & En & An).
  assert (L := HI _ _ _ _ Hij Em En). unfold counted in Hm. rewrite Forall_forall in Hm. assert (M := Hm _ (nth_error_In _ _ Em)). assert (N := Hm _ (nth_error_In _ _ En)).
  assert (M1 : (1 <= IZR m)%R) by (apply IZR_le; lia). assert (L1 : (IZR m + 1 <= IZR n)%R) by (rewrite <- plus_IZR; apply IZR_le; lia).
  assert (M2 : (IZR m <= 281474976710656)%R) by (apply IZR_le; lia).
  destruct (accurate_range k x (IZR m * c) Hk ltac:(apply Rmult_le_pos; lra) Am) as [_ X]. destruct (accurate_range k y (IZR n * c) Hk ltac:(apply Rmult_le_pos; lra) An) as [Y _].
  eapply Rle_lt_trans; [exact X|]. eapply Rlt_le_trans; [|exact Y]. rewrite <- !Rmult_assoc. apply Rmult_lt_compat_r; [exact Hc|]. rewrite ulp52_v.
  apply Rlt_le_trans with ((1 - 6 * / 4503599627370496) * (IZR m + 1))%R; [lra|]. apply Rmult_le_compat_l; lra.
Qed.

(** ** The start of the fit *)
Lemma regime_at (start : spec_float) : forall l r i x, nth_error l r = Some x -> SFleb start x = true -> (forall j y, (j < r)%nat -> nth_error l j = Some y -> SFleb start y = false) ->
  find_regime start i l = Ok (i + r)%nat.
Proof.
  induction l as [|y l IH]; intros r i x E H K; [destruct r; discriminate|]. destruct r as [|r]; cbn [find_regime].
  - injection E as ->. cbn [nleb NumSF]. rewrite H. f_equal. lia.
  - cbn [nleb NumSF]. rewrite (K 0%nat y ltac:(lia) eq_refl). rewrite (IH r (S i) x E H); [f_equal; lia|]. intros j z Hj. exact (K (S j) z ltac:(lia)).
Qed.
Lemma regime_none (start : spec_float) : forall l i, (forall y, In y l -> SFleb start y = false) -> find_regime start i l = Raise IndexError.
Proof. induction l as [|y l IH]; intros i K; [reflexivity|]. cbn [find_regime nleb NumSF]. rewrite (K y (or_introl eq_refl)). apply IH. intros z Hz. apply K. now right. Qed.
Definition margin : R := (/ 2 ^ 49)%R.
Lemma margin_v : margin = (/ 562949953421312)%R.
Proof. unfold margin. f_equal. cbn. lra. Qed.
Lemma C103_start_proof k l c ms start tau r m : (0 <= k <= 6)%R -> (0 < c)%R -> counted ms -> strictly_increasing ms -> all_accurate k l (clock c ms) ->
  nearest_double start tau -> (powerRZ 2 (-1022) <= tau <= powerRZ 2 1000)%R ->
  nth_error ms r = Some m -> (tau <= IZR m * c * (1 - / 2 ^ 49))%R ->
  (forall n, nth_error ms (Nat.pred r) = Some n -> (0 < r)%nat -> (IZR n * c * (1 + / 2 ^ 49) <= tau)%R) ->
  find_regime start 0 l = Ok r.
Proof.
  fold margin. rewrite <- !bpow_R. intros Hk Hc Hm HI HA HN HT Em H1 H2.
  assert (SE := nearest_error _ _ HN HT). assert (T0 : (0 < tau)%R) by (destruct HT as [HT _]; eapply Rlt_le_trans; [apply bpow_gt_0|exact HT]).
  assert (FS := proj1 HN). apply abs_le in SE. unfold counted in Hm. rewrite Forall_forall in Hm.
  destruct (accurate_nth' _ _ _ _ HA _ _ Em) as (x & Ex & Ax).
  assert (M : (1 <= IZR m)%R) by (apply IZR_le; specialize (Hm _ (nth_error_In _ _ Em)); lia).
  assert (MC : (0 < IZR m * c)%R) by (apply Rmult_lt_0_compat; lra).
  assert (RX := accurate_range k x (IZR m * c) Hk (Rlt_le _ _ MC) Ax). rewrite margin_v in *. rewrite ulp52_v in RX. unfold eps in SE.
  refine (regime_at start l r 0 x Ex _ _).
  - apply leb_true; [exact FS|exact (proj1 Ax)|]. lra.
  - intros j y Hj Ey. destruct (accurate_nth _ _ _ _ HA _ _ Ey) as (n & En & An).
    destruct (nth_error ms (Nat.pred r)) as [n'|] eqn:En'; [|apply nth_error_None in En'; assert (nth_error ms r <> None) by congruence; apply nth_error_Some in H; lia].
    specialize (H2 _ eq_refl ltac:(lia)).
    assert (NN : (IZR n <= IZR n')%R).
    { apply IZR_le. destruct (Nat.eq_dec j (Nat.pred r)) as [->|D]; [assert (n = n') by congruence; lia|]. assert (n < n') by (apply (HI j (Nat.pred r)); [lia|assumption..]). lia. }
    assert (N1 : (1 <= IZR n)%R) by (apply IZR_le; specialize (Hm _ (nth_error_In _ _ En)); lia).
    assert (NC : (0 < IZR n * c)%R) by (apply Rmult_lt_0_compat; lra). assert (NC' : (IZR n * c <= IZR n' * c)%R) by (apply Rmult_le_compat_r; lra).
    assert (RY := accurate_range k y (IZR n * c) Hk (Rlt_le _ _ NC) An). rewrite ulp52_v in RY.
    apply leb_false; [exact FS|exact (proj1 An)|]. lra.
Qed.
(** Past the end: IndexError. *)
Lemma C103_late_proof k l c ms start tau : (0 <= k <= 6)%R -> (0 < c)%R -> counted ms -> all_accurate k l (clock c ms) ->
  nearest_double start tau -> (powerRZ 2 (-1022) <= tau <= powerRZ 2 1000)%R ->
  (forall n, In n ms -> (IZR n * c * (1 + / 2 ^ 49) <= tau)%R) -> find_regime start 0 l = Raise IndexError.
Proof.
  fold margin. rewrite <- !bpow_R. intros Hk Hc Hm HA HN HT H2.
  assert (SE := nearest_error _ _ HN HT). assert (T0 : (0 < tau)%R) by (destruct HT as [HT _]; eapply Rlt_le_trans; [apply bpow_gt_0|exact HT]).
  assert (FS := proj1 HN). apply abs_le in SE. unfold counted in Hm. rewrite Forall_forall in Hm. rewrite margin_v in *. unfold eps in SE.
  apply regime_none. intros y Hy. apply In_nth_error in Hy as (j & Ey). destruct (accurate_nth _ _ _ _ HA _ _ Ey) as (n & En & An).
  assert (HIn := nth_error_In _ _ En). specialize (H2 _ HIn). assert (N1 : (1 <= IZR n)%R) by (apply IZR_le; specialize (Hm _ HIn); lia).
  assert (NC : (0 < IZR n * c)%R) by (apply Rmult_lt_0_compat; lra). assert (RY := accurate_range k y (IZR n * c) Hk (Rlt_le _ _ NC) An). rewrite ulp52_v in RY.
  apply leb_false; [exact FS|exact (proj1 An)|]. lra.
Qed.
(** Times in terms of the time step as written. *)
Lemma C103_written_proof k l K ts d ms : (0 <= k <= 6)%R -> nearest_double ts d -> (powerRZ 2 (-1022) <= d <= powerRZ 2 1000)%R -> (0 < K)%R -> counted ms ->
  all_accurate k l (clock (K * value ts) ms) -> all_accurate (k + 1) l (clock (K * d) ms).
Proof.
  rewrite <- !bpow_R. intros Hk HN HD HK Hm. assert (SE := nearest_error _ _ HN HD).
  assert (D0 : (0 < d)%R) by (destruct HD as [HD _]; eapply Rlt_le_trans; [apply bpow_gt_0|exact HD]). apply abs_le in SE.
  unfold all_accurate, clock. revert ms Hm. induction l as [|y l IH]; intros [|m ms] Hm H; inversion H; subst; cbn [map]; constructor.
  - inversion Hm; subst. cbv beta in *. assert (M : (1 <= IZR m)%R) by (apply IZR_le; lia).
    match goal with Q : accurate k y _ |- _ => destruct Q as [F A] end. split; [exact F|]. fold ulp52 in *. rewrite ulp52_v in *. unfold eps in SE.
    set (P := (IZR m * K)%R) in *. assert (HP : (0 < P)%R) by (unfold P; apply Rmult_lt_0_compat; lra).
    replace (IZR m * (K * value ts))%R with (P * value ts)%R in A by (unfold P; ring). replace (IZR m * (K * d))%R with (P * d)%R by (unfold P; ring).
    assert (PD : (0 < P * d)%R) by now apply Rmult_lt_0_compat.
    assert (U : (P * value ts - P * d <= / 9007199254740992 * (P * d))%R).
    { replace (P * value ts - P * d)%R with (P * (value ts - d))%R by ring. replace (/ 9007199254740992 * (P * d))%R with (P * (/ 9007199254740992 * d))%R by ring. apply Rmult_le_compat_l; lra. }
    assert (V : (- (/ 9007199254740992 * (P * d)) <= P * value ts - P * d)%R).
    { replace (P * value ts - P * d)%R with (P * (value ts - d))%R by ring. replace (- (/ 9007199254740992 * (P * d)))%R with (P * - (/ 9007199254740992 * d))%R by ring. apply Rmult_le_compat_l; lra. }
    apply abs_le in A. apply abs_le.
    assert (W : (k * / 4503599627370496 * (P * value ts) <= k * / 4503599627370496 * (P * d) + / 9007199254740992 * (P * d))%R).
    { assert (k * / 4503599627370496 * (P * value ts - P * d) <= k * / 4503599627370496 * (/ 9007199254740992 * (P * d)))%R by (apply Rmult_le_compat_l; lra).
      assert (k * / 4503599627370496 * (/ 9007199254740992 * (P * d)) <= 1 * (/ 9007199254740992 * (P * d)))%R by (apply Rmult_le_compat_r; lra). lra. }
    lra.
  - apply IH; [now inversion Hm|assumption].
Qed.

(** ** Witnesses *)
Lemma C103_refuted_proof geomspace : exists disp ts start o p, nearest_double ts (7 / 10)%R /\ nearest_double start (21 / 10)%R /\ o_max_dt o = None /\ o_min_dt o = None
  /\ o_spacing o = "linear"%string /\ parser_init geomspace disp [0] [] ts 1 o = Ok p /\ p_intervals p = [1; 2; 3; 4; 5] /\ find_regime start 0 (p_delta_t p) = Ok 3%nat.
Proof.
  exists (still 5), (decimal 7 10), (decimal 21 10), (plain None). destruct (parser_init geomspace (still 5) [0] [] (decimal 7 10) 1 (plain None)) as [p|] eqn:E.
  - exists p. split; [apply (nearest_ratio 7 10); lia|]. split; [apply (nearest_ratio 21 10); lia|]. do 4 (split; [reflexivity|]).
    assert (K : option_map (fun p => (p_intervals p, find_regime (decimal 21 10) 0 (p_delta_t p))) (match parser_init geomspace (still 5) [0] [] (decimal 7 10) 1 (plain None) with Ok p => Some p | _ => None end)
      = Some ([1; 2; 3; 4; 5], Ok 3%nat)) by (vm_compute; reflexivity).
    rewrite E in K. injection K as -> ->. split; reflexivity.
  - exfalso. vm_compute in E. discriminate.
Qed.
Lemma C103_example_proof geomspace : usual (decimal 7 10) /\ nearest_double (decimal 7 10) (7 / 10)%R /\ nearest_double (decimal 20 10) (20 / 10)%R
  /\ exists p, parser_init geomspace (still 5) [0] [] (decimal 7 10) 1 (plain None) = Ok p /\ p_intervals p = [1; 2; 3; 4; 5] /\ strictly_increasing (p_intervals p) /\ counted (p_intervals p)
       /\ find_regime (decimal 20 10) 0 (p_delta_t p) = Ok 2%nat.
Proof.
  assert (N : nearest_double (decimal 7 10) (7 / 10)%R) by (apply (nearest_ratio 7 10); lia).
  assert (B : (bpow radix2 (-1) <= 7 / 10 <= bpow radix2 0)%R) by (change (bpow radix2 (-1)) with (/ 2)%R; rewrite one_bpow; lra).
  split; [|split; [exact N|split; [apply (nearest_ratio 20 10); lia|]]].
  - split; [exact (proj1 N)|]. rewrite <- !bpow_R. assert (SE := nearest_error _ _ N). destruct B as [B1 B2].
    assert (SE' : (Rabs (value (decimal 7 10) - 7 / 10) <= eps * (7 / 10))%R).
    { apply SE. split; [eapply Rle_trans; [|exact B1]; apply bpow_le; lia|eapply Rle_trans; [exact B2|]; apply bpow_le; lia]. }
    apply abs_le in SE'. unfold eps in SE'. split.
    + apply Rle_trans with (bpow radix2 (-1)); [apply bpow_le; lia|]. change (bpow radix2 (-1)) with (/ 2)%R. lra.
    + apply Rle_trans with (bpow radix2 0); [|apply bpow_le; lia]. rewrite one_bpow. lra.
  - destruct (parser_init geomspace (still 5) [0] [] (decimal 7 10) 1 (plain None)) as [p|] eqn:E.
    + exists p. split; [reflexivity|].
      assert (K : option_map (fun p => (p_intervals p, find_regime (decimal 20 10) 0 (p_delta_t p))) (match parser_init geomspace (still 5) [0] [] (decimal 7 10) 1 (plain None) with Ok p => Some p | _ => None end)
        = Some ([1; 2; 3; 4; 5], Ok 2%nat)) by (vm_compute; reflexivity).
      rewrite E in K. injection K as -> ->. split; [reflexivity|]. split; [|split; [repeat (constructor; [lia|]); constructor|reflexivity]].
      intros i j x y Hij. destruct i as [|[|[|[|[|i]]]]]; destruct j as [|[|[|[|[|j]]]]]; cbn; intros X Y; try lia; try (destruct i; discriminate); try (destruct j; discriminate); injection X as <-; injection Y as <-; lia.
    + exfalso. vm_compute in E. discriminate.
Qed.
