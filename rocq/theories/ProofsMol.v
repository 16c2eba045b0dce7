(** * ProofsMol: C19, C20 *)
From Verif Require Import Base ModelParser Spec SpecMol Lemmas SpecRun.
From Coq Require Import Reals Lra Lia Psatz.
Open Scope R_scope.

(** ** Angles *)
Lemma PI2_pos : 0 < 2 * PI.
Proof. generalize PI_RGT_0. lra. Qed.
Lemma cos_1_period a : cos a = 1 -> exists k : Z, a = 2 * IZR k * PI.
Proof.
  intros H. assert (S : sin (a / 2) = 0).
  { assert (E : cos a = 1 - 2 * sin (a / 2) * sin (a / 2)) by (rewrite <- cos_2a_sin; f_equal; field). rewrite H in E. nra. }
  apply sin_eq_0_0 in S. destruct S as [k Hk]. exists k. lra.
Qed.
Lemma angle_unique a b : cos a = cos b -> sin a = sin b -> exists k : Z, a = b + 2 * IZR k * PI.
Proof.
  intros HC HS. destruct (cos_1_period (a - b)) as [k Hk].
  - rewrite cos_minus, HC, HS. generalize (sin2_cos2 b). unfold Rsqr. lra.
  - exists k. lra.
Qed.
Lemma polar_unique r1 r2 a b : 0 < r1 -> 0 < r2 -> r1 * cos a = r2 * cos b -> r1 * sin a = r2 * sin b -> exists k : Z, a = b + 2 * IZR k * PI.
Proof.
  intros H1 H2 HC HS.
  assert (Q : forall r x, r * r = (r * cos x) * (r * cos x) + (r * sin x) * (r * sin x)).
  { intros r x. generalize (sin2_cos2 x). unfold Rsqr. intros E. replace (r * r) with (r * r * (sin x * sin x + cos x * cos x)) by (rewrite E; ring). ring. }
  assert (E : r1 = r2). { assert (r1 * r1 = r2 * r2) by (rewrite (Q r1 a), (Q r2 b), HC, HS; reflexivity). nra. }
  subst r2. apply angle_unique; apply Rmult_eq_reg_l with r1; lra.
Qed.
Lemma atan2_polar x y : x <> 0 \/ y <> 0 -> exists r, 0 < r /\ x = r * cos (atan2 y x) /\ y = r * sin (atan2 y x).
Proof.
  intros H. unfold atan2.
  assert (Sq : forall z, 0 < 1 + z²) by (intros z; generalize (Rle_0_sqr z); lra).
  assert (SP : forall z, 0 < sqrt (1 + z²)) by (intros z; apply sqrt_lt_R0, Sq).
  destruct (Rlt_dec 0 x) as [P|P].
  - exists (x * sqrt (1 + (y / x)²)). specialize (SP (y / x)). rewrite cos_atan, sin_atan. set (q := sqrt (1 + (y / x)²)) in *.
    split; [apply Rmult_lt_0_compat; assumption|]. split; field; repeat split; lra.
  - destruct (Rlt_dec x 0) as [N|N].
    + exists (- x * sqrt (1 + (y / x)²)). specialize (SP (y / x)). split; [apply Rmult_lt_0_compat; lra|].
      destruct (Rle_dec 0 y).
      * rewrite neg_cos, neg_sin, cos_atan, sin_atan. set (q := sqrt (1 + (y / x)²)) in *. split; field; repeat split; lra.
      * unfold Rminus. rewrite cos_plus, sin_plus, cos_neg, sin_neg, cos_PI, sin_PI, cos_atan, sin_atan.
        set (q := sqrt (1 + (y / x)²)) in *. split; field; repeat split; lra.
    + assert (x = 0) by lra. subst x. destruct H as [H|H]; [lra|]. destruct (Rlt_dec 0 y) as [Y|Y].
      * exists y. rewrite cos_PI2, sin_PI2. repeat split; lra.
      * destruct (Rlt_dec y 0) as [Y'|Y']; [|exfalso; lra]. exists (- y). replace (- PI / 2) with (- (PI / 2)) by lra.
        rewrite cos_neg, sin_neg, cos_PI2, sin_PI2. repeat split; lra.
Qed.
Lemma cos_pos_range x : 0 < cos x -> exists k : Z, Rabs (x - 2 * IZR k * PI) < PI / 2.
Proof.
  intros H. generalize PI_RGT_0; intros P. set (k := Rfloor ((x + PI) / (2 * PI))). exists k.
  assert (B := Rfloor_bounds ((x + PI) / (2 * PI))). fold k in B. set (y := x - 2 * IZR k * PI).
  assert (Y : - PI <= y < PI).
  { assert (E : x + PI = (x + PI) / (2 * PI) * (2 * PI)) by (field; lra). set (q := (x + PI) / (2 * PI)) in *. unfold y. nra. }
  assert (C : 0 < cos y).
  { unfold y. replace (cos (x - 2 * IZR k * PI)) with (cos x); [exact H|].
    replace x with ((x - 2 * IZR k * PI) + 2 * IZR k * PI) at 1 by ring. generalize (x - 2 * IZR k * PI). intros z.
    rewrite cos_plus. assert (S : sin (IZR k * PI) = 0) by (apply sin_eq_0_1; now exists k).
    replace (2 * IZR k * PI) with (2 * (IZR k * PI)) by ring. rewrite sin_2a, cos_2a_sin, S. ring. }
  apply Rabs_def1; apply Rnot_le_lt; intros L.
  - assert (cos y <= 0) by (apply cos_le_0; lra). lra.
  - assert (cos (- y) <= 0) by (apply cos_le_0; lra). rewrite cos_neg in H0. lra.
Qed.
Lemma cos_whole x (k : Z) : cos (2 * PI * (x + IZR k)) = cos (2 * PI * x).
Proof.
  replace (2 * PI * (x + IZR k)) with (2 * PI * x + 2 * (IZR k * PI)) by ring.
  assert (S : sin (IZR k * PI) = 0) by (apply sin_eq_0_1; now exists k). rewrite cos_plus, sin_2a, cos_2a_sin, S. ring.
Qed.
Lemma sin_whole x (k : Z) : sin (2 * PI * (x + IZR k)) = sin (2 * PI * x).
Proof.
  replace (2 * PI * (x + IZR k)) with (2 * PI * x + 2 * (IZR k * PI)) by ring.
  assert (S : sin (IZR k * PI) = 0) by (apply sin_eq_0_1; now exists k). rewrite sin_plus, sin_2a, cos_2a_sin, S. ring.
Qed.

(** ** Fractional parts *)
Notation fr := (fun x : R => x - IZR (Rfloor x)).
Lemma nmod1_R (x : R) : nmod1 x = fr x.
Proof. reflexivity. Qed.
Lemma fr_range x : 0 <= fr x < 1.
Proof. generalize (Rfloor_bounds x). lra. Qed.
Lemma fr_shift x (k : Z) : fr (x + IZR k) = fr x.
Proof. cbv beta. rewrite Rfloor_plus_IZR, plus_IZR. ring. Qed.
Lemma fr_wraps x : wraps_to (fr x) x.
Proof. split; [apply fr_range|]. exists (Rfloor x). cbv beta. ring. Qed.
Lemma fr_eq x y (k : Z) : 0 <= y < 1 -> x = y + IZR k -> fr x = y.
Proof. intros H ->. rewrite fr_shift. cbv beta. rewrite (Rfloor_unique y 0) by (cbn; lra). cbn. lra. Qed.
Lemma wraps_shift y x (k : Z) : wraps_to y x -> wraps_to y (x + IZR k).
Proof. intros [R [j ->]]. split; [exact R|]. exists (j + k)%Z. rewrite plus_IZR. ring. Qed.

(** ** Weighted sums *)
Lemma weighted_plus f g ws u : weighted (fun x => f x + g x) ws u = weighted f ws u + weighted g ws u.
Proof. unfold weighted. rewrite <- rsum_map_plus. f_equal. apply map_ext. intros p. ring. Qed.
Lemma weighted_scale c f ws u : weighted (fun x => c * f x) ws u = c * weighted f ws u.
Proof. unfold weighted. rewrite <- rsum_map_scale. f_equal. apply map_ext. intros p. ring. Qed.
Lemma weighted_const c ws : forall u, length ws = length u -> weighted (fun _ => c) ws u = c * rsum ws.
Proof.
  unfold weighted. induction ws as [|w ws IH]; intros [|x u] H; try discriminate; cbn; [ring|]. injection H as H. rewrite (IH u H). ring.
Qed.
Lemma weighted_map f g ws : forall u, weighted f ws (map g u) = weighted (fun x => f (g x)) ws u.
Proof. unfold weighted. induction ws as [|w ws IH]; intros [|x u]; cbn; try reflexivity. f_equal. apply IH. Qed.
Lemma weighted_ext f g ws : forall u v, Forall2 (fun x y => f x = g y) u v -> weighted f ws u = weighted g ws v.
Proof.
  unfold weighted. induction ws as [|w ws IH]; intros u v H; [reflexivity|]. destruct H as [|x y u v E H]; [reflexivity|]. cbn. rewrite E. f_equal. now apply IH.
Qed.
Lemma weighted_fext f g ws u : (forall x, f x = g x) -> weighted f ws u = weighted g ws u.
Proof. intros H. unfold weighted. f_equal. apply map_ext. intros p. now rewrite H. Qed.
Lemma weighted_fext_in f g ws u : Forall (fun x => f x = g x) u -> weighted f ws u = weighted g ws u.
Proof. intros H. apply weighted_ext. induction H; constructor; assumption. Qed.
Lemma weighted_pos f ws : forall u, length ws = length u -> u <> [] -> Forall (fun w => 0 < w) ws -> Forall (fun x => 0 < f x) u -> 0 < weighted f ws u.
Proof.
  unfold weighted. induction ws as [|w ws IH]; intros [|x u] L N Hw Hu; try discriminate; [contradiction|].
  injection L as L. inversion Hw; inversion Hu; subst. cbn [combine map rsum fst snd]. assert (0 < w * f x) by (apply Rmult_lt_0_compat; assumption).
  destruct u as [|y u].
  - destruct ws; [|discriminate]. cbn. lra.
  - assert (0 < weighted f ws (y :: u)) by (apply IH; try assumption; discriminate). unfold weighted in *. lra.
Qed.
Lemma rsum_repeat c n : rsum (repeat c n) = INR n * c.
Proof. induction n as [|n IH]; [cbn; ring|]. rewrite S_INR. cbn [repeat rsum]. rewrite IH. ring. Qed.
Lemma rsum_repeat_1 n : rsum (repeat 1 n) = INR n.
Proof. rewrite rsum_repeat. ring. Qed.
Lemma weighted_ones f u : weighted f (repeat 1 (length u)) u = rsum (map f u).
Proof. unfold weighted. induction u as [|x u IH]; [reflexivity|].
  cbn [length repeat combine map rsum fst snd]. rewrite IH. ring. Qed.

(** ** One axis of one molecule *)
Definition weights_ok (w : option (list R)) (n : nat) : Prop :=
  (0 < n)%nat /\ length (weights_of w n) = n /\ rsum (weights_of w n) <> 0.
Lemma zip_mul f (ws : list R) : forall s, rsum (zip_with nmul ws (map f s)) = weighted f ws s.
Proof. unfold zip_with, weighted. induction ws as [|w ws IH]; intros [|x s]; cbn; try reflexivity. f_equal. apply IH. Qed.
Lemma np_average_ok w f (s : list R) : weights_ok w (length s) ->
  np_average w (map f s) = Ok (weighted f (weights_of w (length s)) s / rsum (weights_of w (length s))).
Proof.
  intros (N & L & S). destruct w as [ws|]; cbn [np_average weights_of] in *.
  - rewrite !nsum_R. destruct (neqb (rsum ws) n0) eqn:E; [apply neqb_R_true in E; contradiction|]. now rewrite zip_mul.
  - rewrite nmean_R, map_length, weighted_ones. do 2 f_equal. now rewrite rsum_repeat_1.
Qed.
Definition circle_angle (ws s : list R) : R :=
  atan2 (- (weighted (fun x => sin (2 * PI * x)) ws s / rsum ws)) (- (weighted (fun x => cos (2 * PI * x)) ws s / rsum ws)) + PI.
Definition circle_mean (ws s : list R) : R := circle_angle ws s / (2 * PI).
Definition axis_value (ws s : list R) : R :=
  let c := circle_mean ws s + / 2 in fr (weighted (fun x => fr (x - c)) ws s / rsum ws + c).
Lemma axis_ok w (s : list R) : weights_ok w (length s) ->
  molecule_axis circular_mean_R w s = Ok (axis_value (weights_of w (length s)) s).
Proof.
  intros H. unfold molecule_axis, circular_mean_R, pseudo_com.
  rewrite !map_map. rewrite (np_average_ok w (fun x => cos (x * (2 * PI))) s H). cbn [bind].
  rewrite (np_average_ok w (fun x => sin (x * (2 * PI))) s H). cbn [bind].
  rewrite (np_average_ok w _ s H). cbn [bind]. rewrite nmod1_R. unfold axis_value, circle_mean, circle_angle.
  rewrite nhalf_R. numR.
  rewrite (weighted_fext (fun x => sin (x * (2 * PI))) (fun x => sin (2 * PI * x))) by (intros; f_equal; ring).
  rewrite (weighted_fext (fun x => cos (x * (2 * PI))) (fun x => cos (2 * PI * x))) by (intros; f_equal; ring).
  reflexivity.
Qed.

(** ** C19 *)
Lemma axis_range w (s : list R) y : molecule_axis circular_mean_R w s = Ok y -> 0 <= y < 1.
Proof.
  unfold molecule_axis, pseudo_com. destruct (circular_mean_R w s) as [c|e]; [|discriminate]. cbn [bind].
  destruct (np_average w _) as [m|e]; [|discriminate]. cbn [bind]. rewrite nmod1_R. intros H. injection H as <-. apply fr_range.
Qed.
Lemma images_maps (f : R -> R) s s' : (forall x (k : Z), f (x + IZR k) = f x) -> images s s' -> map f s' = map f s.
Proof.
  intros H I. induction I as [|x y s s' [k ->] I IH]; [reflexivity|]. cbn. now rewrite H, IH.
Qed.
Lemma axis_images w (s s' : list R) : images s s' -> molecule_axis circular_mean_R w s' = molecule_axis circular_mean_R w s.
Proof.
  intros I. unfold molecule_axis.
  assert (E : circular_mean_R w s' = circular_mean_R w s).
  { unfold circular_mean_R. rewrite !map_map.
    rewrite (images_maps (fun x => cos (x * (2 * PI))) s s'); [|intros; rewrite !(Rmult_comm _ (2 * PI)); apply cos_whole|exact I].
    rewrite (images_maps (fun x => sin (x * (2 * PI))) s s'); [|intros; rewrite !(Rmult_comm _ (2 * PI)); apply sin_whole|exact I].
    reflexivity. }
  rewrite E. destruct (circular_mean_R w s) as [c|e]; [|reflexivity]. cbn [bind]. unfold pseudo_com.
  rewrite (images_maps (fun x => nmod1 (nsub x (nadd c nhalf))) s s'); [reflexivity| |exact I].
  intros x k. rewrite !nmod1_R. numR. replace (x + IZR k - (c + nhalf)) with (x - (c + nhalf) + IZR k) by ring. apply fr_shift.
Qed.

Lemma circle_polar ws s : rsum ws <> 0 -> has_direction ws s -> exists r, 0 < r
  /\ weighted (fun x => cos (2 * PI * x)) ws s / rsum ws = r * cos (2 * PI * circle_mean ws s)
  /\ weighted (fun x => sin (2 * PI * x)) ws s / rsum ws = r * sin (2 * PI * circle_mean ws s).
Proof.
  intros W D. generalize PI_RGT_0; intros P. replace (2 * PI * circle_mean ws s) with (circle_angle ws s) by (unfold circle_mean; field; lra).
  unfold circle_angle. set (C := weighted (fun x => cos (2 * PI * x)) ws s / rsum ws). set (S := weighted (fun x => sin (2 * PI * x)) ws s / rsum ws).
  assert (D' : - C <> 0 \/ - S <> 0).
  { unfold has_direction in D. destruct D as [D|D]; [left|right]; intros H; apply D; [assert (E : C = 0) by lra|assert (E : S = 0) by lra];
      unfold C, S in E; apply Rmult_eq_reg_r with (/ rsum ws); try (now apply Rinv_neq_0_compat); unfold Rdiv in E; lra. }
  destruct (atan2_polar (- C) (- S) D') as (r & R & EC & ES). exists r. rewrite neg_cos, neg_sin. repeat split; lra.
Qed.
Lemma circle_translate ws s t : length ws = length s -> rsum ws <> 0 -> has_direction ws s ->
  exists k : Z, circle_mean ws (map (fun x => x + t) s) = circle_mean ws s + t + IZR k.
Proof.
  intros L W D. generalize PI_RGT_0; intros P. set (s' := map (fun x => x + t) s).
  assert (EC : weighted (fun x => cos (2 * PI * x)) ws s'
     = cos (2 * PI * t) * weighted (fun x => cos (2 * PI * x)) ws s + - sin (2 * PI * t) * weighted (fun x => sin (2 * PI * x)) ws s).
  { unfold s'. rewrite weighted_map, <- !weighted_scale, <- weighted_plus. apply weighted_fext. intros x.
    rewrite Rmult_plus_distr_l, cos_plus. ring. }
  assert (ES : weighted (fun x => sin (2 * PI * x)) ws s'
     = cos (2 * PI * t) * weighted (fun x => sin (2 * PI * x)) ws s + sin (2 * PI * t) * weighted (fun x => cos (2 * PI * x)) ws s).
  { unfold s'. rewrite weighted_map, <- !weighted_scale, <- weighted_plus. apply weighted_fext. intros x.
    rewrite Rmult_plus_distr_l, sin_plus. ring. }
  set (C := weighted (fun x => cos (2 * PI * x)) ws s) in *. set (S := weighted (fun x => sin (2 * PI * x)) ws s) in *.
  assert (D' : has_direction ws s').
  { unfold has_direction. rewrite EC, ES. destruct (Req_dec (cos (2 * PI * t) * C + - sin (2 * PI * t) * S) 0) as [Z1|N]; [|now left].
    right. intros Z2. generalize (sin2_cos2 (2 * PI * t)). unfold Rsqr. intros Q.
    set (c := cos (2 * PI * t)) in *. set (d := sin (2 * PI * t)) in *.
    assert (C = 0). { replace C with (c * (c * C + - d * S) + d * (c * S + d * C) ) by (transitivity (C * (d * d + c * c)); [ring|rewrite Q; ring]). rewrite Z1, Z2. ring. }
    assert (S = 0). { replace S with (c * (c * S + d * C) - d * (c * C + - d * S)) by (transitivity (S * (d * d + c * c)); [ring|rewrite Q; ring]). rewrite Z1, Z2. ring. }
    destruct D as [D|D]; apply D; assumption. }
  destruct (circle_polar ws s W D) as (r & R & PC & PS). destruct (circle_polar ws s' W D') as (r' & R' & PC' & PS').
  rewrite EC in PC'. rewrite ES in PS'. fold C in PC. fold S in PS.
  destruct (polar_unique r' r (2 * PI * circle_mean ws s') (2 * PI * circle_mean ws s + 2 * PI * t) R' R) as [k Hk].
  - rewrite <- PC', cos_plus. unfold Rdiv in *. rewrite Rmult_plus_distr_r.
    transitivity (cos (2 * PI * t) * (C * / rsum ws) - sin (2 * PI * t) * (S * / rsum ws)); [ring|]. rewrite PC, PS. ring.
  - rewrite <- PS', sin_plus. unfold Rdiv in *. rewrite Rmult_plus_distr_r.
    transitivity (cos (2 * PI * t) * (S * / rsum ws) + sin (2 * PI * t) * (C * / rsum ws)); [ring|]. rewrite PC, PS. ring.
  - exists k. apply Rmult_eq_reg_l with (2 * PI); [|lra]. rewrite Hk. ring.
Qed.
Lemma axis_translate w (s : list R) t y : weights_ok w (length s) -> has_direction (weights_of w (length s)) s ->
  molecule_axis circular_mean_R w s = Ok y ->
  exists y', molecule_axis circular_mean_R w (map (fun x => x + t) s) = Ok y' /\ wraps_to y' (y + t).
Proof.
  intros H D E. rewrite (axis_ok w s H) in E. injection E as <-.
  rewrite axis_ok by (now rewrite map_length). rewrite map_length. eexists; split; [reflexivity|].
  destruct H as (N & L & W). set (ws := weights_of w (length s)) in *. destruct (circle_translate ws s t L W D) as [k K].
  unfold axis_value. rewrite weighted_map, K. set (c := circle_mean ws s).
  replace (weighted (fun x => x + t - (c + t + IZR k + / 2) - IZR (Rfloor (x + t - (c + t + IZR k + / 2)))) ws s)
    with (weighted (fun x => x - (c + / 2) - IZR (Rfloor (x - (c + / 2)))) ws s).
  2:{ apply weighted_fext. intros x. replace (x + t - (c + t + IZR k + / 2)) with (x - (c + / 2) + IZR (- k)) by (rewrite opp_IZR; ring).
      symmetry. apply (fr_shift (x - (c + / 2))). }
  set (m := weighted _ ws s / rsum ws). 
  replace (m + (c + t + IZR k + / 2)) with (m + (c + / 2) + t + IZR k) by ring. set (q := m + (c + / 2)).
  replace (q - IZR (Rfloor q) + t) with (q + t + IZR k + IZR (- k - Rfloor q)) by (rewrite minus_IZR, opp_IZR; ring).
  apply wraps_shift, fr_wraps.
Qed.

(** ** C20 *)
Lemma extremes (u : list R) : u <> [] -> exists lo hi, In lo u /\ In hi u /\ forall x, In x u -> lo <= x <= hi.
Proof.
  induction u as [|a u IH]; [contradiction|]. intros _. destruct u as [|b u].
  - exists a, a. repeat split; try now left. all: destruct H as [<-|[]]; lra.
  - destruct IH as (lo & hi & L & H & B); [discriminate|].
    exists (Rmin a lo), (Rmax a hi). repeat split.
    + unfold Rmin. destruct (Rle_dec a lo); [now left|now right].
    + unfold Rmax. destruct (Rle_dec a hi); [now right|now left].
    + destruct H0 as [<-|H0]; [apply Rmin_l|]. specialize (B x H0). generalize (Rmin_r a lo). lra.
    + destruct H0 as [<-|H0]; [apply Rmax_l|]. specialize (B x H0). generalize (Rmax_r a hi). lra.
Qed.
Lemma middle (u : list R) : u <> [] -> narrow u -> exists mu, forall x, In x u -> Rabs (x - mu) < 1 / 4.
Proof.
  intros N C. destruct (extremes u N) as (lo & hi & L & H & B). exists ((lo + hi) / 2). intros x X. specialize (B x X).
  specialize (C hi lo H L). apply Rabs_def2 in C. apply Rabs_def1; lra.
Qed.
Lemma images_length a b : images a b -> length a = length b.
Proof. apply Forall2_length. Qed.
Lemma axis_com w (u s : list R) : (0 < length u)%nat -> length (weights_of w (length u)) = length u ->
  Forall (fun x => 0 < x) (weights_of w (length u)) -> narrow u -> images u s ->
  exists y, molecule_axis circular_mean_R w s = Ok y /\ wraps_to y (centre_of_mass (weights_of w (length u)) u).
Proof.
  intros N L P C I. rewrite (axis_images w u s I). set (ws := weights_of w (length u)) in *.
  assert (NE : u <> []) by (intros ->; cbn in N; lia).
  assert (W : 0 < rsum ws).
  { replace (rsum ws) with (weighted (fun _ => 1) ws u) by (rewrite weighted_const by assumption; ring).
    apply weighted_pos; try assumption. apply Forall_forall. intros; lra. }
  rewrite (axis_ok w u); [|repeat split; try assumption; fold ws; lra]. fold ws. eexists; split; [reflexivity|].
  generalize PI_RGT_0; intros PI0. destruct (middle u NE C) as [mu M].
  assert (Q : 0 < cos (2 * PI * mu) * weighted (fun x => cos (2 * PI * x)) ws u + sin (2 * PI * mu) * weighted (fun x => sin (2 * PI * x)) ws u).
  { rewrite <- !weighted_scale, <- weighted_plus.
    rewrite (weighted_fext _ (fun x => cos (2 * PI * (x - mu)))).
    2:{ intros x. replace (2 * PI * (x - mu)) with (2 * PI * x - 2 * PI * mu) by ring. rewrite cos_minus. ring. }
    apply weighted_pos; try assumption. apply Forall_forall. intros x X. specialize (M x X). apply Rabs_def2 in M.
    apply cos_gt_0; nra. }
  assert (D : has_direction ws u).
  { unfold has_direction. destruct (Req_dec (weighted (fun x => cos (2 * PI * x)) ws u) 0) as [Z1|]; [|now left].
    right. intros Z2. rewrite Z1, Z2 in Q. lra. }
  destruct (circle_polar ws u ltac:(lra) D) as (r & R & PC & PS). set (c := circle_mean ws u) in *.
  assert (Q2 : 0 < cos (2 * PI * c - 2 * PI * mu)).
  { rewrite cos_minus. apply Rmult_lt_reg_l with r; [exact R|]. rewrite Rmult_0_r.
    replace (r * (cos (2 * PI * c) * cos (2 * PI * mu) + sin (2 * PI * c) * sin (2 * PI * mu)))
      with (cos (2 * PI * mu) * (r * cos (2 * PI * c)) + sin (2 * PI * mu) * (r * sin (2 * PI * c))) by ring.
    rewrite <- PC, <- PS. unfold Rdiv. rewrite <- !Rmult_assoc, <- Rmult_plus_distr_r. apply Rmult_lt_0_compat; [exact Q|]. now apply Rinv_0_lt_compat. }
  destruct (cos_pos_range _ Q2) as [k K].
  assert (B : Rabs (c - mu - IZR k) < 1 / 4).
  { replace (2 * PI * c - 2 * PI * mu - 2 * IZR k * PI) with (2 * PI * (c - mu - IZR k)) in K by ring. apply Rabs_def2 in K. apply Rabs_def1; nra. }
  unfold axis_value. fold c.
  assert (E : weighted (fun x => x - (c + / 2) - IZR (Rfloor (x - (c + / 2)))) ws u = weighted (fun x => x + (IZR k + / 2 - c)) ws u).
  { apply weighted_fext_in.
    apply Forall_forall. intros x X. specialize (M x X). apply Rabs_def2 in M. apply Rabs_def2 in B.
      apply (fr_eq (x - (c + / 2)) (x + (IZR k + / 2 - c)) (- k - 1)); [lra|]. rewrite minus_IZR, opp_IZR. lra. }
  rewrite E, weighted_plus, weighted_const by assumption. unfold centre_of_mass. set (T := weighted (fun x => x) ws u).
  replace ((T + (IZR k + / 2 - c) * rsum ws) / rsum ws + (c + / 2)) with (T / rsum ws + IZR (k + 1)) by (rewrite plus_IZR; field; lra).
  rewrite fr_shift. apply fr_wraps.
Qed.

Lemma narrow_direction ws u : u <> [] -> length ws = length u -> Forall (fun x => 0 < x) ws -> narrow u -> has_direction ws u.
Proof.
  intros NE L P C. assert (N : (0 < length u)%nat) by (destruct u; [easy|cbn; lia]).
  generalize PI_RGT_0; intros PI0. destruct (middle u NE C) as [mu M].
  assert (Q : 0 < cos (2 * PI * mu) * weighted (fun x => cos (2 * PI * x)) ws u + sin (2 * PI * mu) * weighted (fun x => sin (2 * PI * x)) ws u).
  { rewrite <- !weighted_scale, <- weighted_plus.
    rewrite (weighted_fext _ (fun x => cos (2 * PI * (x - mu)))).
    2:{ intros x. replace (2 * PI * (x - mu)) with (2 * PI * x - 2 * PI * mu) by ring. rewrite cos_minus. ring. }
    apply weighted_pos; try assumption. apply Forall_forall. intros x X. specialize (M x X). apply Rabs_def2 in M.
    apply cos_gt_0; nra. }
  unfold has_direction. destruct (Req_dec (weighted (fun x => cos (2 * PI * x)) ws u) 0) as [Z1|]; [|now left].
  right. intros Z2. rewrite Z1, Z2 in Q. lra.
Qed.
