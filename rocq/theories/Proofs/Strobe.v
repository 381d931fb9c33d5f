From Coq Require Import QArith Qround Qminmax Lqa.
From Verif.Lib Require Import Base.
From Verif.Model Require Import Period Strobe.
From Verif.Spec Require Import Strobe.
Open Scope Z_scope.

Lemma wrap_down_ok speed : 0 < speed -> forall fuel pos, pos < Z.of_nat fuel -> (0 < fuel)%nat ->
  exists r k, wrap_down fuel speed pos = Some r /\ r = pos - k * speed /\ 0 <= k /\ r <= speed /\ (r = pos \/ 0 < r).
Proof.
  intros S. induction fuel as [|fuel IH]; intros pos L F; [lia|]. cbn [wrap_down]. destruct (speed <? pos) eqn:E.
  - destruct (IH (pos - speed)) as (r & k & E1 & E2 & E3 & E4 & E5); [lia|lia|]. exists r, (k + 1). repeat split; try lia. assumption.
  - exists pos, 0. repeat split; lia.
Qed.
Lemma wrap_up_ok speed : 0 < speed -> forall fuel pos, - pos < Z.of_nat fuel -> (0 < fuel)%nat -> pos <= speed ->
  exists r k, wrap_up fuel speed pos = Some r /\ r = pos + k * speed /\ 0 <= k /\ - speed <= r <= speed.
Proof.
  intros S. induction fuel as [|fuel IH]; intros pos L F P; [lia|]. cbn [wrap_up]. destruct (pos <? - speed) eqn:E.
  - destruct (IH (pos + speed)) as (r & k & E1 & E2 & E3 & E4); [lia|lia|lia|]. exists r, (k + 1). repeat split; try lia. assumption.
  - exists pos, 0. repeat split; lia.
Qed.
Lemma wrap_ok speed pos : 0 < speed -> exists r k, wrap speed pos = Some r /\ r = pos + k * speed /\ - speed <= r <= speed.
Proof.
  intros S. unfold wrap.
  destruct (wrap_down_ok speed S (Datatypes.S (Z.to_nat (Z.abs pos))) pos) as (r & k & E1 & E2 & E3 & E4 & E5); [lia|lia|].
  rewrite E1. destruct (wrap_up_ok speed S (Datatypes.S (Z.to_nat (Z.abs r))) r) as (r2 & k2 & F1 & F2 & F3 & F4); [lia|lia|lia|].
  exists r2, (k2 - k). split; [assumption|]. split; [lia|lia].
Qed.

(* the position as a rational in [0,1) *)
Lemma pos_unit c pos : 0 < st_speed c -> let q := ((pos mod st_speed c) # Z.to_pos (st_speed c))%Q in
  (0 <= q < 1)%Q /\ (q == turns c pos - inject_Z (pos / st_speed c))%Q.
Proof.
  intros S. cbn. pose proof (Z.mod_pos_bound pos (st_speed c) S). split.
  - unfold Qle, Qlt; cbn. rewrite Z2Pos.id by lia. lia.
  - unfold turns, Qeq, Qminus, Qplus, Qopp, inject_Z; cbn. rewrite Pos.mul_1_r, Z2Pos.id by lia.
    rewrite (Z.mod_eq pos (st_speed c)) by lia. ring.
Qed.
Lemma place_unit c i : (i < st_n c)%nat -> (0 <= place c i < 1)%Q.
Proof.
  intros L. unfold place, Qle, Qlt; cbn. rewrite Z.mul_1_r. split; [lia|].
  replace (Z.pos (Pos.of_nat (st_n c))) with (Z.of_nat (st_n c)); [lia|].
  destruct (st_n c); [lia|]. rewrite <- (positive_nat_Z (Pos.of_nat (S n))), Nat2Pos.id by lia. reflexivity.
Qed.
Lemma Qgt_bool_iff a b : Qgt_bool a b = true <-> (b < a)%Q.
Proof.
  unfold Qgt_bool. destruct (Qle_bool a b) eqn:E; cbn.
  - apply Qle_bool_iff in E. split; [discriminate|]. intros H. exfalso. lra.
  - split; [|reflexivity]. intros _. destruct (Qlt_le_dec b a); [assumption|]. apply Qle_bool_iff in q. congruence.
Qed.
Lemma Qle_bool_false a b : Qle_bool a b = false -> (b < a)%Q.
Proof. intros E. apply Qgt_bool_iff. unfold Qgt_bool. rewrite E. reflexivity. Qed.
Lemma unit_ok p : (0 <= p < 2)%Q -> (0 <= unit_range p <= 1)%Q /\ exists k, (unit_range p == p - inject_Z k)%Q.
Proof.
  intros H. unfold unit_range. destruct (Qgt_bool p 1) eqn:E.
  - apply Qgt_bool_iff in E. split; [lra|]. exists 1. change (inject_Z 1) with 1%Q. reflexivity.
  - assert (~ (1 < p)%Q) by (rewrite <- Qgt_bool_iff; congruence). split; [lra|]. exists 0. change (inject_Z 0) with 0%Q. lra.
Qed.

Lemma b_fn_range p w : (0 < w)%Q -> (0 <= p <= 1)%Q -> (0 <= b_fn p w <= 1)%Q.
Proof.
  intros W P. unfold b_fn.
  assert (I : (w * (1 / w) == 1)%Q) by (field; lra).
  assert (Ip : (0 < 1 / w)%Q) by (apply Qlt_shift_div_l; lra).
  destruct (Qle_bool p w) eqn:E1.
  - apply Qle_bool_iff in E1. split; [|nra]. assert (p * (1 / w) <= w * (1 / w))%Q by (apply Qmult_le_compat_r; lra). lra.
  - apply Qle_bool_false in E1. destruct (Qle_bool (1 - w) p) eqn:E2; [|lra]. apply Qle_bool_iff in E2. split; [nra|].
    assert ((p - 1 + w) * (1 / w) <= w * (1 / w))%Q by (apply Qmult_le_compat_r; lra). lra.
Qed.
Lemma b16_range b : (0 <= b <= 1)%Q -> (0 <= brightness16 b <= 1)%Q.
Proof.
  intros H. unfold brightness16.
  assert (0 <= Qfloor (b * 16)) by (change 0 with (Qfloor 0); apply Qfloor_resp_le; nra).
  assert (Qfloor (b * 16) <= 16) by (change 16 with (Qfloor 16) at 2; apply Qfloor_resp_le; lra).
  set (f := Qfloor (b * 16)) in *. clearbody f. unfold Qle; cbn. lia.
Qed.

Lemma out_range c pos i : good_conf c -> (i < st_n c)%nat -> (0 <= out_brightness c pos i <= st_dim c)%Q.
Proof.
  intros (S & W & D & _ & _) L. unfold out_brightness.
  destruct (pos_unit c pos S) as [P _]. cbn in P. pose proof (place_unit c i L) as PL. unfold place in PL.
  set (p := (_ + _)%Q). assert (0 <= p < 2)%Q by (unfold p; lra). destruct (unit_ok p H) as [U _].
  pose proof (b16_range _ (b_fn_range _ _ W U)) as B. set (b := brightness16 _) in *.
  assert (0 <= b * b <= 1)%Q by nra. split; nra.
Qed.

Lemma floor_shift p k : (0 <= p < 1)%Q -> Qfloor (p + inject_Z k) = k.
Proof.
  intros H. pose proof (Qfloor_le (p + inject_Z k)) as A. pose proof (Qlt_floor (p + inject_Z k)) as B.
  set (f := Qfloor (p + inject_Z k)) in *.
  assert (inject_Z f < inject_Z (k + 1))%Q by (rewrite inject_Z_plus; change (inject_Z 1) with 1%Q; lra).
  assert (inject_Z k < inject_Z (f + 1))%Q by lra.
  rewrite <- Zlt_Qlt in *. lia.
Qed.
Global Instance frac_comp : Proper (Qeq ==> Qeq) frac.
Proof. intros x y E. unfold frac. rewrite (Qfloor_comp _ _ E), E. reflexivity. Qed.
Lemma frac_unique x p k : (x == p + inject_Z k)%Q -> (0 <= p < 1)%Q -> (frac x == p)%Q.
Proof. intros E H. rewrite E. unfold frac. rewrite floor_shift by assumption. lra. Qed.

Lemma light_b p x k w : (0 < w)%Q -> (w <= 1 # 2)%Q -> (0 <= p <= 1)%Q -> (x == p + inject_Z k)%Q ->
  (b_fn p w == light w (circle_distance x))%Q.
Proof.
  intros W H P E. unfold light, circle_distance.
  assert (Ip : (0 < 1 / w)%Q) by (apply Qlt_shift_div_l; lra).
  assert (I : (w * (1 / w) == 1)%Q) by (field; lra).
  assert (DIV : forall a, (a / w == a * (1 / w))%Q) by (intros a; field; lra).
  destruct (Qlt_le_dec p 1) as [P1|P1].
  - assert (F : (frac x == p)%Q) by (apply (frac_unique x p k); [assumption|lra]).
    destruct (Q.min_spec (frac x) (1 - frac x)) as [[M1 M2]|[M1 M2]]; rewrite M2, F, DIV; rewrite F in M1; unfold b_fn.
    + destruct (Qle_bool p w) eqn:E1.
      * apply Qle_bool_iff in E1. assert (p * (1 / w) <= 1)%Q by nra. rewrite Q.max_r by lra. reflexivity.
      * apply Qle_bool_false in E1. assert (1 < p * (1 / w))%Q by nra. rewrite Q.max_l by lra.
        destruct (Qle_bool (1 - w) p) eqn:E2; [apply Qle_bool_iff in E2; exfalso; lra|reflexivity].
    + destruct (Qle_bool p w) eqn:E1.
      * apply Qle_bool_iff in E1. assert (E3 : (p == 1 # 2)%Q) by lra. assert (E4 : (w == p)%Q) by lra.
        assert (p * (1 / w) == 1)%Q by (rewrite <- E4 at 1; assumption).
        assert ((1 - p) * (1 / w) == p * (1 / w))%Q by (rewrite E3; reflexivity || (assert ((1 - (1#2)) == (1#2))%Q as -> by lra; reflexivity)).
        rewrite Q.max_l by lra. lra.
      * apply Qle_bool_false in E1. destruct (Qle_bool (1 - w) p) eqn:E2.
        -- apply Qle_bool_iff in E2. assert ((1 - p) * (1 / w) <= w * (1 / w))%Q by (apply Qmult_le_compat_r; lra).
           rewrite Q.max_r by lra. clear DIV. set (v := (1 / w)%Q) in *. clearbody v. lra.
        -- apply Qle_bool_false in E2. assert (w * (1 / w) < (1 - p) * (1 / w))%Q by (apply Qmult_lt_compat_r; lra).
           rewrite Q.max_l by lra. reflexivity.
  - assert (E1 : (p == 1)%Q) by lra.
    assert (F : (frac x == 0)%Q).
    { apply (frac_unique x 0 (k + 1)); [|lra]. rewrite E, E1, inject_Z_plus. change (inject_Z 1) with 1%Q. lra. }
    rewrite Q.min_l by (rewrite F; lra). rewrite F, DIV, Q.max_r by lra.
    unfold b_fn. destruct (Qle_bool p w) eqn:E2; [apply Qle_bool_iff in E2; exfalso; lra|].
    destruct (Qle_bool (1 - w) p) eqn:E3; [|apply Qle_bool_false in E3; exfalso; lra].
    rewrite E1. assert ((1 - 1 + w) * (1 / w) == w * (1 / w))%Q as -> by (assert ((1 - 1 + w) == w)%Q as -> by lra; reflexivity). lra.
Qed.

Lemma out_led c pos dist m i : good_conf c -> (st_width c <= 1 # 2)%Q -> (i < st_n c)%nat -> pos = - dist + m * st_speed c ->
  (out_brightness c pos i == led c (circle_distance (place c i - turns c dist)))%Q.
Proof.
  intros (S & W & D & _ & _) W2 L E. unfold out_brightness, led.
  destruct (pos_unit c pos S) as [P PE]. cbn in P, PE. pose proof (place_unit c i L) as PL.
  fold (place c i). set (q := ((pos mod st_speed c) # Z.to_pos (st_speed c))%Q) in *.
  assert (R : (0 <= q + place c i < 2)%Q) by lra. destruct (unit_ok _ R) as [U [k Uk]].
  assert (T : (turns c pos == inject_Z m - turns c dist)%Q).
  { rewrite E. unfold turns, Qeq, Qminus, Qplus, Qopp, inject_Z; cbn. rewrite Z2Pos.id by lia. ring. }
  assert (X : (place c i - turns c dist == unit_range (q + place c i) + inject_Z (k + pos / st_speed c - m))%Q).
  { rewrite Uk, PE, T. unfold Z.sub. rewrite !inject_Z_plus, inject_Z_opp. lra. }
  pose proof (light_b _ _ _ _ W W2 U X) as B. unfold brightness16.
  rewrite (Qfloor_comp (b_fn (unit_range (q + place c i)) (st_width c) * 16) (light (st_width c) (circle_distance (place c i - turns c dist)) * 16)).
  - reflexivity.
  - rewrite B. reflexivity.
Qed.

(* the LED bookkeeping *)
Lemma color_leds c pos : forall cur i leds, (forall k, (k < length cur)%nat -> (leds (i + k)%nat == nth k cur 0)%Q) ->
  let '(cur', ev) := color_switches c pos i cur in
  length cur' = length cur
  /\ (forall k, (k < length cur)%nat -> (leds_after ev leds (i + k)%nat == out_brightness c pos (i + k))%Q /\ (nth k cur' 0 == out_brightness c pos (i + k))%Q)
  /\ (forall j, (j < i)%nat \/ (i + length cur <= j)%nat -> leds_after ev leds j = leds j)
  /\ (forall j q, In (SetBrightness j q) ev -> (i <= j < i + length cur)%nat /\ q = out_brightness c pos j).
Proof.
  induction cur as [|q cur IH]; intros i leds H; cbn [color_switches].
  - split; [reflexivity|]. split; [intros k K; cbn in K; lia|]. split; [reflexivity|]. intros j q [].
  - assert (H0 : (leds i == q)%Q) by (specialize (H 0%nat ltac:(cbn; lia)); rewrite Nat.add_0_r in H; exact H).
    set (out := out_brightness c pos i).
    pose (leds1 := if Qeq_bool q out then leds else set_led (SetBrightness i out) leds).
    specialize (IH (S i) leds1). destruct (color_switches c pos (S i) cur) as [r ev].
    destruct IH as (I1 & I2 & I3 & I4).
    { intros k K. unfold leds1. specialize (H (S k) ltac:(cbn; lia)). cbn [nth] in H. rewrite Nat.add_succ_r in H.
      destruct (Qeq_bool q out); [exact H|]. cbn [set_led]. replace (S i + k =? i)%nat with false by lia. exact H. }
    assert (A : forall k, (k < length (q :: cur))%nat -> (leds_after ev leds1 (i + k)%nat == out_brightness c pos (i + k))%Q
               /\ (nth k ((if Qeq_bool q out then q else out) :: r) 0 == out_brightness c pos (i + k))%Q).
    { intros [|k] K.
      - rewrite Nat.add_0_r. cbn [nth]. rewrite I3 by lia. unfold leds1. destruct (Qeq_bool q out) eqn:EQ.
        + apply Qeq_bool_iff in EQ. split; [rewrite H0|]; exact EQ.
        + cbn [set_led]. rewrite Nat.eqb_refl. split; reflexivity.
      - cbn [nth]. cbn [length] in K. replace (i + S k)%nat with (S i + k)%nat by lia. apply I2. lia. }
    assert (B : forall j, (j < i)%nat \/ (i + length (q :: cur) <= j)%nat -> leds_after ev leds1 j = leds j).
    { intros j J. cbn [length] in J. rewrite I3 by lia. unfold leds1. destruct (Qeq_bool q out); [reflexivity|]. cbn [set_led].
      replace (j =? i)%nat with false by lia. reflexivity. }
    assert (C : forall j x, In (SetBrightness j x) ev -> (i <= j < i + length (q :: cur))%nat /\ x = out_brightness c pos j).
    { intros j x J. destruct (I4 j x J) as [J1 J2]. cbn [length]. split; [lia|exact J2]. }
    fold out. unfold leds1 in A, B. destruct (Qeq_bool q out).
    + split; [cbn; lia|]. split; [exact A|]. split; [exact B|]. intros j x [J|J]; [discriminate|apply C; exact J].
    + split; [cbn; lia|]. split; [exact A|]. split; [exact B|]. intros j x [J|[J|J]]; [discriminate| |apply C; exact J].
      injection J as <- <-. split; [cbn; lia|reflexivity].
Qed.

Record strobe_inv (c : strobe_conf) (s : strobe) (t : travel) : Prop := {
  i_pos : exists m, s_pos s = - t_dist t + m * st_speed c;
  i_bound : - st_speed c <= s_pos s <= st_speed c;
  i_on : s_enabled s = t_on t;
  i_per : interval (s_period s) = st_interval c;
  i_last : s_enabled s = true -> last_reset (s_period s) = t_last t;
  i_len : length (s_cur s) = st_n c }.

Lemma limited_eq c d : 0 <= st_interval c ->
  (let d1 := if 100 * st_interval c <? d then 100 * st_interval c else d in if d1 <? - (100 * st_interval c) then - (100 * st_interval c) else d1) = limited c d.
Proof. intros H. unfold limited. cbn zeta. destruct (100 * st_interval c <? d) eqn:E1; case_if; lia. Qed.

Lemma step_ok c s t o : good_conf c -> strobe_inv c s t -> forall leds,
  (forall i, (i < st_n c)%nat -> (leds i == nth i (s_cur s) 0)%Q) ->
  exists s' ev, strobe_step c s o = Some (s', ev) /\ strobe_inv c s' (travel_step c t o)
  /\ (forall i, (i < st_n c)%nat -> (leds_after ev leds i == nth i (s_cur s') 0)%Q)
  /\ (t_updated (travel_step c t o) = true -> forall i, (i < st_n c)%nat -> (leds_after ev leds i == out_brightness c (s_pos s') i)%Q)
  /\ (t_updated (travel_step c t o) = false -> ev = [])
  /\ (forall i q, In (SetBrightness i q) ev -> (i < st_n c)%nat /\ q = out_brightness c (s_pos s') i).
Proof.
  intros G I leds HL. pose proof G as (S & W & D & T & N). unfold strobe_step. replace (st_n c <=? 1)%nat with false by lia.
  destruct I as [I1 I2 I3 I4 I5 I6]. destruct o as [v now|v now]; cbn [travel_step].
  - destruct (v =? 1).
    + do 2 eexists. split; [reflexivity|]. split; [constructor; cbn; auto|]. repeat split; auto; cbn; try discriminate; try contradiction.
    + do 2 eexists. split; [reflexivity|]. split; [constructor; cbn; auto; discriminate|]. repeat split; auto; cbn; try discriminate; try contradiction.
  - unfold update_strobe. cbn [s_enabled s_period s_pos s_dev s_cur]. rewrite I3 in *. destruct (t_on t) eqn:ON; cbn [negb andb].
    + specialize (I5 eq_refl). unfold p_exceeded, p_passed. rewrite I4, I5.
      replace (t_last t + st_interval c <? now) with (st_interval c <? now - t_last t) by lia.
      destruct (st_interval c <? now - t_last t) eqn:EX; cbn [negb].
      * cbn [interval]. rewrite limited_eq by assumption.
        replace (if st_reverse c then 8191 - v else v - 8191) with (too_high c v) by (unfold too_high; destruct (st_reverse c); lia).
        set (dl := limited c (too_high c v)).
        destruct (wrap_ok (st_speed c) (s_pos s - dl * (now - t_last t)) S) as (r & k & E1 & E2 & E3). rewrite E1.
        pose proof (color_leds c r (s_cur s) 0 leds) as CL. destruct (color_switches c r 0 (s_cur s)) as [cur ev].
        destruct CL as (C1 & C2 & C3 & C4); [intros i Hi; apply HL; lia|]. rewrite I6 in *.
        do 2 eexists. split; [reflexivity|]. cbn [t_updated s_pos s_cur]. split; [constructor; cbn; auto|].
        -- destruct I1 as [m Im]. exists (m + k). rewrite E2, Im. ring.
        -- split; [intros i Hi; destruct (C2 i Hi) as [X1 X2]; cbn [plus] in X1, X2; rewrite X1, X2; reflexivity|].
           split; [intros _ i Hi; apply (C2 i Hi)|]. split; [discriminate|]. intros i q Hq. destruct (C4 i q Hq). split; [lia|assumption].
      * do 2 eexists. split; [reflexivity|]. split; [constructor; cbn; auto|]. repeat split; auto; cbn; try discriminate; try contradiction.
    + do 2 eexists. split; [reflexivity|]. split; [constructor; cbn; auto; try discriminate|]. repeat split; auto; cbn; try discriminate; try contradiction.
Qed.

Lemma leds_app e1 e2 leds : leds_after (e1 ++ e2) leds = leds_after e2 (leds_after e1 leds).
Proof. unfold leds_after. apply fold_left_app. Qed.
Lemma strobe_run_snoc c ops o : forall s,
  strobe_run c s (ops ++ [o])
  = match strobe_run c s ops with
    | None => None
    | Some (s1, e1) => match strobe_step c s1 o with None => None | Some (s2, e2) => Some (s2, e1 ++ e2) end
    end.
Proof.
  induction ops as [|x ops IH]; intros s; cbn [app strobe_run].
  - destruct (strobe_step c s o) as [[s2 e2]|]; [rewrite app_nil_r; reflexivity|reflexivity].
  - destruct (strobe_step c s x) as [[s1 e1]|]; [|reflexivity]. rewrite IH. destruct (strobe_run c s1 ops) as [[s2 e2]|]; [|reflexivity].
    destruct (strobe_step c s2 o) as [[s3 e3]|]; [rewrite app_assoc; reflexivity|reflexivity].
Qed.

Lemma run_ok c ops : good_conf c ->
  exists s ev, strobe_run c (strobe_init c) ops = Some (s, ev) /\ strobe_inv c s (travelled c ops)
  /\ (forall i, (i < st_n c)%nat -> (leds_after ev (fun _ => 0%Q) i == nth i (s_cur s) 0)%Q)
  /\ (forall i q, In (SetBrightness i q) ev -> (i < st_n c)%nat /\ (0 <= q <= st_dim c)%Q).
Proof.
  intros G. induction ops as [|ops o IH] using rev_ind_snoc.
  - do 2 eexists. split; [reflexivity|]. unfold travelled. cbn. split; [|split; [intros i Hi; rewrite nth_repeat; reflexivity|intros ? ? []]].
    pose proof G as (S & _). constructor; cbn; try discriminate; auto; [exists 0; lia|lia|apply repeat_length].
  - destruct IH as (s & ev & E & I & L & R). rewrite strobe_run_snoc, E.
    destruct (step_ok c s (travelled c ops) o G I (leds_after ev (fun _ => 0%Q)) L) as (s' & ev' & E' & I' & L' & _ & _ & R').
    rewrite E'. do 2 eexists. split; [reflexivity|]. unfold travelled in *. rewrite fold_left_snoc. split; [exact I'|].
    split; [rewrite leds_app; exact L'|]. intros i q Hq. apply in_app_or in Hq. destruct Hq as [Hq|Hq]; [apply R; exact Hq|].
    destruct (R' i q Hq) as [Hi ->]. split; [exact Hi|]. apply out_range; assumption.
Qed.

Lemma strobe_leds c ops o : good_conf c -> (st_width c <= 1 # 2)%Q ->
  exists s ev ev', strobe_run c (strobe_init c) ops = Some (s, ev)
  /\ option_map snd (strobe_run c (strobe_init c) (ops ++ [o])) = Some (ev ++ ev')
  /\ (t_updated (travelled c (ops ++ [o])) = false -> ev' = [])
  /\ (t_updated (travelled c (ops ++ [o])) = true -> forall i, (i < st_n c)%nat ->
        (leds_after (ev ++ ev') (fun _ => 0%Q) i == led c (circle_distance (place c i - turns c (t_dist (travelled c (ops ++ [o]))))))%Q).
Proof.
  intros G W. destruct (run_ok c ops G) as (s & ev & E & I & L & _).
  destruct (step_ok c s (travelled c ops) o G I (leds_after ev (fun _ => 0%Q)) L) as (s' & ev' & E' & I' & L' & U & NU & _).
  exists s, ev, ev'. split; [exact E|]. split; [rewrite strobe_run_snoc, E, E'; reflexivity|].
  replace (travelled c (ops ++ [o])) with (travel_step c (travelled c ops) o) by (unfold travelled; rewrite fold_left_snoc; reflexivity).
  split; [exact NU|]. intros UP i Hi. rewrite leds_app, (U UP i Hi). destruct I' as [[m Im] _ _ _ _ _].
  apply (out_led c _ _ m); assumption.
Qed.

Lemma one_switch c ops : (st_n c <= 1)%nat -> exists s, strobe_run c (strobe_init c) ops = Some (s, []).
Proof.
  intros N. generalize (strobe_init c). induction ops as [|o ops IH]; intros s; [eexists; reflexivity|].
  cbn [strobe_run]. unfold strobe_step. replace (st_n c <=? 1)%nat with true by lia.
  destruct (IH (mkStrobeState (s_pos s) (s_dev s) false (s_period s) (s_cur s))) as [s' E]. rewrite E. exists s'. reflexivity.
Qed.

Lemma never_on c ops : good_conf c -> (forall now, ~ In (TunerState 1 now) ops) ->
  exists s, strobe_run c (strobe_init c) ops = Some (s, []) /\ s_enabled s = false.
Proof.
  intros (_ & _ & _ & _ & N) H. assert (E : s_enabled (strobe_init c) = false) by reflexivity. revert H E. generalize (strobe_init c).
  induction ops as [|o ops IH]; intros s H E; [exists s; split; [reflexivity|assumption]|].
  cbn [strobe_run]. unfold strobe_step. replace (st_n c <=? 1)%nat with false by lia.
  destruct o as [v now|v now].
  - destruct (v =? 1) eqn:V; [exfalso; apply (H now); left; f_equal; lia|].
    destruct (IH (mkStrobeState (s_pos s) (s_dev s) false (s_period s) (s_cur s))) as (s' & E1 & E2); [intros n I; apply (H n); right; exact I|reflexivity|].
    rewrite E1. exists s'. split; [reflexivity|assumption].
  - unfold update_strobe. cbn [s_enabled]. rewrite E. cbn [negb].
    destruct (IH (mkStrobeState (s_pos s) v false (s_period s) (s_cur s))) as (s' & E1 & E2); [intros n I; apply (H n); right; exact I|reflexivity|].
    rewrite E1. exists s'. split; [reflexivity|assumption].
Qed.
