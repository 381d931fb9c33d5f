From Verif.Lib Require Import Base.
From Verif.Model Require Import Midi Period Analog.
From Verif.Spec Require Import Analog.

Lemma step_bounds c : usable c -> 1 <= step_width c <= 65536.
Proof. intros ((H1 & H2) & _). unfold step_width. rewrite Z.quot_div_nonneg by lia. split; [apply Z.div_le_lower_bound; lia|]. apply Z.div_le_upper_bound; nia. Qed.

Lemma rhe_mono d a b : 0 < d -> a <= b -> round_half_even a d <= round_half_even b d.
Proof.
  intros Hd Hab. unfold round_half_even.
  assert (Hq : a / d <= b / d) by (apply Z.div_le_mono; lia).
  pose proof (Z.div_mod a d ltac:(lia)) as Ea. pose proof (Z.div_mod b d ltac:(lia)) as Eb. pose proof (Z.mod_pos_bound a d Hd). pose proof (Z.mod_pos_bound b d Hd).
  set (qa := a / d) in *. set (qb := b / d) in *. set (ra := a mod d) in *. set (rb := b mod d) in *. clearbody qa qb ra rb.
  destruct (Z.eq_dec qa qb) as [->|Hn].
  - assert (ra <= rb) by lia. destruct (Z.ltb_spec (2 * ra) d), (Z.ltb_spec (2 * rb) d), (Z.ltb_spec d (2 * ra)), (Z.ltb_spec d (2 * rb)); destruct (Z.even qb); lia.
  - assert (qa + 1 <= qb) by lia. destruct (Z.ltb_spec (2 * ra) d), (Z.ltb_spec (2 * rb) d), (Z.ltb_spec d (2 * ra)), (Z.ltb_spec d (2 * rb)); destruct (Z.even qa), (Z.even qb); lia.
Qed.
Lemma rhe_exact q d : 0 < d -> round_half_even (q * d) d = q.
Proof. intros Hd. unfold round_half_even. rewrite Z.div_mul, Z.mod_mul by lia. destruct (Z.ltb_spec (2 * 0) d); lia. Qed.
Lemma rhe_nonneg a d : 0 < d -> 0 <= a -> 0 <= round_half_even a d.
Proof. intros Hd Ha. rewrite <- (rhe_exact 0 d Hd) at 1. apply rhe_mono; lia. Qed.

Lemma output_ok c value : usable c -> 0 <= value -> exists v, output c value = Some v /\ 0 <= v <= a_maxv c.
Proof.
  intros Hu Hv. pose proof (step_bounds c Hu) as Hs. destruct Hu as (H1 & H2 & H3). unfold output. rewrite H3.
  destruct (match a_raw c with Some r => value <? r | None => false end); [exists 0; split; [reflexivity|lia]|].
  destruct (Z.eqb_spec (step_width c) 0); [lia|]. eexists. split; [reflexivity|].
  set (q := Z.quot _ _). destruct (Z.ltb_spec q 0); case_if; lia.
Qed.

Lemma output_mono c a b va vb : usable c -> 0 <= a <= b -> output c a = Some va -> output c b = Some vb -> va <= vb.
Proof.
  intros Hu Hab Ha Hb. destruct (output_ok c b Hu ltac:(lia)) as (vb' & Eb & Bb). rewrite Hb in Eb. injection Eb as <-.
  pose proof (step_bounds c Hu) as Hs. destruct Hu as (H1 & H2 & H3). unfold output in *. rewrite H3 in *.
  destruct (match a_raw c with Some r => a <? r | None => false end) eqn:Ra; [injection Ha as <-; lia|].
  assert (Rb : match a_raw c with Some r => b <? r | None => false end = false) by (destruct (a_raw c); [lia|auto]). rewrite Rb in Hb.
  destruct (Z.eqb_spec (step_width c) 0); [lia|].
  pose proof (rhe_mono (step_width c) a b ltac:(lia) ltac:(lia)) as M. pose proof (rhe_nonneg a (step_width c) ltac:(lia) ltac:(lia)) as Na.
  set (x := round_half_even a (step_width c)) in *. set (y := round_half_even b (step_width c)) in *. clearbody x y.
  assert (Q : Z.quot (x * step_width c * (a_maxv c + 1)) 65536 <= Z.quot (y * step_width c * (a_maxv c + 1)) 65536).
  { assert (0 <= x * step_width c * (a_maxv c + 1)) by (repeat apply Z.mul_nonneg_nonneg; lia).
    assert (x * step_width c * (a_maxv c + 1) <= y * step_width c * (a_maxv c + 1)) by (repeat apply Z.mul_le_mono_nonneg_r; lia).
    rewrite !Z.quot_div_nonneg by lia. apply Z.div_le_mono; lia. }
  set (p := Z.quot _ _) in Ha. set (q := Z.quot _ _) in Hb. fold p in Q. fold q in Q. clearbody p q. injection Ha as <-. injection Hb as <-.
  destruct (Z.ltb_spec p 0), (Z.ltb_spec q 0); repeat case_if; lia.
Qed.

Lemma rhe_full d n : 0 < d -> n * d = 65536 -> 0 < n -> (round_half_even 65535 d = n) \/ d = 1.
Proof.
  intros Hd Hn Hn0. destruct (Z.eq_dec d 1) as [->|H1]; [auto|]. left. unfold round_half_even.
  assert (Eq : 65535 / d = n - 1) by (symmetry; apply (Z.div_unique _ _ _ (d - 1)); nia).
  assert (Er : 65535 mod d = d - 1) by (symmetry; apply (Z.mod_unique _ _ (n - 1)); nia).
  rewrite Eq, Er. destruct (Z.ltb_spec (2 * (d - 1)) d); [lia|]. destruct (Z.ltb_spec d (2 * (d - 1))); [lia|].
  assert (d = 2) by lia. subst d. assert (n = 32768) by lia. subst n. reflexivity.
Qed.

Lemma output_full c value : usable c -> (a_steps c | 65536) -> 65535 <= value -> (forall r, a_raw c = Some r -> r <= value) -> output c value = Some (a_maxv c).
Proof.
  intros Hu Hdiv Hv Hraw. pose proof (step_bounds c Hu) as Hs. pose proof Hu as (H1 & H2 & H3).
  assert (Em : exists v, output c value = Some v /\ a_maxv c <= v).
  { destruct Hdiv as [k Hk].
    assert (Es : step_width c = k) by (unfold step_width; rewrite Hk; apply Z.quot_mul; lia).
    unfold output. rewrite H3. assert (Rb : match a_raw c with Some r => value <? r | None => false end = false) by (destruct (a_raw c) as [r|]; [specialize (Hraw r eq_refl); lia|auto]).
    rewrite Rb. destruct (Z.eqb_spec (step_width c) 0); [lia|]. eexists. split; [reflexivity|].
    assert (L : 65535 <= round_half_even value (step_width c) * step_width c).
    { pose proof (rhe_mono (step_width c) 65535 value ltac:(lia) Hv) as M. destruct (rhe_full (step_width c) (a_steps c) ltac:(lia) ltac:(lia) ltac:(lia)) as [E|E].
      - rewrite E in M. nia.
      - rewrite E in *. rewrite <- (Z.mul_1_r 65535) in M at 1. rewrite rhe_exact in M by lia. lia. }
    set (w := round_half_even value (step_width c) * step_width c) in *. clearbody w.
    assert (Q : a_maxv c <= Z.quot (w * (a_maxv c + 1)) 65536) by (rewrite Z.quot_div_nonneg by nia; apply Z.div_le_lower_bound; nia).
    set (q := Z.quot _ _) in *. clearbody q. destruct (Z.ltb_spec q 0); case_if; lia. }
  destruct Em as (v & Ev & Lv). destruct (output_ok c value Hu ltac:(lia)) as (v' & Ev' & B). rewrite Ev in Ev'. injection Ev' as <-. rewrite Ev. f_equal. lia.
Qed.

Lemma output_below c value r : a_tf c = None -> a_raw c = Some r -> value < r -> output c value = Some 0.
Proof. intros H1 H2 H3. unfold output. rewrite H1, H2. destruct (Z.ltb_spec value r); [auto|lia]. Qed.

Lemma output_zero c : usable c -> output c 0 = Some 0.
Proof.
  intros Hu. pose proof (step_bounds c Hu) as Hs. pose proof Hu as (H1 & H2 & H3). unfold output. rewrite H3. destruct (match a_raw c with Some r => 0 <? r | None => false end); auto.
  destruct (Z.eqb_spec (step_width c) 0); [lia|]. assert (R : round_half_even 0 (step_width c) = 0) by (apply (rhe_exact 0); lia). rewrite R.
  replace (0 * step_width c * (a_maxv c + 1)) with 0 by lia. change (0 ÷ 65536) with 0. cbv zeta. f_equal.
  destruct (Z.ltb_spec 0 0); [lia|]. destruct (Z.ltb_spec (a_maxv c) 0); lia.
Qed.

(* ---- histories ---- *)
Lemma arun_app c ops1 : forall x ops2, arun c x (ops1 ++ ops2) =
  match arun c x ops1 with Raise => Raise | Ok (x1, e1) => match arun c x1 ops2 with Raise => Raise | Ok (x2, e2) => Ok (x2, e1 ++ e2) end end.
Proof.
  induction ops1 as [|[t v] ops1 IH]; intros x ops2; cbn [app arun].
  - destruct (arun c x ops2) as [[? ?]|]; reflexivity.
  - destruct (aprocess c x t v) as [[x1 e1]|]; auto. rewrite IH. destruct (arun c x1 ops1) as [[x2 e2]|]; auto. destruct (arun c x2 ops2) as [[x3 e3]|]; auto. rewrite app_assoc. reflexivity.
Qed.

Lemma arun_snoc c x ops t v y ev : arun c x (ops ++ [(t, v)]) = Ok (y, ev) -> exists x1 e1 e2, arun c x ops = Ok (x1, e1) /\ aprocess c x1 t v = Ok (y, e2) /\ ev = e1 ++ e2.
Proof.
  rewrite arun_app. destruct (arun c x ops) as [[x1 e1]|]; [|discriminate]. cbn. destruct (aprocess c x1 t v) as [[x2 e2]|] eqn:E; [|discriminate]. intros H. injection H as <- <-.
  exists x1, e1, e2. rewrite app_nil_r. auto.
Qed.

Lemma widen_frame x v : a_period (widen x v) = a_period x /\ a_last (widen x v) = a_last x.
Proof. unfold widen. destruct (a_lohi x) as [[lo hi]|]; [|auto]. destruct (v <? lo), (hi <? v); auto. Qed.

Lemma calibrate_frame c x v x1 o : calibrate c x v = Ok (x1, o) -> a_period x1 = a_period x /\ a_last x1 = a_last x.
Proof.
  unfold calibrate. destruct (a_cal c); [|intros H; injection H as <- <-; auto]. pose proof (widen_frame x v). destruct (a_lohi (widen x v)) as [[lo hi]|]; [|discriminate].
  destruct (_ <? a_win c); [intros H0; injection H0 as <- <-; auto|]. destruct (a_fac (widen x v)); [|discriminate]. intros H0; injection H0 as <- <-; auto.
Qed.

Lemma aprocess_frame c x t v y ev : aprocess c x t v = Ok (y, ev) ->
  interval (a_period y) = interval (a_period x) /\
  (last_reset (a_period y) = if last_reset (a_period x) + interval (a_period x) <? t then t else last_reset (a_period x)) /\
  ((ev = [] /\ a_last y = a_last x) \/ (exists w, ev = [ASet t w] /\ a_last y = w /\ w <> a_last x /\ last_reset (a_period x) + interval (a_period x) < t)).
Proof.
  unfold aprocess, p_exceeded. destruct (Z.ltb_spec (last_reset (a_period x) + interval (a_period x)) t) as [L|L]; cbn [negb].
  - destruct (calibrate c _ v) as [[x1 o]|] eqn:Ec; [|discriminate]. apply calibrate_frame in Ec. cbn in Ec. destruct Ec as [C1 C2].
    destruct o as [v'|]; [|intros H; injection H as <- <-; rewrite C1; cbn; auto]. destruct (output c v') as [w|]; [|discriminate].
    destruct (Z.eqb_spec (a_last x1) w); intros H; injection H as <- <-; cbn; rewrite C1; cbn; split; auto; split; auto. right. exists w. rewrite <- C2. auto.
  - intros H; injection H as <- <-. cbn. auto.
Qed.


Lemma evaluated_snoc i l ops t v : evaluated i l (ops ++ [(t, v)]) = evaluated i l ops ++ (if last (map fst (evaluated i l ops)) l + i <? t then [(t, v)] else []).
Proof.
  revert l. induction ops as [|[a w] ops IH]; intros l; cbn [app evaluated map last]; [destruct (_ <? t); reflexivity|].
  destruct (l + i <? a); [|apply IH]. rewrite IH. cbn [app map fst]. f_equal. f_equal.
  assert (G : forall q (z d : Z), last (z :: q) d = last q z).
  { clear. induction q as [|b q IH]; intros z d; auto. change (last (b :: q) d = last (b :: q) z). rewrite (IH b d), (IH b z). auto. }
  rewrite G. reflexivity.
Qed.

Lemma arun_last c i ops : forall y ev, arun c (new_analog i) ops = Ok (y, ev) ->
  interval (a_period y) = i /\ last_reset (a_period y) = last_eval i ops /\ a_last y = last (a_sets ev) (-1).
Proof.
  induction ops as [|ops [t v] IH] using rev_ind_snoc; intros y ev H.
  - injection H as <- <-. cbn. auto.
  - apply arun_snoc in H. destruct H as (x1 & e1 & e2 & H1 & H2 & ->). destruct (IH _ _ H1) as (I1 & I2 & I3).
    apply aprocess_frame in H2. destruct H2 as (A1 & A2 & A3). split; [congruence|]. split.
    + rewrite A2, I1, I2. unfold last_eval. rewrite evaluated_snoc. fold (last_eval i ops). destruct (Z.ltb_spec (last_eval i ops + i) t); [rewrite map_app; cbn; rewrite last_last; auto|rewrite app_nil_r; auto].
    + unfold a_sets in *. rewrite map_app. destruct A3 as [[-> A3]|(w & -> & A3 & _)]; cbn; [rewrite app_nil_r; congruence|rewrite last_last; auto].
Qed.

(* every send is at an evaluated poll, differs from the previous one *)
Lemma sends_differ c i ops y ev e1 a b e2 : arun c (new_analog i) ops = Ok (y, ev) -> ev = e1 ++ a :: b :: e2 -> a_val a <> a_val b.
Proof.
  revert y ev e1 a b e2. induction ops as [|ops [t v] IH] using rev_ind_snoc; intros y ev e1 a b e2 H Hev.
  - injection H as <- <-. destruct e1; discriminate.
  - apply arun_snoc in H. destruct H as (x1 & f1 & f2 & H1 & H2 & E). destruct (arun_last _ _ _ _ _ H1) as (_ & _ & L).
    apply aprocess_frame in H2. destruct H2 as (_ & _ & [[-> _]|(w & -> & _ & N & _)]); [rewrite app_nil_r in E; subst; eauto|].
    rewrite Hev in E. destruct e2 as [|e2 z _] using rev_ind_snoc.
    + replace (e1 ++ [a; b]) with ((e1 ++ [a]) ++ [b]) in E by (rewrite <- app_assoc; reflexivity). apply app_inj_tail in E. destruct E as [<- ->]. unfold a_sets in L. rewrite map_app in L. cbn in L. rewrite last_last in L.
      cbn. destruct a. cbn. congruence.
    + replace (e1 ++ a :: b :: e2 ++ [z]) with ((e1 ++ a :: b :: e2) ++ [z]) in E by (rewrite <- app_assoc; reflexivity). apply app_inj_tail in E. destruct E as [E _]. eapply IH; eauto.
Qed.

Lemma last_send_time c i ops y ev : 0 <= i -> arun c (new_analog i) ops = Ok (y, ev) -> (ev = [] -> 0 <= last_reset (a_period y)) /\ forall e1 a, ev = e1 ++ [a] -> a_time a <= last_reset (a_period y).
Proof.
  intros Hi. revert y ev. induction ops as [|ops [t v] IH] using rev_ind_snoc; intros y ev H.
  - injection H as <- <-. cbn. split; [lia|]. intros e1 a E; destruct e1; discriminate.
  - apply arun_snoc in H. destruct H as (x1 & f1 & f2 & H1 & H2 & ->). destruct (IH _ _ H1) as [I0 I1]. destruct (arun_last _ _ _ _ _ H1) as (J & _).
    apply aprocess_frame in H2. destruct H2 as (_ & A2 & A3). rewrite J in *.
    assert (last_reset (a_period x1) <= last_reset (a_period y)) by (rewrite A2; destruct (Z.ltb_spec (last_reset (a_period x1) + i) t); lia).
    destruct A3 as [[-> _]|(w & -> & _ & _ & L)].
    + rewrite app_nil_r. split; [intros E; specialize (I0 E); lia|]. intros e1 a E. specialize (I1 _ _ E). lia.
    + split; [intros E; apply app_eq_nil in E; destruct E; discriminate|]. intros e1 a E. apply app_inj_tail in E. destruct E as [_ <-]. cbn. rewrite A2. destruct (Z.ltb_spec (last_reset (a_period x1) + i) t); lia.
Qed.

Lemma sends_spaced c i ops y ev e1 a b e2 : 0 <= i -> arun c (new_analog i) ops = Ok (y, ev) -> ev = e1 ++ a :: b :: e2 -> a_time a + i < a_time b.
Proof.
  intros Hi. revert y ev e1 a b e2. induction ops as [|ops [t v] IH] using rev_ind_snoc; intros y ev e1 a b e2 H Hev.
  - injection H as <- <-. destruct e1; discriminate.
  - apply arun_snoc in H. destruct H as (x1 & f1 & f2 & H1 & H2 & E). destruct (arun_last _ _ _ _ _ H1) as (J & _). destruct (last_send_time _ _ _ _ _ Hi H1) as [_ L].
    apply aprocess_frame in H2. destruct H2 as (_ & _ & [[-> _]|(w & -> & _ & N & T)]); [rewrite app_nil_r in E; subst; eauto|]. rewrite J in T.
    rewrite Hev in E. destruct e2 as [|e2 z _] using rev_ind_snoc.
    + replace (e1 ++ [a; b]) with ((e1 ++ [a]) ++ [b]) in E by (rewrite <- app_assoc; reflexivity). apply app_inj_tail in E. destruct E as [E ->]. specialize (L _ _ (eq_sym E)). cbn. lia.
    + replace (e1 ++ a :: b :: e2 ++ [z]) with ((e1 ++ a :: b :: e2) ++ [z]) in E by (rewrite <- app_assoc; reflexivity). apply app_inj_tail in E. destruct E as [E _]. eapply IH; eauto.
Qed.

(* ---- calibration ---- *)
Lemma lowest_snoc v vs z : lowest v (vs ++ [z]) = Z.min (lowest v vs) z.
Proof. unfold lowest. rewrite fold_left_app. reflexivity. Qed.
Lemma highest_snoc v vs z : highest v (vs ++ [z]) = Z.max (highest v vs) z.
Proof. unfold highest. rewrite fold_left_app. reflexivity. Qed.
Lemma low_high v vs : lowest v vs <= highest v vs /\ forall z, In z (v :: vs) -> lowest v vs <= z <= highest v vs.
Proof.
  induction vs as [|vs z [I1 I2]] using rev_ind_snoc; [cbn; split; [lia|intros z [->|[]]; lia]|]. rewrite lowest_snoc, highest_snoc. split; [lia|].
  intros y [->|Hy]; [specialize (I2 y (or_introl eq_refl)); lia|]. apply in_app_iff in Hy. destruct Hy as [Hy|[->|[]]]; [specialize (I2 y (or_intror Hy))|]; lia.
Qed.

Definition cal_inv (x : analog) (rs : list Z) : Prop :=
  match rs with
  | [] => a_lohi x = None /\ a_fac x = None
  | v :: vs => a_lohi x = Some (lowest v vs, highest v vs) /\
               (if lowest v vs =? highest v vs then a_fac x = None else a_fac x = Some (highest v vs - lowest v vs))
  end.

Lemma widen_inv x rs z : cal_inv x rs -> cal_inv (widen x z) (rs ++ [z]).
Proof.
  destruct rs as [|v vs]; cbn [cal_inv app].
  - intros [H1 H2]. unfold widen. rewrite H1. cbn. rewrite Z.eqb_refl. auto.
  - intros [H1 H2]. rewrite lowest_snoc, highest_snoc. pose proof (low_high v vs) as [B _]. unfold widen. rewrite H1. set (lo := lowest v vs) in *. set (hi := highest v vs) in *. clearbody lo hi.
    destruct (Z.ltb_spec z lo) as [L|L]; destruct (Z.ltb_spec hi z) as [G|G]; try lia; cbn [a_lohi a_fac].
    + rewrite Z.min_r, Z.max_l by lia. split; auto. destruct (Z.eqb_spec z hi); [lia|auto].
    + rewrite Z.min_l, Z.max_r by lia. split; auto. destruct (Z.eqb_spec lo z); [lia|auto].
    + rewrite Z.min_l, Z.max_l by lia. split; auto.
Qed.

Lemma arun_cal c i ops : a_cal c = true -> forall y ev, arun c (new_analog i) ops = Ok (y, ev) -> cal_inv y (map snd (evaluated i 0 ops)).
Proof.
  intros Hc. induction ops as [|ops [t v] IH] using rev_ind_snoc; intros y ev H.
  - injection H as <- <-. cbn. auto.
  - apply arun_snoc in H. destruct H as (x1 & e1 & e2 & H1 & H2 & ->). specialize (IH _ _ H1). destruct (arun_last _ _ _ _ _ H1) as (J1 & J2 & _).
    rewrite evaluated_snoc. fold (last_eval i ops). unfold aprocess, p_exceeded in H2. rewrite J1, J2 in H2.
    destruct (Z.ltb_spec (last_eval i ops + i) t); cbn [negb] in H2.
    + rewrite map_app. cbn [map snd]. set (x0 := mkAnalog _ (a_last x1) (a_lohi x1) (a_fac x1)) in H2.
      assert (I0 : cal_inv x0 (map snd (evaluated i 0 ops))) by exact IH.
      pose proof (widen_inv _ _ v I0) as W. unfold calibrate in H2. rewrite Hc in H2. cbv zeta in H2.
      destruct (a_lohi (widen x0 v)) as [[lo hi]|] eqn:El; [|discriminate].
      destruct (hi - lo <? a_win c); [injection H2 as <- <-; auto|]. destruct (a_fac (widen x0 v)) as [w|] eqn:Ef; [|discriminate].
      destruct (output c _); [|discriminate]. destruct (a_last _ =? _); injection H2 as <- <-; auto.
    + injection H2 as <- <-. rewrite app_nil_r. exact IH.
Qed.

(* what an evaluated poll with calibration does, in terms of all evaluated readings *)
Lemma cal_process c i ops x ev t v y e : a_cal c = true -> 0 < a_win c -> arun c (new_analog i) ops = Ok (x, ev) -> aprocess c x t v = Ok (y, e) ->
  last_eval i ops + i < t ->
  exists (r : Z) (rs : list Z), map snd (evaluated i 0 (ops ++ [(t, v)])) = r :: rs /\
    (if highest r rs - lowest r rs <? a_win c then e = []
     else exists w, output c (Z.quot ((v - lowest r rs) * 65536) (highest r rs - lowest r rs)) = Some w /\ e = (if last (a_sets ev) (-1) =? w then [] else [ASet t w])).
Proof.
  intros Hc Hw H1 H2 Hd. pose proof (arun_cal _ _ _ Hc _ _ H1) as I0. destruct (arun_last _ _ _ _ _ H1) as (J1 & J2 & J3).
  rewrite evaluated_snoc. fold (last_eval i ops). destruct (Z.ltb_spec (last_eval i ops + i) t); [|lia]. rewrite map_app. cbn [map snd].
  unfold aprocess, p_exceeded in H2. rewrite J1, J2 in H2. destruct (Z.ltb_spec (last_eval i ops + i) t); [|lia]. cbn [negb] in H2.
  set (x0 := mkAnalog _ (a_last x) (a_lohi x) (a_fac x)) in H2. pose proof (widen_inv x0 _ v I0) as W. pose proof (widen_frame x0 v) as [_ F].
  destruct (map snd (evaluated i 0 ops) ++ [v]) as [|r rs] eqn:E; [destruct (map snd (evaluated i 0 ops)); discriminate|]. exists r, rs. split; auto.
  cbn [cal_inv] in W. destruct W as [W1 W2]. unfold calibrate in H2. rewrite Hc in H2. cbv zeta in H2. rewrite W1 in H2.
  destruct (Z.ltb_spec (highest r rs - lowest r rs) (a_win c)); [injection H2 as <- <-; auto|].
  destruct (Z.eqb_spec (lowest r rs) (highest r rs)); [lia|]. rewrite W2 in H2.
  destruct (output c _) as [w|] eqn:Eo; [|discriminate]. exists w. split; auto. rewrite F in H2. cbn [a_last x0] in H2. rewrite J3 in H2.
  destruct (last (a_sets ev) (-1) =? w); injection H2 as <- <-; auto.
Qed.

(* the calibrated position within the window *)
Lemma cal_scaled lo hi v : lo <= v <= hi -> lo < hi -> 0 <= Z.quot ((v - lo) * 65536) (hi - lo) <= 65536.
Proof. intros H1 H2. rewrite Z.quot_div_nonneg by nia. split; [apply Z.div_pos; nia|]. apply Z.div_le_upper_bound; nia. Qed.
Lemma cal_top lo hi : lo < hi -> Z.quot ((hi - lo) * 65536) (hi - lo) = 65536.
Proof. intros H. rewrite Z.mul_comm. apply Z.quot_mul. lia. Qed.
Lemma cal_mono lo hi a b : lo <= a <= b -> lo < hi -> Z.quot ((a - lo) * 65536) (hi - lo) <= Z.quot ((b - lo) * 65536) (hi - lo).
Proof. intros H1 H2. rewrite !Z.quot_div_nonneg by nia. apply Z.div_le_mono; nia. Qed.

Lemma arun_never_raises c i ops : usable c -> (forall t v, In (t, v) ops -> 0 <= v) -> (a_cal c = true -> 0 < a_win c) -> arun c (new_analog i) ops <> Raise.
Proof.
  intros Hu Hv Hw. induction ops as [|ops [t v] IH] using rev_ind_snoc; [discriminate|]. rewrite arun_app.
  destruct (arun c (new_analog i) ops) as [[x e]|] eqn:E1; [|exfalso; apply IH; [intros t' v' Hin; apply (Hv t'); apply in_or_app; auto|auto]]. cbn [arun].
  assert (P : aprocess c x t v <> Raise); [|destruct (aprocess c x t v) as [[? ?]|]; [discriminate|contradiction]].
  assert (V : 0 <= v) by (apply (Hv t); apply in_or_app; right; left; auto).
  unfold aprocess, p_exceeded. destruct (Z.ltb_spec (last_reset (a_period x) + interval (a_period x)) t); cbn [negb]; [|discriminate].
  unfold calibrate. destruct (a_cal c) eqn:Hc.
  - pose proof (arun_cal _ _ _ Hc _ _ E1) as I0.
    set (x0 := mkAnalog _ (a_last x) (a_lohi x) (a_fac x)). pose proof (widen_inv x0 _ v I0) as W. cbv zeta.
    destruct (map snd (evaluated i 0 ops) ++ [v]) as [|r rs] eqn:E; [destruct (map snd (evaluated i 0 ops)); discriminate|].
    cbn [cal_inv] in W. destruct W as [W1 W2]. rewrite W1. specialize (Hw eq_refl). destruct (Z.ltb_spec (highest r rs - lowest r rs) (a_win c)); [discriminate|].
    destruct (Z.eqb_spec (lowest r rs) (highest r rs)); [lia|]. rewrite W2.
    assert (B : lowest r rs <= v <= highest r rs) by (apply low_high; rewrite <- E; apply in_or_app; right; left; auto).
    pose proof (cal_scaled _ _ _ B ltac:(lia)) as S. destruct (output_ok c _ Hu (proj1 S)) as (w & -> & _). destruct (_ =? w); discriminate.
  - destruct (output_ok c v Hu V) as (w & -> & _). destruct (_ =? w); discriminate.
Qed.

Lemma plain_process c i ops x ev t v y e : a_cal c = false -> arun c (new_analog i) ops = Ok (x, ev) -> aprocess c x t v = Ok (y, e) ->
  (if last_eval i ops + i <? t then exists w, output c v = Some w /\ e = (if last (a_sets ev) (-1) =? w then [] else [ASet t w]) else e = []).
Proof.
  intros Hc H1 H2. destruct (arun_last _ _ _ _ _ H1) as (J1 & J2 & J3). unfold aprocess, p_exceeded in H2. rewrite J1, J2 in H2.
  destruct (last_eval i ops + i <? t); cbn [negb] in H2; [|injection H2 as <- <-; auto]. unfold calibrate in H2. rewrite Hc in H2.
  destruct (output c v) as [w|]; [|discriminate]. exists w. split; auto. cbn [a_last] in H2. rewrite J3 in H2. destruct (_ =? w); injection H2 as <- <-; auto.
Qed.

Lemma sent_in_range c i ops : usable c -> (forall t v, In (t, v) ops -> 0 <= v) -> forall y ev, arun c (new_analog i) ops = Ok (y, ev) -> forall e, In e ev -> 0 <= a_val e <= a_maxv c.
Proof.
  intros Hu Hv. induction ops as [|ops [t v] IH] using rev_ind_snoc; intros y ev H e He; [injection H as <- <-; destruct He|].
  apply arun_snoc in H. destruct H as (x1 & e1 & e2 & H1 & H2 & ->). apply in_app_iff in He. destruct He as [He|He].
  - eapply IH; eauto. intros t' v' Hin. apply (Hv t'). apply in_or_app; auto.
  - assert (V : 0 <= v) by (apply (Hv t); apply in_or_app; right; left; auto).
    assert (G : forall z w, output c z = Some w -> 0 <= z -> 0 <= w <= a_maxv c) by (intros z w E Hz; destruct (output_ok c z Hu Hz) as (w' & E' & B); rewrite E in E'; injection E' as <-; auto).
    unfold aprocess, p_exceeded in H2. destruct (_ <? t); cbn [negb] in H2; [|injection H2 as <- <-; destruct He].
    destruct (calibrate c _ v) as [[x2 [v'|]]|] eqn:Ec; [|injection H2 as <- <-; destruct He|discriminate].
    destruct (output c v') as [w|] eqn:Eo; [|discriminate]. destruct (_ =? w); injection H2 as <- <-; [destruct He|]. destruct He as [<-|[]]. cbn. apply (G v'); auto.
    unfold calibrate in Ec. destruct (a_cal c) eqn:Hc; [|injection Ec as _ <-; auto]. cbv zeta in Ec.
    pose proof (arun_cal _ _ _ Hc _ _ H1) as I0.
    match type of Ec with context [widen ?x0 v] => pose proof (widen_inv x0 _ v I0) as W end.
    destruct (map snd (evaluated i 0 ops) ++ [v]) as [|r rs] eqn:E; [destruct (map snd (evaluated i 0 ops)); discriminate|].
    cbn [cal_inv] in W. destruct W as [W1 W2]. rewrite W1 in Ec. destruct (_ <? a_win c); [discriminate|].
    assert (B : lowest r rs <= v <= highest r rs) by (apply low_high; rewrite <- E; apply in_or_app; right; left; auto).
    destruct (Z.eqb_spec (lowest r rs) (highest r rs)); [rewrite W2 in Ec; discriminate|]. rewrite W2 in Ec. injection Ec as _ <-. apply cal_scaled; lia.
Qed.

(* quiet while the window is too small: no send before *)
Lemma evaluated_all i l ops1 ops2 : exists q, evaluated i l (ops1 ++ ops2) = evaluated i l ops1 ++ q.
Proof. induction ops2 as [|ops2 [t v] IH] using rev_ind_snoc; [exists []; rewrite !app_nil_r; auto|]. destruct IH as [q IH]. rewrite app_assoc, evaluated_snoc, IH. rewrite <- app_assoc. eauto. Qed.
Lemma lowhigh_app r rs q : lowest r (rs ++ q) <= lowest r rs /\ highest r rs <= highest r (rs ++ q).
Proof. induction q as [|q z [I1 I2]] using rev_ind_snoc; [rewrite app_nil_r; lia|]. rewrite app_assoc, lowest_snoc, highest_snoc. lia. Qed.

Lemma quiet_window c i ops y ev r rs : a_cal c = true -> 0 < a_win c -> arun c (new_analog i) ops = Ok (y, ev) -> map snd (evaluated i 0 ops) = r :: rs -> highest r rs - lowest r rs < a_win c -> ev = [].
Proof.
  intros Hc Hw. revert y ev r rs. induction ops as [|ops [t v] IH] using rev_ind_snoc; intros y ev r rs H He Hl; [discriminate|].
  apply arun_snoc in H. destruct H as (x1 & e1 & e2 & H1 & H2 & ->).
  assert (E1 : e1 = []).
  { rewrite evaluated_snoc, map_app in He. destruct (map snd (evaluated i 0 ops)) as [|r' rs'] eqn:E.
    - clear IH. assert (forall y ev, arun c (new_analog i) ops = Ok (y, ev) -> evaluated i 0 ops = [] -> ev = []) as K; [|eapply K; eauto; destruct (evaluated i 0 ops); [auto|discriminate]].
      clear. induction ops as [|ops [t v] IH] using rev_ind_snoc; intros y ev H E; [injection H as <- <-; auto|]. apply arun_snoc in H. destruct H as (x1 & e1 & e2 & H1 & H2 & ->).
      rewrite evaluated_snoc in E. apply app_eq_nil in E. destruct E as [E0 E1]. rewrite (IH _ _ H1 E0). cbn. destruct (arun_last _ _ _ _ _ H1) as (J1 & J2 & _).
      apply aprocess_frame in H2. destruct H2 as (_ & _ & [[-> _]|(w & _ & _ & _ & L)]); auto. rewrite J1, J2 in L. unfold last_eval in L. destruct (Z.ltb_spec (last (map fst (evaluated i 0 ops)) 0 + i) t); [discriminate|lia].
    - eapply IH; eauto. cbn in He. injection He as -> He. pose proof (lowhigh_app r rs' (map snd (if last (map fst (evaluated i 0 ops)) 0 + i <? t then [(t, v)] else []))) as B. rewrite He in B. lia. }
  subst e1. cbn. destruct (Z_lt_dec (last_eval i ops + i) t) as [L|L].
  - destruct (cal_process _ _ _ _ _ _ _ _ _ Hc Hw H1 H2 L) as (r' & rs' & E' & Q). rewrite He in E'. injection E' as <- <-. destruct (Z.ltb_spec (highest r rs - lowest r rs) (a_win c)); [auto|lia].
  - destruct (arun_last _ _ _ _ _ H1) as (J1 & J2 & _). apply aprocess_frame in H2. destruct H2 as (_ & _ & [[-> _]|(w & _ & _ & _ & L')]); auto. rewrite J1, J2 in L'. contradiction.
Qed.

Lemma cal_ends c lo hi : usable c -> lo < hi ->
  output c (Z.quot ((lo - lo) * 65536) (hi - lo)) = Some 0 /\
  ((a_steps c | 65536) -> (forall r, a_raw c = Some r -> r <= 65535) -> output c (Z.quot ((hi - lo) * 65536) (hi - lo)) = Some (a_maxv c)).
Proof.
  intros Hu Hl. split.
  - replace ((lo - lo) * 65536) with 0 by lia. rewrite Z.quot_0_l by lia. apply output_zero. auto.
  - intros Hd Hr. rewrite cal_top by auto. apply output_full; auto; [lia|]. intros r E. specialize (Hr r E). lia.
Qed.
Lemma cal_output_mono c lo hi a b va vb : usable c -> lo <= a <= b -> lo < hi ->
  output c (Z.quot ((a - lo) * 65536) (hi - lo)) = Some va -> output c (Z.quot ((b - lo) * 65536) (hi - lo)) = Some vb -> va <= vb.
Proof.
  intros Hu Hab Hl. pose proof (cal_mono lo hi a b Hab Hl). apply output_mono; auto. split; [|auto]. rewrite Z.quot_div_nonneg by nia. apply Z.div_pos; nia.
Qed.
