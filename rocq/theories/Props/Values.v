(* C106: values which are shown as texts. *)
From Verif.Lib Require Import Base.
From Coq Require Import String DecimalString DecimalFacts DecimalPos DecimalZ QArith Qround Lqa.
From Verif.Model Require Import Midi Encoder Values.
From Verif.Spec Require Import Encoder Values.
From Verif.Proofs Require Import Encoder.
Local Open Scope Z_scope.

(* ---- reading ---- *)
Lemma to_int_not_nil z : Z.to_int z <> Decimal.Pos Decimal.Nil /\ Z.to_int z <> Decimal.Neg Decimal.Nil.
Proof.
  split; intros H; pose proof (DecimalZ.of_to z) as R; rewrite H in R; cbn in R; subst z; discriminate.
Qed.
Lemma int_string z : NilZero.int_of_string (str_int z) = Some (Z.to_int z).
Proof. apply NilZero.isi; apply to_int_not_nil. Qed.
Lemma no_plus z : after "+" (str_int z) = None.
Proof.
  unfold str_int. destruct (Z.to_int z) as [d|d]; [|reflexivity]. destruct d; reflexivity.
Qed.
Lemma read_text v : read_steps (transpose_text v) = Some (half_steps v).
Proof.
  unfold transpose_text, half_steps. cbv zeta. set (z := v - 64). unfold read_steps.
  destruct (0 <? z) eqn:Z0.
  - change (after "Transpose: " ("Transpose: " ++ "+" ++ str_int z)%string) with (Some ("+" ++ str_int z)%string). cbn iota.
    change (after "+" ("+" ++ str_int z)%string) with (Some (str_int z)). cbn iota. rewrite int_string, DecimalZ.of_to, Z0. reflexivity.
  - change (after "Transpose: " ("Transpose: " ++ "" ++ str_int z)%string) with (Some (str_int z)). cbn iota.
    rewrite no_plus, int_string, DecimalZ.of_to, Z0. reflexivity.
Qed.

(* ---- the encoder ---- *)
Definition shown_values (ev : list eevent) : list Z := flat_map (fun e => match e with EShow v => [v] | _ => [] end) ev.
Lemma texts_map ev : texts ev = map transpose_text (shown_values ev).
Proof. induction ev as [|e ev IH]; [reflexivity|]. unfold texts, shown_values in *. cbn [flat_map map]. rewrite map_app, IH. destruct e; reflexivity. Qed.
Lemma shown_app a b : shown_values (a ++ b) = shown_values a ++ shown_values b.
Proof. apply flat_map_app. Qed.
Lemma sets_app2 a b : sets (a ++ b) = sets a ++ sets b.
Proof. apply flat_map_app. Qed.
Lemma shown_cancel c b x x' e : cancel c b x = Ok (x', e) -> shown_values e = [].
Proof. unfold cancel. destruct (get_value c x); [|discriminate]. intros H. injection H as <- <-. destruct (e_preview c); reflexivity. Qed.
Lemma shown_base c x x' e : base_accept c x = Ok (x', e) -> shown_values e = [].
Proof.
  unfold base_accept. destruct (is_minus_one (x_last x)); [intros H; injection H as <- <-; reflexivity|].
  destruct (e_pre c && negb (x_active x)); [intros H; injection H as <- <-; reflexivity|].
  destruct (x_last x); [|discriminate]. destruct (cancel c false _) as [[y ey]|] eqn:E; [|discriminate]. intros H. injection H as <- <-. cbn. exact (shown_cancel _ _ _ _ _ E).
Qed.
Lemma shown_accept c x x' e : accept c x = Ok (x', e) -> shown_values e = [].
Proof.
  unfold accept. destruct (base_accept c x) as [[y ey]|] eqn:E; [|discriminate]. apply shown_base in E.
  destruct (negb (e_bank c)); [intros H; injection H as <- <-; exact E|].
  destruct (x_last y) as [v|]; [destruct (v =? -1)|]; intros H; injection H as <- <-; rewrite ?shown_app, E; reflexivity.
Qed.
Lemma shown_watch c x x' e : check_watch c x = Ok (x', e) -> shown_values e = [] /\ sets e = [] /\
  (x_active x' = true -> x_active x = true /\ x_last x' = x_last x).
Proof.
  unfold check_watch. destruct (e_preview c && e_pre c && e_watch c).
  2:{ intros H. injection H as <- <-. auto. }
  destruct (opt_eqb (x_watch x) (x_seen x)); [intros H; injection H as <- <-; auto|].
  destruct (known (x_watch x) && known (x_seen x)).
  - destruct (cancel c true x) as [[y ey]|] eqn:E; [|discriminate]. intros H. injection H as <- <-. cbn.
    split; [exact (shown_cancel _ _ _ _ _ E)|]. apply cancel_frame in E. destruct E as (_ & _ & A & _ & S & _). split; [exact S|]. rewrite A. discriminate.
  - intros H. injection H as <- <-. cbn. auto.
Qed.
Lemma clamp_in v : 28 <= clamp 28 100 v <= 100.
Proof. unfold clamp. destruct (Z.ltb_spec v 28); cbn zeta; destruct (Z.ltb_spec 100 28); try lia; destruct (Z.ltb_spec 100 v); lia. Qed.
(* One poll: what is shown, in preselection mode and directly *)
Lemma process_shown c x p x' e : e_bank c = false -> process c x p = Ok (x', e) ->
  (e_pre c = false -> e_preview c = true -> e_min c = 28 -> e_max c = 100 -> shown_values e = sets e) /\
  (e_min c = 28 -> e_max c = 100 -> forall v, In v (shown_values e) -> 28 <= v <= 100) /\
  (e_pre c = true -> e_preview c = true -> x_active x' = true ->
     (exists v, x_last x' = Some v /\ shown_values e = [v]) \/ (shown_values e = [] /\ x_active x = true /\ x_last x' = x_last x)).
Proof.
  intros B. unfold process. set (x0 := if x_pos x =? -1 then _ else x).
  assert (F0 : x_active x0 = x_active x /\ x_last x0 = x_last x). { unfold x0. destruct (x_pos x =? -1); auto. }
  destruct (check_watch c x0) as [[x1 e1]|] eqn:W; [|discriminate]. apply shown_watch in W. destruct W as (W1 & W2 & W3).
  rewrite (proj1 F0), (proj2 F0) in W3. clearbody x0. clear F0.
  destruct (x_pos x1 =? scaled c p) eqn:Ep.
  { intros H. injection H as <- <-. rewrite W1, W2. split; [auto|]. split; [intros _ _ v []|]. intros _ _ A. right. destruct (W3 A). auto. }
  unfold get_value. rewrite B. cbn iota beta.
  set (x2 := match x_val x1 with Some _ => x1 | None => put_value c x1 0 end).
  assert (F2 : x_active x2 = x_active x1 /\ x_last x2 = x_last x1). { unfold x2. destruct (x_val x1); auto. }
  set (x3 := mkEnc _ _ _ _ _ _). 
  assert (F3 : x_active x3 = x_active x1 /\ x_last x3 = x_last x1). { exact F2. }
  clearbody x3. clear F2. clearbody x2.
  destruct (if negb (e_pre c) then _ else _) as [[base|]|] eqn:Eb; try discriminate.
  set (v := clamp _ _ _).
  destruct (opt_eqb (x_last x3) (Some v)) eqn:O.
  { intros H. injection H as <- <-. rewrite W1, W2. split; [auto|]. split; [intros _ _ w []|]. intros _ _ A. right.
    rewrite (proj1 F3) in A. destruct (W3 A) as [A1 A2]. rewrite (proj2 F3). auto. }
  destruct (if negb (e_pre c) then accept c _ else _) as [[x5 e5]|] eqn:E5; [|discriminate]. intros H. injection H as <- <-.
  rewrite !shown_app, !sets_app2, W1, W2. cbn [app].
  destruct (e_pre c) eqn:P; cbn [negb] in E5.
  - injection E5 as <- <-. cbn. split; [discriminate|]. split.
    + intros M1 M2 w. destruct (e_preview c); [|intros []]. intros [<-|[]]. unfold v. rewrite M1, M2. apply clamp_in.
    + intros _ V _. rewrite V. left. exists v. auto.
  - pose proof (shown_accept _ _ _ _ E5) as SA. rewrite SA. cbn [app]. split.
    + intros _ V M1 M2. rewrite V. change (shown_values [EShow v]) with [v]. change (sets [EShow v]) with (@nil Z). rewrite List.app_nil_r. unfold accept in E5. rewrite B in E5. cbn [negb] in E5.
      unfold base_accept in E5. cbn [x_last is_minus_one] in E5. rewrite P in E5. cbn [andb] in E5.
      replace (v =? -1) with false in E5. 2:{ symmetry. apply Z.eqb_neq. unfold v. rewrite M1, M2. pose proof (clamp_in (base + (scaled c p - x_pos x2))). lia. }
      destruct (cancel c false _) as [[y ey]|] eqn:E; [|discriminate]. injection E5 as <- <-. apply cancel_frame in E. destruct E as (_ & _ & _ & _ & S & _). match goal with |- _ = sets (_ :: ?l) => change (sets (ESet v :: l)) with (v :: sets l) end. rewrite S. reflexivity.
    + split; [|discriminate]. intros M1 M2 w. destruct (e_preview c); [|intros []]. intros [<-|[]]. unfold v. rewrite M1, M2. apply clamp_in.
Qed.

Lemma sets_in_range pre preview ops : forall x ev, (pre = false -> ~ In Accept ops) -> erun (transpose_encoder pre preview) new_enc ops = Ok (x, ev) ->
  (forall v, In v (sets ev) -> 28 <= v <= 100) /\ (forall v, In v (shown_values ev) -> 28 <= v <= 100) /\
  (pre = true -> preview = true -> x_active x = true -> exists l v, shown_values ev = l ++ [v] /\ x_last x = Some v).
Proof.
  set (c := transpose_encoder pre preview). induction ops as [|o ops IH] using rev_ind; intros x ev NA H.
  { injection H as <- <-. split; [intros v []|]. split; [intros v []|]. discriminate. }
  rewrite erun_app in H. destruct (erun c new_enc ops) as [[x0 e0]|] eqn:E0; [|discriminate]. cbn [erun] in H.
  destruct (estep c x0 o) as [[x1 e1]|] eqn:E1; [|discriminate]. injection H as <- <-. rewrite List.app_nil_r, sets_app2, shown_app.
  destruct (IH x0 e0) as (I1 & I2 & I3); [intros P Q; apply (NA P); apply in_or_app; auto|reflexivity|].
  assert (R : reached c ops x0) by (exists e0; exact E0).
  assert (T : (forall v, In v (sets e1) -> 28 <= v <= 100) /\ (forall v, In v (shown_values e1) -> 28 <= v <= 100) /\
    (pre = true -> preview = true -> x_active x1 = true -> (exists v, x_last x1 = Some v /\ shown_values e1 = [v]) \/ (shown_values e1 = [] /\ x_active x0 = true /\ x_last x1 = x_last x0))).
  { destruct o as [p| | |v|v]; cbn [estep] in E1.
    - destruct (process_shown c x0 p x1 e1 eq_refl E1) as (_ & S2 & S3). split; [|split; [exact (S2 eq_refl eq_refl)|exact S3]].
      destruct pre.
      + assert (S : sets e1 = []). { apply (pre_silent c [Turn p] x0 x1 e1 eq_refl). intros q [<-|[]]. discriminate. cbn. unfold c in *. rewrite E1. rewrite List.app_nil_r. reflexivity. }
        rewrite S. intros w [].
      + assert (MM : e_min c <= e_max c) by (unfold c; cbn; lia).
        destruct (C33_main c ops x0 p x1 e1 eq_refl MM R E1) as [S|(pr & w & v & _ & _ & _ & V & S & _)]; rewrite S; [intros ? []|].
        intros u [<-|[]]. rewrite V. unfold c, nearest; cbn. lia.
    - destruct pre; [|exfalso; apply (NA eq_refl); apply in_or_app; right; left; reflexivity].
      assert (MM : e_min c <= e_max c) by (unfold c; cbn; lia).
      rewrite (shown_accept _ _ _ _ E1). split; [|split; [intros v []|]].
      + destruct (pre_accept_range c ops x0 x1 e1 eq_refl MM R E1) as [S|(v & S & B & _)]; rewrite S; [intros ? []|]. intros u [<-|[]]. exact B.
      + intros _ _ A. right. split; [reflexivity|]. unfold accept, base_accept in E1. cbn [e_bank c transpose_encoder negb e_pre andb] in E1.
        destruct (is_minus_one (x_last x0)) eqn:M; [injection E1 as <- <-; auto|].
        destruct (negb (x_active x0)); [injection E1 as <- <-; auto|]. destruct (x_last x0) as [w|]; [|discriminate].
        destruct (cancel _ false _) as [[y ey]|] eqn:E; [|discriminate]. injection E1 as <- <-. apply cancel_frame in E. destruct E as (_ & _ & F & _). congruence.
    - rewrite (shown_cancel _ _ _ _ _ E1). apply cancel_frame in E1. destruct E1 as (_ & _ & F & _ & S & _). rewrite S. split; [intros ? []|]. split; [intros ? []|]. congruence.
    - injection E1 as <- <-. cbn. split; [intros ? []|]. split; [intros ? []|]. auto.
    - injection E1 as <- <-. cbn. split; [intros ? []|]. split; [intros ? []|]. auto. }
  destruct T as (T1 & T2 & T3). split; [|split].
  - intros v HI. apply in_app_or in HI. destruct HI; auto.
  - intros v HI. apply in_app_or in HI. destruct HI; auto.
  - intros P V A. destruct (T3 P V A) as [(v & L & S)|(S & A0 & L)]; rewrite S.
    + exists (shown_values e0), v. auto.
    + rewrite List.app_nil_r. destruct (I3 P V A0) as (l & v & Q & L0). exists l, v. split; [exact Q|]. congruence.
Qed.

(* A text tells the transposition: the number a user reads is the number of half steps, so different values have different texts. *)
Theorem C106_text : forall v, read_steps (transpose_text v) = Some (half_steps v).
Proof. exact read_text. Qed.
Print Assumptions C106_text.

(* Whatever happens, the encoder never transposes by more than three octaves, and never shows more. *)
Theorem C106_range : forall pre preview ops x ev, (pre = false -> ~ In Accept ops) -> erun (transpose_encoder pre preview) new_enc ops = Ok (x, ev) ->
  (forall v, In v (sets ev) -> -36 <= half_steps v <= 36) /\
  (forall s, In s (texts ev) -> exists n, read_steps s = Some n /\ -36 <= n <= 36).
Proof.
  intros pre preview ops x ev NA H. destruct (sets_in_range pre preview ops x ev NA H) as (A & B & _). split.
  - intros v I. specialize (A v I). unfold half_steps. lia.
  - intros s I. rewrite texts_map in I. apply in_map_iff in I. destruct I as (v & <- & I). exists (half_steps v). split; [apply read_text|]. specialize (B v I). unfold half_steps. lia.
Qed.
Print Assumptions C106_range.

(* Without preselection, what is shown when the encoder is polled is what is sent. *)
Theorem C106_direct : forall x p x' ev, process (transpose_encoder false true) x p = Ok (x', ev) ->
  map read_steps (texts ev) = map (fun v => Some (half_steps v)) (sets ev).
Proof.
  intros x p x' ev H. destruct (process_shown (transpose_encoder false true) x p x' ev eq_refl H) as (S & _). rewrite texts_map, (S eq_refl eq_refl eq_refl eq_refl), map_map. apply map_ext. exact read_text.
Qed.
Print Assumptions C106_direct.

(* With preselection, accepting sends nothing or what the text shown last says. *)
Theorem C106_accept : forall ops x ev x' ev', erun (transpose_encoder true true) new_enc ops = Ok (x, ev) -> accept (transpose_encoder true true) x = Ok (x', ev') ->
  sets ev' = [] \/ exists before s v, texts ev = before ++ [s] /\ sets ev' = [v] /\ read_steps s = Some (half_steps v).
Proof.
  intros ops x ev x' ev' H E. destruct (sets_in_range true true ops x ev ltac:(discriminate) H) as (_ & _ & S).
  unfold accept, base_accept in E. cbn [e_bank transpose_encoder negb e_pre andb] in E.
  destruct (is_minus_one (x_last x)) eqn:M; [injection E as <- <-; left; reflexivity|].
  destruct (x_active x) eqn:A; cbn [negb] in E; [|injection E as <- <-; left; reflexivity].
  destruct (S eq_refl eq_refl eq_refl) as (l & v & Q & L). rewrite L in E.
  destruct (cancel _ false _) as [[y ey]|] eqn:C; [|discriminate]. injection E as <- <-. apply cancel_frame in C. destruct C as (_ & _ & _ & _ & C & _).
  right. exists (map transpose_text l), (transpose_text v), v. rewrite texts_map, Q, map_app. split; [reflexivity|]. change (sets (ESet v :: ey)) with (v :: sets ey). rewrite C. split; [reflexivity|]. apply read_text.
Qed.
Print Assumptions C106_accept.

(* Turning by some steps transposes by as many half steps, if the result is within the limits. Missing for the full claim: the position -1, changes by the device
   since the encoder was used (C35), and a transposition which is not known yet, refuted below. *)
Theorem C106_step_partial : forall preview ops x p prev w x' ev, reached (transpose_encoder false preview) ops x -> settled (transpose_encoder false preview) ops ->
  last_turn ops = Some prev -> prev <> -1 -> p <> prev -> x_val x = Some w -> -36 <= half_steps w + (p - prev) <= 36 ->
  process (transpose_encoder false preview) x p = Ok (x', ev) ->
  map half_steps (sets ev) = [half_steps w + (p - prev)].
Proof.
  intros preview ops x p prev w x' ev R S L N D V B H. set (c := transpose_encoder false preview) in *.
  assert (SC : forall q, scaled c q = q). { intros q. unfold scaled, c. cbn. rewrite Z.mul_1_r. apply Z.quot_1_r. }
  destruct (C35_main c ops x p prev w x' ev) as (Q & _); try assumption; try reflexivity.
  - unfold c; cbn; lia.
  - unfold c; cbn; lia.
  - rewrite SC. exact N.
  - unfold current, get_value. cbn. rewrite V. reflexivity.
  - rewrite !SC. unfold half_steps in B. unfold c; cbn. lia.
  - rewrite !SC. exact D.
  - rewrite Q, !SC. cbn. f_equal. unfold half_steps. lia.
Qed.
Print Assumptions C106_step_partial.

(* Finding: turned by one step before the transposition is known, the encoder transposes by -36. *)
Theorem C106_unknown_refuted : exists x ev, erun (transpose_encoder false true) new_enc [Turn 3; Turn 4] = Ok (x, ev) /\ map half_steps (sets ev) = [-36] /\ texts ev = ["Transpose: -36"%string].
Proof. eexists _, _. vm_compute. auto. Qed.
Print Assumptions C106_unknown_refuted.

(* Finding: with preselection, the first step up shows -36 though the device has reported that nothing is transposed, and accepting sends it. *)
Theorem C106_first_refuted : exists x ev, erun (transpose_encoder true true) new_enc [Turn 3; Value (Some 64); Turn 4; Accept] = Ok (x, ev) /\ map half_steps (sets ev) = [-36] /\ texts ev = ["Transpose: -36"%string].
Proof. eexists _, _. vm_compute. auto. Qed.
Print Assumptions C106_first_refuted.

Example ex_transpose : exists x ev, erun (transpose_encoder false true) new_enc [Turn 3; Value (Some 64); Turn 4; Turn 9; Turn 1] = Ok (x, ev) /\
  map half_steps (sets ev) = [1; 6; -2] /\ texts ev = ["Transpose: +1"; "Transpose: +6"; "Transpose: -2"]%string.
Proof. eexists _, _. vm_compute. auto. Qed.
Example ex_preselect : exists x ev, erun (transpose_encoder true true) new_enc [Turn 3; Value (Some 64); Cancel; Turn 4; Turn 5; Accept; Turn 3; Cancel] = Ok (x, ev) /\
  map half_steps (sets ev) = [2] /\ texts ev = ["Transpose: +1"; "Transpose: +2"; "Transpose: 0"]%string.
Proof. eexists _, _. vm_compute. auto. Qed.
Example ex_step : exists x, reached (transpose_encoder false true) [Value (Some 64); Turn 3; Turn 4] x /\ settled (transpose_encoder false true) [Value (Some 64); Turn 3; Turn 4] /\ x_val x = Some 65.
Proof.
  eexists. split; [eexists; reflexivity|]. split; [|reflexivity]. left. exists [Value (Some 64); Turn 3], (Turn 4), [].
  eexists _, _, _. split; [reflexivity|]. split; [eexists; reflexivity|]. split; [reflexivity|]. split; [right; discriminate|intros q []].
Qed.

(* ---- volumes ---- *)
Lemma round1_near q : (inject_Z (round1 q) - (1 # 2) <= q * 10 <= inject_Z (round1 q) + (1 # 2))%Q.
Proof.
  unfold round1. set (y := (q * 10 + (1 # 2))%Q). pose proof (Qfloor_le y) as A. pose proof (Qlt_floor y) as B. set (n := Qfloor y) in *.
  rewrite inject_Z_plus in B. change (inject_Z 1) with 1%Q in B.
  destruct (Qeq_bool (inject_Z n) y) eqn:E; cbn [andb].
  - apply Qeq_bool_eq in E. destruct (Z.odd n).
    + assert (X : (inject_Z (n - 1) == inject_Z n - 1)%Q) by (unfold Z.sub; rewrite inject_Z_plus; reflexivity). unfold y in E. lra.
    + unfold y in E. lra.
  - unfold y in *. lra.
Qed.
Lemma round1_mono a b : (a <= b)%Q -> round1 a <= round1 b.
Proof.
  intros H. unfold round1. set (ya := (a * 10 + (1 # 2))%Q). set (yb := (b * 10 + (1 # 2))%Q). assert (Y : (ya <= yb)%Q) by (unfold ya, yb; lra).
  pose proof (Qfloor_resp_le _ _ Y) as F. pose proof (Qfloor_le ya) as A. set (na := Qfloor ya) in *. set (nb := Qfloor yb) in *.
  destruct (Qeq_bool (inject_Z nb) yb) eqn:Eb; cbn [andb].
  - destruct (Z.eq_dec na nb) as [e|ne].
    + rewrite e. destruct (Z.odd nb); [|destruct (_ && _); lia].
      replace (Qeq_bool (inject_Z nb) ya) with true; [cbn; lia|]. symmetry. apply Qeq_bool_iff. apply Qeq_bool_eq in Eb. rewrite e in A. lra.
    + destruct (_ && Z.odd na); destruct (Z.odd nb); lia.
  - destruct (_ && _); lia.
Qed.
Lemma round1_zero : round1 0 = 0.
Proof. reflexivity. Qed.
Lemma round1_pos q : (0 <= q)%Q -> 0 <= round1 q.
Proof. intros H. rewrite <- round1_zero. apply round1_mono. exact H. Qed.
Lemma round1_neg q : (q <= 0)%Q -> round1 q <= 0.
Proof. intros H. rewrite <- round1_zero. apply round1_mono. exact H. Qed.
Lemma out_level value offset : (0 <= value)%Q -> exists q, volume_out value offset = Some q /\ level value offset q.
Proof.
  intros H. unfold volume_out. destruct (Qle_bool 30 value) eqn:E.
  - apply Qle_bool_iff in E. eexists. split; [reflexivity|]. left. split; [exact E|]. ring.
  - assert (L : (value < 30)%Q). { apply Qnot_le_lt. intros L. apply Qle_bool_iff in L. congruence. }
    destruct (Qeq_bool (value + 2) 0) eqn:Z0. { apply Qeq_bool_eq in Z0. lra. }
    eexists. split; [reflexivity|]. right. split; [exact L|]. field. lra.
Qed.
Lemma level_mono a b o qa qb : (0 <= a)%Q -> (a <= b)%Q -> level a o qa -> level b o qb -> (qa <= qb)%Q.
Proof.
  intros A AB [[La Ea]|[La Ea]] [[Lb Eb]|[Lb Eb]].
  - lra.
  - lra.
  - (* the level below 30 percent is below the one at 30 percent *)
    apply Qle_trans with (o - (168 # 10))%Q; [|lra]. apply Qnot_lt_le. intros N.
    assert (P : (- (52 # 10) * (a + 2) <= (qa - o + (116 # 10)) * (a + 2))%Q). { apply Qmult_le_compat_r; lra. }
    rewrite Ea in P. lra.
  - apply Qnot_lt_le. intros N.
    assert (P1 : ((qb - o + (116 # 10)) * (a + 2) < (qa - o + (116 # 10)) * (a + 2))%Q). { apply Qmult_lt_compat_r; lra. }
    rewrite Ea in P1.
    assert (Nb : (qb - o + (116 # 10) < 0)%Q).
    { apply Qnot_le_lt. intros G. assert (0 * (b + 2) <= (qb - o + (116 # 10)) * (b + 2))%Q. { apply Qmult_le_compat_r; lra. } rewrite Eb in H. lra. }
    assert (P2 : (- (qb - o + (116 # 10)) * (a + 2) <= - (qb - o + (116 # 10)) * (b + 2))%Q).
    { rewrite (Qmult_comm _ (a + 2)), (Qmult_comm _ (b + 2)). apply Qmult_le_compat_r; lra. }
    assert (P3 : (- (qb - o + (116 # 10)) * (b + 2) == (1666666666 # 10000000))%Q). { transitivity (- ((qb - o + (116 # 10)) * (b + 2)))%Q; [ring|]. rewrite Eb. reflexivity. }
    rewrite P3 in P2. assert (P4 : (- (qb - o + (116 # 10)) * (a + 2) == - ((qb - o + (116 # 10)) * (a + 2)))%Q) by ring. rewrite P4 in P2. lra.
Qed.
Lemma sign_text q : sign_of q = ((if negb (Qle_bool q 0) then "+" else "") ++ (if negb (Qle_bool 0 q) then "-" else ""))%string.
Proof.
  unfold sign_of. destruct (Qlt_le_dec 0 q) as [P|P].
  - replace (Qle_bool q 0) with false. replace (Qle_bool 0 q) with true. reflexivity.
    symmetry. apply Qle_bool_iff. lra. symmetry. apply not_true_is_false. rewrite Qle_bool_iff. lra.
  - replace (Qle_bool q 0) with true by (symmetry; apply Qle_bool_iff; exact P). destruct (Qlt_le_dec q 0) as [N|N].
    + replace (Qle_bool 0 q) with false. reflexivity. symmetry. apply not_true_is_false. rewrite Qle_bool_iff. lra.
    + replace (Qle_bool 0 q) with true by (symmetry; apply Qle_bool_iff; exact N). reflexivity.
Qed.
Lemma volume_said value offset q : volume_out value offset = Some q -> exists s, volume_text value offset = Some s /\ says_db (sign_of q) s (round1 q).
Proof.
  intros H. unfold volume_text. rewrite H. eexists. split; [reflexivity|]. set (t := Z.abs (round1 q)).
  exists (t / 10), (t mod 10). split; [apply Z.div_pos; lia|]. pose proof (Z.mod_pos_bound t 10 ltac:(lia)). split; [lia|]. split; [apply Z.div_mod; lia|].
  split; [|split].
  - intros P. unfold sign_of. destruct (Qlt_le_dec 0 q) as [|L]; [reflexivity|]. pose proof (round1_neg q L). lia.
  - intros P. unfold sign_of. destruct (Qlt_le_dec 0 q) as [L|_]. { pose proof (round1_pos q ltac:(lra)). lia. }
    destruct (Qlt_le_dec q 0) as [|L]; [reflexivity|]. pose proof (round1_pos q L). lia.
  - rewrite sign_text. destruct (negb (Qle_bool q 0)), (negb (Qle_bool 0 q)); reflexivity.
Qed.

(* For every position of a volume knob there is a text; it says the level, rounded to a tenth of a decibel, with the sign of the level. *)
Theorem C106_volume : forall value offset, (0 <= value)%Q -> exists q s t, level value offset q /\ volume_text value offset = Some s /\ says_db (sign_of q) s t /\
  (inject_Z t * (1 # 10) - (1 # 20) <= q <= inject_Z t * (1 # 10) + (1 # 20))%Q.
Proof.
  intros value offset H. destruct (out_level value offset H) as (q & O & L). destruct (volume_said value offset q O) as (s & S & D).
  exists q, s, (round1 q). split; [exact L|]. split; [exact S|]. split; [exact D|]. pose proof (round1_near q). lra.
Qed.
Print Assumptions C106_volume.

(* Turning up the volume never shows less. *)
Theorem C106_volume_order : forall a b offset, (0 <= a)%Q -> (a <= b)%Q -> exists qa qb sa sb ta tb, level a offset qa /\ level b offset qb /\
  volume_text a offset = Some sa /\ volume_text b offset = Some sb /\ says_db (sign_of qa) sa ta /\ says_db (sign_of qb) sb tb /\ ta <= tb.
Proof.
  intros a b offset A AB. destruct (out_level a offset A) as (qa & Oa & La). destruct (out_level b offset ltac:(lra)) as (qb & Ob & Lb).
  destruct (volume_said _ _ _ Oa) as (sa & Sa & Da). destruct (volume_said _ _ _ Ob) as (sb & Sb & Db).
  exists qa, qb, sa, sb, (round1 qa), (round1 qb). repeat (split; [assumption|]). apply round1_mono. exact (level_mono a b offset qa qb A AB La Lb).
Qed.
Print Assumptions C106_volume_order.

(* Finding: levels which are rounded to zero are shown with a sign. *)
Theorem C106_zero_refuted : volume_text 96 1 = Some "+0.0dB"%string /\ volume_text (499 # 10) 12 = Some "-0.0dB"%string.
Proof. vm_compute. auto. Qed.
Print Assumptions C106_zero_refuted.

(* The cases of the tests in test_kemper.py *)
Example ex_volume : map (fun v => volume_text v 0) [0; 30; 50; 100]%Q = [Some "-94.9dB"; Some "-16.8dB"; Some "-12.0dB"; Some "0.0dB"]%string /\
  map (fun v => volume_text v 12) [0; 50; 60; 100]%Q = [Some "-82.9dB"; Some "0.0dB"; Some "+2.4dB"; Some "+12.0dB"]%string.
Proof. vm_compute. auto. Qed.
