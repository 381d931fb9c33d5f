From Coq Require Import String.
From Verif.Lib Require Import Base.
From Verif.Model Require Import Midi Mapping.
From Verif.Spec Require Import Mapping.

Lemma bytes_eqb_eq a b : bytes_eqb a b = true <-> a = b.
Proof.
  revert b. induction a as [|x a IH]; intros [|y b]; cbn; try (split; congruence).
  rewrite andb_true_iff, Z.eqb_eq, IH. split; [intros [-> ->]; auto | intros H; inv H; auto].
Qed.

Lemma bytes_eqb_refl a : bytes_eqb a a = true.
Proof. apply bytes_eqb_eq. reflexivity. Qed.

Lemma slice_26 d : slice d 2 6 = firstn 4 (skipn 2 d).
Proof. unfold slice. rewrite (skipn_firstn_comm 2 6 d). reflexivity. Qed.

Lemma last_two_app pre hi lo : last_two (pre ++ [hi; lo]) = Ok (128 * hi + lo).
Proof.
  unfold last_two. rewrite rev_app_distr. cbn. f_equal. lia.
Qed.

Lemma last_two_inv d n : last_two d = Ok n -> exists pre hi lo, d = pre ++ [hi; lo] /\ n = 128 * hi + lo.
Proof.
  unfold last_two. destruct (rev d) as [|lo [|hi r]] eqn:E; try discriminate.
  intros H. inv H. exists (rev r), hi, lo. split; [|lia].
  rewrite <- (rev_involutive d), E. cbn. rewrite <- app_assoc. reflexivity.
Qed.

Lemma last_two_raise d : last_two d = Raise -> (length d < 2)%nat.
Proof.
  unfold last_two. intros H. rewrite <- rev_length.
  destruct (rev d) as [|lo [|hi r]]; cbn; try lia. discriminate.
Qed.

Lemma removelast_snoc {A} (l : list A) x : removelast (l ++ [x]) = l.
Proof. rewrite removelast_app by discriminate. cbn. apply app_nil_r. Qed.

Lemma carries_str_total man d : carries Str (SysEx man d) (VStr (removelast (skipn 6 d))).
Proof.
  destruct (le_lt_dec (length d) 6) as [Hs|Hl].
  - rewrite (skipn_all2 d Hs). cbn. apply car_str_empty; auto.
  - assert (d = firstn 6 d ++ skipn 6 d) as Hd by (symmetry; apply firstn_skipn).
    assert (skipn 6 d <> []) as Hne.
    { intros E. apply (f_equal (@length Z)) in E. rewrite skipn_length in E. cbn in E. lia. }
    rewrite (app_removelast_last 0 Hne) in Hd. rewrite Hd at 1.
    apply car_str. rewrite firstn_length. lia.
Qed.

(* parse_against succeeds with a value exactly for an addressed message, and the value is the carried one. *)
Lemma parse_against_some t x r v :
  parse_against t x (Some r) = Ok (Some v) -> addressed x r /\ carries t x v.
Proof.
  unfold parse_against. destruct x as [c w|p|man d|st|st]; destruct r as [c' w'|p'|man' d'|st'|st'];
    try discriminate.
  - destruct (c =? c') eqn:E; [|discriminate]. intros H. inv H. apply Z.eqb_eq in E. subst.
    split; constructor.
  - intros H. inv H. split; constructor.
  - destruct (bytes_eqb man man') eqn:E1; cbn [negb]; [|discriminate].
    destruct (bytes_eqb (slice d 2 6) (slice d' 2 6)) eqn:E2; cbn [negb]; [|discriminate].
    apply bytes_eqb_eq in E1. apply bytes_eqb_eq in E2. rewrite !slice_26 in E2. subst man'.
    destruct t.
    + destruct (last_two d) as [n|] eqn:E; [|discriminate]. intros H. inv H.
      apply last_two_inv in E. destruct E as (pre & hi & lo & -> & ->).
      split; constructor; auto.
    + intros H. inv H. split; [constructor; auto|]. apply carries_str_total.
Qed.

Lemma parse_against_none t x r : parse_against t x (Some r) = Ok None -> ~ addressed x r.
Proof.
  intros H Ha. inv Ha; unfold parse_against in H.
  - rewrite Z.eqb_refl in H. discriminate.
  - discriminate.
  - rewrite bytes_eqb_refl in H. cbn [negb] in H. rewrite <- !slice_26 in H0. rewrite H0, bytes_eqb_refl in H. cbn [negb] in H.
    destruct t; [|discriminate]. destruct (last_two d); discriminate.
Qed.

(* The only exception: a numeric SysEx with fewer than two data bytes, addressed to a template whose data has
   no address bytes either. *)
Lemma parse_against_raise t x r :
  parse_against t x r = Raise ->
  exists man d rd, t = Numeric /\ x = SysEx man d /\ r = Some (SysEx man rd)
                   /\ (length d < 2)%nat /\ (length rd <= 2)%nat.
Proof.
  unfold parse_against. destruct x as [c w|p|man d|st|st]; destruct r as [[c' w'|p'|man' d'|st'|st']|];
    try discriminate.
  - destruct (c =? c'); discriminate.
  - destruct (bytes_eqb man man') eqn:E1; cbn [negb]; [|discriminate].
    destruct (bytes_eqb (slice d 2 6) (slice d' 2 6)) eqn:E2; cbn [negb]; [|discriminate].
    destruct t; [|discriminate].
    destruct (last_two d) as [n|] eqn:E; [discriminate|]. intros _.
    apply last_two_raise in E. apply bytes_eqb_eq in E1. apply bytes_eqb_eq in E2. rewrite !slice_26 in E2.
    subst. exists man', d, d'. repeat split; auto.
    assert (skipn 2 d = []) as Hs by (apply skipn_all2; lia). rewrite Hs in E2. cbn in E2.
    destruct d' as [|a [|b [|c l]]]; cbn in *; try lia. discriminate.
Qed.

Lemma carries_fun t x v v' : carries t x v -> carries t x v' -> v = v'.
Proof.
  intros H1 H2. inv H1; inv H2; try reflexivity.
  - match goal with E : _ ++ _ = _ ++ _ |- _ => rename E into He end.
    apply (f_equal (@rev Z)) in He. rewrite !rev_app_distr in He. cbn in He. inv He. reflexivity.
  - match goal with E : _ ++ _ = _ ++ _ |- _ => rename E into He end.
    f_equal. apply (f_equal (skipn 6)) in He.
    rewrite !skipn_app in He.
    repeat match goal with E : length ?l = 6%nat |- _ => rewrite E, (skipn_all2 l) in He by lia; clear E end.
    cbn in He. apply app_inj_tail in He. destruct He; auto.
  - exfalso. match goal with E : (length (_ ++ _) <= _)%nat |- _ => rewrite !app_length in E; cbn in E; lia end.
  - exfalso. match goal with E : (length (_ ++ _) <= _)%nat |- _ => rewrite !app_length in E; cbn in E; lia end.
Qed.

Lemma same_but_value_with_val m v : same_but_value m (with_val m v).
Proof. repeat split. Qed.

Lemma plain_parse_exact m r x :
  two_part m = false -> response_t m = TOne r -> proper_template r ->
  (addressed x r ->
     exists v m', carries (typ m) x v /\ parse m x = Ok (m', true) /\ val m' = Some v /\ same_but_value m m') /\
  (~ addressed x r -> parse m x = Ok (m, false)).
Proof.
  intros Htp Hr Hp. unfold parse. rewrite Htp. unfold parse_plain. rewrite Hr.
  destruct (parse_against (typ m) x (Some r)) as [[v|]|] eqn:E.
  - apply parse_against_some in E. destruct E as [Ha Hc]. split; [|tauto].
    intros _. exists v, (with_val m (Some v)). split; auto. split; auto. split; auto.
    apply same_but_value_with_val.
  - apply parse_against_none in E. split; tauto.
  - exfalso. apply parse_against_raise in E. destruct E as (man & d & rd & _ & _ & He & _ & Hl).
    inv He. cbn in Hp. lia.
Qed.

Lemma nonmsg_response_never_parses m x :
  two_part m = false -> (forall r, response_t m <> TOne r) -> parse m x = Ok (m, false).
Proof.
  intros Htp Hr. unfold parse. rewrite Htp. unfold parse_plain.
  destruct (response_t m) as [|r|l]; [|exfalso; eapply Hr; reflexivity|];
    destruct x; reflexivity.
Qed.

(* ---- C01 ---- *)

Lemma set_nth_app_skip d1 d2 n x : length d1 = n -> set_nth n x (d1 ++ d2) = d1 ++ set_nth 0 x d2.
Proof.
  revert n. induction d1 as [|y d1 IH]; intros n Hn; cbn in Hn; subst n; [reflexivity|].
  cbn. rewrite IH; auto.
Qed.

(* The data after setting a value, for templates with 6 to 8 data bytes. *)
Lemma set_data d v : (6 <= length d <= 8)%nat ->
  set_nth 7 (v mod 128) (set_nth 6 (v / 128) (pad8 d)) = firstn 6 d ++ [v / 128; v mod 128].
Proof.
  intros H. unfold pad8.
  destruct d as [|a0 [|a1 [|a2 [|a3 [|a4 [|a5 [|a6 [|a7 [|a8 d]]]]]]]]]; cbn in H; try lia; reflexivity.
Qed.

Lemma set_value_sysex m man d v :
  typ m = Numeric -> set_t m = TOne (SysEx man d) -> (6 <= length d <= 8)%nat ->
  Forall (fun b => 0 <= b <= 255) d ->
  set_value m (One v) =
  if (0 <=? v) && (v <=? 32767)
  then (with_set m (TOne (SysEx man (firstn 6 d ++ [v / 128; v mod 128]))), true)
  else (m, false).
Proof.
  intros Ht Hs Hl Hb. unfold set_value. rewrite Hs, Ht. unfold set_value_one.
  rewrite (set_data d v Hl). rewrite forallb_app.
  assert (forallb is_byte (firstn 6 d) = true) as ->.
  { apply forallb_forall. intros b Hin.
    rewrite Forall_forall in Hb. unfold is_byte.
    assert (In b d) as Hd. { rewrite <- (firstn_skipn 6 d). apply in_or_app. auto. }
    specialize (Hb b Hd). lia. }
  cbn [andb forallb]. unfold is_byte.
  destruct ((0 <=? v) && (v <=? 32767)) eqn:E.
  - replace ((0 <=? v / 128) && (v / 128 <=? 255) && ((0 <=? v mod 128) && (v mod 128 <=? 255) && true))
      with true by lia. reflexivity.
  - replace ((0 <=? v / 128) && (v / 128 <=? 255) && ((0 <=? v mod 128) && (v mod 128 <=? 255) && true))
      with false by lia. reflexivity.
Qed.

Lemma round_trip m man d v :
  typ m = Numeric -> set_t m = TOne (SysEx man d) -> (6 <= length d <= 8)%nat ->
  Forall (fun b => 0 <= b <= 255) d -> 0 <= v <= 16383 ->
  exists hi lo m',
    set_value m (One v) = (m', true) /\ wire (set_t m') = [SysEx man (firstn 6 d ++ [hi; lo])] /\
    data_byte hi /\ data_byte lo /\
    (forall r rd, two_part r = false -> typ r = Numeric -> response_t r = TOne (SysEx man rd) ->
        firstn 4 (skipn 2 rd) = firstn 4 (skipn 2 d) ->
        exists r', parse r (SysEx man (firstn 6 d ++ [hi; lo])) = Ok (r', true)
                   /\ val r' = Some (VNum v) /\ same_but_value r r').
Proof.
  intros Ht Hs Hl Hb Hv. exists (v / 128), (v mod 128).
  eexists. split. { rewrite (set_value_sysex m man d v Ht Hs Hl Hb).
    replace ((0 <=? v) && (v <=? 32767)) with true by lia. reflexivity. }
  split; [reflexivity|]. unfold data_byte. split; [lia|]. split; [lia|].
  intros r rd H2 Ht' Hr Ha. unfold parse. rewrite H2. unfold parse_plain. rewrite Hr, Ht'.
  unfold parse_against. rewrite bytes_eqb_refl. cbn [negb].
  assert (slice (firstn 6 d ++ [v / 128; v mod 128]) 2 6 = slice rd 2 6) as ->.
  { rewrite (slice_26 rd), Ha.
    destruct d as [|a0 [|a1 [|a2 [|a3 [|a4 [|a5 d]]]]]]; cbn in Hl; try lia; reflexivity. }
  rewrite bytes_eqb_refl. cbn [negb]. rewrite last_two_app.
  replace (128 * (v / 128) + v mod 128) with v by lia.
  eexists. split; [reflexivity|]. split; [reflexivity|]. apply same_but_value_with_val.
Qed.

Lemma set_value_range m man d v :
  typ m = Numeric -> set_t m = TOne (SysEx man d) -> (6 <= length d <= 8)%nat ->
  Forall (fun b => 0 <= b <= 255) d ->
  (~ (0 <= v <= 32767) -> set_value m (One v) = (m, false)) /\
  (16384 <= v <= 32767 -> exists hi lo m', set_value m (One v) = (m', true) /\
     wire (set_t m') = [SysEx man (firstn 6 d ++ [hi; lo])] /\ ~ data_byte hi).
Proof.
  intros Ht Hs Hl Hb. rewrite (set_value_sysex m man d v Ht Hs Hl Hb). split; intros Hv.
  - replace ((0 <=? v) && (v <=? 32767)) with false by lia. reflexivity.
  - replace ((0 <=? v) && (v <=? 32767)) with true by lia.
    exists (v / 128), (v mod 128). eexists. split; [reflexivity|]. split; [reflexivity|].
    unfold data_byte. lia.
Qed.

(* ---- C03: two part streams ---- *)

(* Explicit form of parse for such a mapping. *)
Lemma rig_parse b m x : rig_like b m ->
  parse m x =
  match x with
  | CC c v => if c =? b then Ok (with_value_1 m (Some (VNum v)), true) else Ok (m, false)
  | PC p => match value_1 m with
            | None => Ok (m, false)
            | Some (VNum v1) => Ok (with_value_1 (with_val m (Some (VNum (128 * v1 + p)))) None, true)
            | Some (VStr _) => Raise
            end
  | _ => Ok (m, false)
  end.
Proof.
  intros (Htp & v0 & p0 & Hr). unfold parse. rewrite Htp. unfold parse_two. rewrite Hr.
  destruct x as [c v|p|man d|st|st]; cbn.
  - destruct (c =? b); reflexivity.
  - destruct (value_1 m) as [[n|s]|]; reflexivity.
  - reflexivity.
  - reflexivity.
  - reflexivity.
Qed.

Lemma pending_snoc_other b h x c :
  ~ is_bank b x -> ~ is_pc x -> (pending_bank b (h ++ [x]) c <-> pending_bank b h c).
Proof.
  intros Hb Hp. split.
  - intros (h1 & h2 & He & Hf).
    destruct (rev_ind_snoc (fun a => a = [] \/ exists a' z, a = a' ++ [z])
                (or_introl eq_refl) (fun l z _ => or_intror (ex_intro _ l (ex_intro _ z eq_refl))) h2)
      as [->|(a' & z & ->)].
    + apply app_inj_tail in He. destruct He as [_ ->]. exfalso. apply Hb. eexists; reflexivity.
    + rewrite app_comm_cons, app_assoc in He. apply app_inj_tail in He. destruct He as [-> <-].
      exists h1, a'. split; auto. apply Forall_app in Hf. tauto.
  - intros (h1 & h2 & -> & Hf). exists h1, (h2 ++ [x]). split.
    + rewrite <- app_assoc. reflexivity.
    + apply Forall_app. auto.
Qed.

Lemma pending_snoc_bank b h v c : pending_bank b (h ++ [CC b v]) c <-> c = v.
Proof.
  split.
  - intros (h1 & h2 & He & Hf).
    destruct (rev_ind_snoc (fun a => a = [] \/ exists a' z, a = a' ++ [z])
                (or_introl eq_refl) (fun l z _ => or_intror (ex_intro _ l (ex_intro _ z eq_refl))) h2)
      as [->|(a' & z & ->)].
    + apply app_inj_tail in He. destruct He as [_ E]. inv E. reflexivity.
    + rewrite app_comm_cons, app_assoc in He. apply app_inj_tail in He. destruct He as [_ <-].
      apply Forall_app in Hf. destruct Hf as [_ Hf]. inv Hf. exfalso. apply (proj1 H1). eexists; reflexivity.
  - intros ->. exists h, []. split; auto.
Qed.

Lemma pending_snoc_pc b h p c : ~ pending_bank b (h ++ [PC p]) c.
Proof.
  intros (h1 & h2 & He & Hf).
  destruct (rev_ind_snoc (fun a => a = [] \/ exists a' z, a = a' ++ [z])
              (or_introl eq_refl) (fun l z _ => or_intror (ex_intro _ l (ex_intro _ z eq_refl))) h2)
    as [->|(a' & z & ->)].
  - apply app_inj_tail in He. destruct He as [_ E]. discriminate.
  - rewrite app_comm_cons, app_assoc in He. apply app_inj_tail in He. destruct He as [_ <-].
    apply Forall_app in Hf. destruct Hf as [_ Hf]. inv Hf. apply (proj2 H1). eexists; reflexivity.
Qed.

Lemma feed_inv b m h m1 :
  rig_like b m -> value_1 m = None -> feed m h m1 ->
  rig_like b m1 /\
  (forall c, value_1 m1 = Some (VNum c) <-> pending_bank b h c) /\
  (forall s, value_1 m1 <> Some (VStr s)).
Proof.
  intros Hr H0 Hf. induction Hf as [m|m h m1 x m2 r Hf IH Hp].
  - split; auto. split; [|rewrite H0; discriminate].
    intros c. rewrite H0. split; [discriminate|]. intros (h1 & h2 & He & _). destruct h1; discriminate.
  - destruct (IH Hr H0) as (Hr1 & Hpend & Hstr). rewrite (rig_parse b m1 x Hr1) in Hp.
    destruct x as [c v|p|man d|st|st].
    + destruct (c =? b) eqn:E; inv Hp.
      * apply Z.eqb_eq in E. subst c. split; [destruct Hr1 as (A & B); split; auto|]. split.
        -- intros c. rewrite pending_snoc_bank. cbn. split; [intros E; inv E; auto | intros ->; auto].
        -- cbn. discriminate.
      * apply Z.eqb_neq in E. split; auto. split; auto.
        intros c0. rewrite pending_snoc_other; auto; intros (q & Hq); inv Hq. congruence.
    + destruct (value_1 m1) as [[v1|s]|] eqn:E1; try discriminate; inv Hp.
      * split; [destruct Hr1 as (A & B); split; auto|]. split; [|cbn; discriminate].
        intros c. cbn. split; [discriminate|]. intros H. apply pending_snoc_pc in H. tauto.
      * split; auto. split; [|rewrite E1; discriminate].
        intros c. rewrite E1. split; [discriminate|]. intros H. apply pending_snoc_pc in H. tauto.
    + inv Hp. split; auto. split; auto.
      intros c0. rewrite pending_snoc_other; auto; intros (q & Hq); inv Hq.
    + inv Hp. split; auto. split; auto.
      intros c0. rewrite pending_snoc_other; auto; intros (q & Hq); inv Hq.
    + inv Hp. split; auto. split; auto.
      intros c0. rewrite pending_snoc_other; auto; intros (q & Hq); inv Hq.
Qed.

Lemma feed_total b m h : rig_like b m -> value_1 m = None -> exists m1, feed m h m1.
Proof.
  intros Hr H0. induction h as [|h x IH] using rev_ind_snoc.
  - exists m. constructor.
  - destruct IH as (m1 & Hf). destruct (feed_inv b m h m1 Hr H0 Hf) as (Hr1 & _ & Hs).
    assert (exists m2 r, parse m1 x = Ok (m2, r)) as (m2 & r & Hp).
    { rewrite (rig_parse b m1 x Hr1). destruct x as [c v|p|man d|st|st]; eauto.
      - destruct (c =? b); eauto.
      - destruct (value_1 m1) as [[n|s]|] eqn:E; eauto. exfalso. eapply Hs; reflexivity. }
    exists m2. econstructor; eauto.
Qed.

(* What the next message does after any history. *)
Lemma two_part_step b m h m1 x :
  rig_like b m -> value_1 m = None -> feed m h m1 ->
  (forall c, pending_bank b h c -> result_finished m1 = false) /\
  ((forall c, ~ pending_bank b h c) -> result_finished m1 = true) /\
  match x with
  | PC p =>
      (forall c, pending_bank b h c ->
         exists m2, parse m1 x = Ok (m2, true) /\ val m2 = Some (VNum (128 * c + p)) /\ result_finished m2 = true) /\
      ((forall c, ~ pending_bank b h c) -> parse m1 x = Ok (m1, false))
  | CC c v =>
      (c = b -> exists m2, parse m1 x = Ok (m2, true) /\ val m2 = val m1 /\ result_finished m2 = false) /\
      (c <> b -> parse m1 x = Ok (m1, false))
  | _ => parse m1 x = Ok (m1, false)
  end.
Proof.
  intros Hr H0 Hf. destruct (feed_inv b m h m1 Hr H0 Hf) as (Hr1 & Hpend & Hs).
  assert (Hfin : result_finished m1 = match value_1 m1 with None => true | Some _ => false end).
  { unfold result_finished. destruct Hr1 as (-> & _). reflexivity. }
  split. { intros c Hc. apply Hpend in Hc. rewrite Hfin, Hc. reflexivity. }
  split. { intros Hn. rewrite Hfin. destruct (value_1 m1) as [[n|s]|] eqn:E; auto.
           - exfalso. apply (Hn n). apply Hpend. reflexivity.
           - exfalso. eapply Hs; reflexivity. }
  rewrite (rig_parse b m1 x Hr1). destruct x as [c v|p|man d|st|st]; auto.
  - split.
    + intros ->. rewrite Z.eqb_refl. eexists. split; [reflexivity|]. split; [reflexivity|].
      unfold result_finished. cbn. destruct Hr1 as (-> & _). reflexivity.
    + intros Hc. apply Z.eqb_neq in Hc. rewrite Hc. reflexivity.
  - split.
    + intros c Hc. apply Hpend in Hc. rewrite Hc. eexists. split; [reflexivity|]. split; [reflexivity|].
      unfold result_finished. cbn. destruct Hr1 as (-> & _). reflexivity.
    + intros Hn. destruct (value_1 m1) as [[n|s]|] eqn:E; auto.
      * exfalso. apply (Hn n). apply Hpend. reflexivity.
      * exfalso. eapply Hs; reflexivity.
Qed.

(* ---- C04: registry ---- *)

Lemma find_name_some n r i j : find_name n r i = Some j ->
  (i <= j)%nat /\ exists m, nth_error r (j - i) = Some m /\ name m = n.
Proof.
  revert i. induction r as [|m r IH]; intros i H; [discriminate|].
  cbn in H. destruct (String.eqb (name m) n) eqn:E.
  - inv H. split; auto. rewrite Nat.sub_diag. exists m. split; auto. apply String.eqb_eq; auto.
  - apply IH in H. destruct H as [Hle (m' & Hn & Hm)]. split; [lia|]. exists m'. split; auto.
    replace (j - i)%nat with (S (j - S i)) by lia. exact Hn.
Qed.

Lemma find_name_none n r i : find_name n r i = None -> forall m, In m r -> name m <> n.
Proof.
  revert i. induction r as [|m r IH]; intros i H m' Hin; [inv Hin|].
  cbn in H. destruct (String.eqb (name m) n) eqn:E; [discriminate|].
  apply String.eqb_neq in E. destruct Hin as [->|Hin]; auto. eapply IH; eauto.
Qed.

Definition names_unique (r : registry) : Prop := NoDup (map name r).

Lemma find_name_first n r i j m : names_unique r -> nth_error r j = Some m -> name m = n ->
  find_name n r i = Some (i + j)%nat.
Proof.
  unfold names_unique. revert i j. induction r as [|x r IH]; intros i j Hu Hn Hm; [destruct j; discriminate|].
  cbn in Hu. inv Hu. destruct j as [|j]; cbn in *.
  - inv Hn. rewrite String.eqb_refl. f_equal. lia.
  - destruct (String.eqb (name x) (name m)) eqn:E.
    + apply String.eqb_eq in E. exfalso. apply H1. rewrite E. apply in_map_iff. exists m. split; auto.
      eapply nth_error_In; eauto.
    + rewrite (IH (S i) j); auto. f_equal. lia.
Qed.

Lemma get_step_eq r a : get_step r a =
  if negb (g_two_part a) && String.eqb (g_name a) "" then (r, [(g_name a, None)])
  else match find_name (g_name a) r 0 with
       | Some i => (r, [(g_name a, Some i)])
       | None => (r ++ [new_mapping a], [(g_name a, Some (length r))])
       end.
Proof.
  unfold get_step, get. destruct (negb (g_two_part a) && String.eqb (g_name a) ""); auto.
  destruct (find_name (g_name a) r 0); auto.
Qed.

Lemma get_step_inv r a : names_unique r -> names_unique (fst (get_step r a)).
Proof.
  unfold get_step, get. destruct (negb (g_two_part a) && String.eqb (g_name a) ""); auto.
  destruct (find_name (g_name a) r 0) eqn:E; cbn; auto.
  intros Hu. unfold names_unique. rewrite map_app. cbn.
  apply NoDup_Add with (a := g_name a) (l := map name r).
  - clear. induction (map name r); cbn; constructor; auto.
  - split; auto. intros Hin. apply in_map_iff in Hin. destruct Hin as (m & Hm & Hin).
    eapply find_name_none in E; eauto.
Qed.

(* Objects never disappear or change, they are only appended. *)
Lemma run_get_prefix r ops : exists tail, fst (run get_step r ops) = r ++ tail.
Proof.
  induction ops as [|ops a IH] using rev_ind_snoc.
  - exists []. rewrite run_nil, app_nil_r. reflexivity.
  - rewrite run_snoc. cbn. destruct IH as (t & ->). unfold get_step, get.
    destruct (negb (g_two_part a) && String.eqb (g_name a) ""); cbn; [eauto|].
    destruct (find_name (g_name a) (r ++ t) 0); cbn; [eauto|].
    eexists. rewrite <- app_assoc. reflexivity.
Qed.

Lemma run_get_unique ops : names_unique (fst (run get_step [] ops)).
Proof.
  induction ops as [|ops a IH] using rev_ind_snoc.
  - rewrite run_nil. constructor.
  - rewrite run_snoc. cbn. apply get_step_inv. exact IH.
Qed.

(* Each answer: the object at the returned index has the requested name, and it is still there, unchanged,
   after any later requests. *)
Lemma run_get_answers ops n i :
  In (n, Some i) (snd (run get_step [] ops)) ->
  exists m, nth_error (fst (run get_step [] ops)) i = Some m /\ name m = n.
Proof.
  induction ops as [|ops a IH] using rev_ind_snoc; [rewrite run_nil; intros []|].
  rewrite run_snoc. cbn [fst snd]. rewrite in_app_iff. intros [Hin|Hin].
  - destruct (IH Hin) as (m & Hn & Hm). exists m. split; auto.
    destruct (run_get_prefix (fst (run get_step [] ops)) [a]) as (t & Ht).
    rewrite run_cons in Ht. cbn [fst] in Ht. rewrite run_nil in Ht. cbn [fst] in Ht. rewrite Ht.
    rewrite nth_error_app1; auto. apply nth_error_Some. congruence.
  - set (r := fst (run get_step [] ops)) in *. rewrite (get_step_eq r a) in *.
    destruct (negb (g_two_part a) && String.eqb (g_name a) ""); cbn [fst snd] in *.
    + destruct Hin as [E|[]]. inv E.
    + destruct (find_name (g_name a) r 0) as [j|] eqn:E; cbn [fst snd] in *; destruct Hin as [E'|[]]; inv E'.
      * apply find_name_some in E. destruct E as (_ & m & Hn & Hm). rewrite Nat.sub_0_r in Hn. eauto.
      * exists (new_mapping a). split; [|reflexivity].
        rewrite nth_error_app2, Nat.sub_diag; auto.
Qed.

Lemma nth_error_name_unique r i j m m' :
  names_unique r -> nth_error r i = Some m -> nth_error r j = Some m' -> name m = name m' -> i = j.
Proof.
  intros Hu Hi Hj He.
  pose proof (find_name_first (name m) r 0 i m Hu Hi eq_refl) as A.
  pose proof (find_name_first (name m) r 0 j m' Hu Hj (eq_sym He)) as B. rewrite A in B. inv B. auto.
Qed.

Lemma run_get_same ops n i n' j :
  In (n, Some i) (snd (run get_step [] ops)) -> In (n', Some j) (snd (run get_step [] ops)) ->
  (n = n' <-> i = j).
Proof.
  intros Hi Hj. apply run_get_answers in Hi. apply run_get_answers in Hj.
  destruct Hi as (m & Hi & <-). destruct Hj as (m' & Hj & <-). split.
  - intros He. eapply nth_error_name_unique; eauto. apply run_get_unique.
  - intros ->. congruence.
Qed.

Lemma run_get_stable ops more i m :
  nth_error (fst (run get_step [] ops)) i = Some m ->
  nth_error (fst (run get_step [] (ops ++ more))) i = Some m.
Proof.
  intros H. rewrite run_app. cbn [fst].
  destruct (run_get_prefix (fst (run get_step [] ops)) more) as (t & ->).
  rewrite nth_error_app1; auto. apply nth_error_Some. congruence.
Qed.

Lemma run_get_first ops a :
  (forall i, ~ In (g_name a, Some i) (snd (run get_step [] ops))) ->
  (g_two_part a = true \/ g_name a <> ""%string) ->
  exists i, snd (run get_step [] (ops ++ [a])) = snd (run get_step [] ops) ++ [(g_name a, Some i)] /\
            nth_error (fst (run get_step [] (ops ++ [a]))) i = Some (new_mapping a).
Proof.
  intros Hno Hok. rewrite run_snoc. cbn [fst snd]. rewrite get_step_eq.
  replace (negb (g_two_part a) && String.eqb (g_name a) "") with false.
  2:{ symmetry. apply andb_false_iff. destruct Hok as [->|Hn]; [left; auto|right; apply String.eqb_neq; auto]. }
  set (r := fst (run get_step [] ops)).
  destruct (find_name (g_name a) r 0) as [j|] eqn:E.
  - exfalso.
    (* an object with that name exists, so it was handed out when it was created *)
    apply find_name_some in E. destruct E as (_ & m & Hn & Hm). rewrite Nat.sub_0_r in Hn.
    assert (forall ops k m, nth_error (fst (run get_step [] ops)) k = Some m ->
                            In (name m, Some k) (snd (run get_step [] ops))) as Hall.
    { clear. intros ops. induction ops as [|ops a IH] using rev_ind_snoc; intros k m Hk.
      - rewrite run_nil in Hk. destruct k; discriminate.
      - rewrite run_snoc in *. cbn [fst snd] in *. apply in_or_app.
        set (r := fst (run get_step [] ops)) in *. rewrite (get_step_eq r a) in *.
        destruct (negb (g_two_part a) && String.eqb (g_name a) ""); cbn [fst snd] in *; [left; auto|].
        destruct (find_name (g_name a) r 0) as [j|] eqn:E; cbn [fst snd] in *; [left; auto|].
        destruct (Nat.lt_ge_cases k (length r)) as [Hlt|Hge].
        + left. apply IH. rewrite nth_error_app1 in Hk; auto.
        + right. rewrite nth_error_app2 in Hk; auto.
          destruct (k - length r)%nat as [|q] eqn:Ek; cbn in Hk; [|destruct q; discriminate].
          inv Hk. left. cbn. f_equal. f_equal. lia. }
    apply Hall in Hn. rewrite Hm in Hn. eapply Hno; eauto.
  - exists (length r). cbn. split; auto. rewrite nth_error_app2, Nat.sub_diag; auto.
Qed.
