From Verif.Lib Require Import Base.
From Verif.Model Require Import Midi Label.
From Verif.Spec Require Import Label.
From Verif.Proofs Require Import Label.
From Coq Require Import String Ascii DecimalString DecimalZ DecimalPos.
Local Open Scope Z_scope.
Local Open Scope list_scope.

Lemma rrun_snoc_ok w c h o : forall s s2 e, rrun w c s (h ++ [o]) = Ok (s2, e) <->
  exists s1 e1 e2, rrun w c s h = Ok (s1, e1) /\ rstep w c s1 o = Ok (s2, e2) /\ e = e1 ++ e2.
Proof.
  induction h as [|x h IH]; intros s s2 e; cbn [app rrun].
  - split.
    + destruct (rstep w c s o) as [[s1 e1]|] eqn:E; [|discriminate]. intros H. injection H as <- <-. exists s, [], e1. rewrite app_nil_r. auto.
    + intros (s1 & e1 & e2 & H1 & H2 & ->). injection H1 as <- <-. rewrite H2. rewrite app_nil_r. reflexivity.
  - destruct (rstep w c s x) as [[s1 e1]|] eqn:E.
    + split.
      * destruct (rrun w c s1 (h ++ [o])) as [[s3 e3]|] eqn:E3; [|discriminate]. intros H. injection H as <- <-.
        apply IH in E3. destruct E3 as (s4 & e4 & e5 & K1 & K2 & ->). rewrite K1. exists s4, (e1 ++ e4), e5. rewrite app_assoc. auto.
      * intros (s4 & e4 & e5 & K1 & K2 & ->). destruct (rrun w c s1 h) as [[s3 e3]|] eqn:E3; [|discriminate]. injection K1 as -> <-.
        rewrite (proj2 (IH s1 s2 (e3 ++ e5))); [rewrite app_assoc; reflexivity|]. exists s4, e3, e5. auto.
    + split; [discriminate|intros (? & ? & ? & ? & _); discriminate].
Qed.

Lemma name_of_app a b d : name_of (a ++ b) d = name_of b (name_of a d).
Proof. revert d. induction a as [|x a IH]; intros d; cbn; [reflexivity|]. destruct x; apply IH. Qed.
Lemma id_of_app a b d : id_of (a ++ b) d = id_of b (id_of a d).
Proof. revert d. induction a as [|x a IH]; intros d; cbn; [reflexivity|]. destruct x; apply IH. Qed.
Lemma pre_of_app a b d : pre_of (a ++ b) d = pre_of b (pre_of a d).
Proof. revert d. induction a as [|x a IH]; intros d; cbn; [reflexivity|]. destruct x; apply IH. Qed.

(* the texts *)
Lemma rig_text_spec c s : match r_id s with Some v => 0 <= v | None => True end ->
  rig_text c s = match r_pre s with
                 | Some b => Some (bank_label b)
                 | None => match id_parts (rc_id c) (r_id s) ++ name_parts c (r_name s) with [] => None | _ => Some (rig_label c (r_name s) (r_id s)) end
                 end.
Proof.
  intros HV. unfold rig_text, rig_label. destruct (r_pre s) as [b|]; [reflexivity|].
  assert (HQ : forall v, 0 <= v -> Z.quot v num_rigs_per_bank + 1 = 1 + v / 5) by (intros v Hv; unfold num_rigs_per_bank; rewrite Z.quot_div_nonneg; lia).
  assert (HM : forall v, v mod num_rigs_per_bank + 1 = 1 + v mod 5) by (intros v; unfold num_rigs_per_bank; lia).
  assert (HN : match r_name s with Some n => if String.eqb n "" then rc_default c else n | None => rc_default c end =
               match r_name s with None | Some EmptyString => rc_default c | Some x => x end) by (destruct (r_name s) as [[|a n]|]; reflexivity).
  rewrite HN. unfold name_parts, id_parts. destruct (r_id s) as [v|].
  - rewrite (HQ v HV), (HM v). destruct (rc_id c), (rc_name c); cbn [app String.concat]; reflexivity.
  - destruct (rc_id c), (rc_name c); cbn [app String.concat]; reflexivity.
Qed.

(* Invariant of a label used by this callback only. *)
Record rinv (w : string -> string) (c : rconf) (h : list rop) (s : rlabel) (e : list dev) : Prop := {
  ri_sync : synced w (r_lab s) (screen_of e);
  ri_over : l_over (r_lab s) = ""%string;
  ri_low : l_low (r_lab s) = false;
  ri_on : l_on (r_lab s) = true <-> In (RLabel LInit) h;
  ri_name : rc_name c = true -> r_name s = name_of h None;
  ri_id : rc_id c <> IdOff -> r_id s = id_of h None;
  ri_id0 : rc_id c = IdOff -> r_id s = None;
  ri_pre : r_pre s = pre_of h None }.

Lemma own_app a b : own (a ++ b) <-> own a /\ own b.
Proof.
  unfold own. split.
  - intros H. split; intros o Ho; apply H; apply in_or_app; auto.
  - intros [H1 H2] o Ho. apply in_app_or in Ho. destruct Ho; auto.
Qed.

(* A notification: the text is written. *)
Lemma rnotify_inv w c s s' e : l_over (r_lab s) = ""%string -> l_low (r_lab s) = false -> rnotify w c s = (s', e) ->
  exists l', s' = mkRl l' (r_name s) (r_id s) (r_pre s) (r_seen s) /\
    l_over l' = ""%string /\ l_low l' = false /\ l_on l' = l_on (r_lab s) /\
    (forall sc, synced w (r_lab s) sc -> synced w l' (fold_left draw e sc)) /\
    l_text l' = (if l_on (r_lab s) then match rig_text c s with Some t => t | None => l_text (r_lab s) end else l_text (r_lab s)).
Proof.
  intros H1 H2 H. unfold rnotify in H. destruct (l_on (r_lab s)) eqn:EO.
  - unfold update_label in H. rewrite H1 in H. cbn [String.eqb negb] in H. destruct (rig_text c s) as [t|].
    + destruct (set_text w (r_lab s) t) as [l1 e1] eqn:ES. injection H as <- <-. exists l1. split; [reflexivity|].
      pose proof (fun sc (Y : synced w (r_lab s) sc) => synced_text _ _ _ _ _ _ Y ES) as Y.
      apply set_text_inv in ES. cbv zeta in ES. rewrite H2, andb_false_r in ES. destruct ES as (-> & _). cbn in *. auto 6.
    + injection H as <- <-. exists (r_lab s). cbn. auto 6.
  - injection H as <- <-. exists (r_lab s). destruct s; cbn in *. auto 7.
Qed.

Lemma rinv_step w c h s e o s' e' : own (h ++ [o]) -> rinv w c h s e -> rstep w c s o = Ok (s', e') -> rinv w c (h ++ [o]) s' (e ++ e').
Proof.
  intros HO [I1 I2 I3 I4 I5 I6 I7 I8] H. apply own_app in HO. destruct HO as [_ HO].
  assert (IN : forall h o, o <> RLabel LInit -> (In (RLabel LInit) (h ++ [o]) <-> In (RLabel LInit) h)).
  { intros h0 o0 N. rewrite in_app_iff. cbn. split; [intros [K|[K|[]]]; [exact K|contradiction]|auto]. }
  destruct o as [v|v|b| |o]; cbn [rstep] in H.
  - destruct (rc_name c) eqn:EN.
    + injection H as H. apply rnotify_inv in H; [|exact I2|exact I3]. destruct H as (l' & -> & J1 & J2 & J3 & J4 & _). cbn in *.
      split; cbn [r_lab r_name r_id r_pre]; rewrite ?name_of_app, ?id_of_app, ?pre_of_app, ?draw_app; auto.
      rewrite IN, J3 by discriminate. exact I4.
    + injection H as <- <-. rewrite app_nil_r. split; rewrite ?name_of_app, ?id_of_app, ?pre_of_app; auto; try (rewrite IN by discriminate; exact I4); congruence.
  - unfold registered_id in H. destruct (rc_id c) eqn:EN.
    { injection H as <- <-. rewrite app_nil_r. split; rewrite ?name_of_app, ?id_of_app, ?pre_of_app; auto; try (rewrite IN by discriminate; exact I4); congruence. }
    all: injection H as H; apply rnotify_inv in H; [|exact I2|exact I3]; destruct H as (l' & -> & J1 & J2 & J3 & J4 & _); cbn in *;
      split; cbn [r_lab r_name r_id r_pre]; rewrite ?name_of_app, ?id_of_app, ?pre_of_app, ?draw_app; auto; try (rewrite IN, J3 by discriminate; exact I4); congruence.
  - injection H as <- <-. rewrite app_nil_r. split; cbn [r_lab r_name r_id r_pre]; rewrite ?name_of_app, ?id_of_app, ?pre_of_app; auto. rewrite IN by discriminate; exact I4.
  - assert (K : exists l', r_lab s' = l' /\ r_name s' = r_name s /\ r_id s' = r_id s /\ r_pre s' = r_pre s /\
        l_over l' = ""%string /\ l_low l' = false /\ l_on l' = l_on (r_lab s) /\ synced w l' (fold_left draw e' (screen_of e))).
    { injection H as H. destruct (l_on (r_lab s)) eqn:EO; [|injection H as <- <-; exists (r_lab s); auto 10].
      rewrite <- EO in *. unfold rupdate in H. destruct (r_pre s) as [b|] eqn:EP.
      - match type of H with (if ?x then _ else _) = _ => destruct x end; [injection H as <- <-; exists (r_lab s); auto 10|].
        assert (KN : forall s1 e1, rnotify w c (mkRl (r_lab s) (r_name s) (r_id s) (Some b) (Some b)) = (s1, e1) ->
          exists l', r_lab s1 = l' /\ r_name s1 = r_name s /\ r_id s1 = r_id s /\ r_pre s1 = Some b /\
           l_over l' = ""%string /\ l_low l' = false /\ l_on l' = l_on (r_lab s) /\ synced w l' (fold_left draw e1 (screen_of e))).
        { intros s1 e1 K. apply rnotify_inv in K; [|exact I2|exact I3]. destruct K as (l' & -> & J1 & J2 & J3 & J4 & _). cbn in *. exists l'. auto 10. }
        destruct (rc_name c); [apply KN; exact H|]. destruct (rc_id c); try (apply KN; exact H).
        injection H as <- <-. exists (r_lab s). cbn. auto 10.
      - injection H as <- <-. exists (r_lab s). cbn. auto 10. }
    destruct K as (l' & <- & K1 & K2 & K3 & K4 & K5 & K6 & K7).
    split; rewrite ?name_of_app, ?id_of_app, ?pre_of_app, ?draw_app, ?K1, ?K2, ?K3; auto. rewrite IN, K6 by discriminate. exact I4.
  - assert (EO : o = LInit) by (apply HO; left; reflexivity). subst o.
    destruct (lstep w (r_lab s) LInit) as [[l' e1]|] eqn:E; [|discriminate]. injection H as <- <-.
    pose proof (step_attrs _ _ _ _ _ E) as (_ & B2 & B3 & B4 & _). pose proof (synced_step _ _ _ _ _ _ I1 E) as Y. cbn in B2, B3, B4.
    split; cbn [r_lab r_name r_id r_pre]; rewrite ?name_of_app, ?id_of_app, ?pre_of_app, ?draw_app; auto; [congruence|congruence|].
    rewrite B4, in_app_iff. cbn. split; auto.
Qed.

Lemma rinv_init w c t0 c0 b0 : rinv w c [] (new_rl (new_label t0 c0 b0)) [].
Proof. split; cbn; auto; try reflexivity. split; [discriminate|intros []]. Qed.
Lemma rinv_run w c t0 c0 b0 h s e : own h -> rrun w c (new_rl (new_label t0 c0 b0)) h = Ok (s, e) -> rinv w c h s e.
Proof.
  revert s e. induction h as [|h o IH] using rev_ind_snoc; intros s e HO H.
  - injection H as <- <-. apply rinv_init.
  - apply rrun_snoc_ok in H. destruct H as (s1 & e1 & e2 & H1 & H2 & ->). eapply rinv_step; [exact HO| |exact H2]. apply IH; [|exact H1]. apply own_app in HO. tauto.
Qed.

Lemma id_of_valid h : ids_valid h -> forall d, match d with Some v => 0 <= v | None => True end -> match id_of h d with Some v => 0 <= v | None => True end.
Proof.
  induction h as [|o h IH]; intros HV d Hd; cbn; [exact Hd|].
  assert (HV1 : ids_valid h) by (intros v Hv; apply HV; right; exact Hv).
  destruct o; apply IH; auto. destruct v as [v|]; [|exact I]. apply HV. left. reflexivity.
Qed.

(* what there is to show is never nothing when a name is to be shown or an id is known *)
Definition showable (c : rconf) (h : list rop) : Prop := rc_name c = true \/ pre_of h None <> None \/ (rc_id c <> IdOff /\ id_of h None <> None).
Lemma rig_text_shown w c h s e : rinv w c h s e -> ids_valid h -> showable c h -> rig_text c s = Some (to_show c h).
Proof.
  intros [_ _ _ _ I5 I6 I7 I8] HV HS.
  assert (HId : match r_id s with Some v => 0 <= v | None => True end).
  { destruct (rc_id c) eqn:E; [rewrite (I7 eq_refl); exact I|..]; (rewrite I6 by congruence; apply id_of_valid; [exact HV|exact I]). }
  rewrite (rig_text_spec c s HId), I8. unfold to_show. destruct (pre_of h None) as [b|] eqn:EP; [reflexivity|].
  assert (EL : rig_label c (r_name s) (r_id s) = rig_label c (name_of h None) (id_of h None) /\
               id_parts (rc_id c) (r_id s) ++ name_parts c (r_name s) <> []).
  { unfold rig_label, name_parts, id_parts. split.
    - destruct (rc_name c) eqn:EN; [rewrite (I5 eq_refl)|]; destruct (rc_id c) eqn:EI; try reflexivity; rewrite I6 by congruence; reflexivity.
    - destruct HS as [HS|[HS|[HS1 HS2]]]; [|congruence|].
      + rewrite HS. destruct (match rc_id c with IdOff => _ | _ => _ end); discriminate.
      + rewrite I6 by exact HS1. destruct (id_of h None) as [v|]; [|congruence]. destruct (rc_id c); [congruence|discriminate..]. }
  destruct EL as [-> EL]. destruct (id_parts (rc_id c) (r_id s) ++ name_parts c (r_name s)); [congruence|reflexivity].
Qed.

Lemma screen_text_sync w l ds : synced w l (screen_of ds) -> l_on l = true -> screen_text ds = Some (wraps w (l_text l)).
Proof. unfold synced, screen_text. intros H HO. rewrite HO in H. destruct H as [-> _]. reflexivity. Qed.

(* A notification of an initialised label shows what there is to show. *)
Lemma notified w c h s e s1 e1 : rinv w c h s e -> ids_valid h -> showable c h -> l_on (r_lab s) = true -> rnotify w c s = (s1, e1) ->
  l_text (r_lab s1) = to_show c h.
Proof.
  intros HI HV HS HO H. pose proof (rig_text_shown _ _ _ _ _ HI HV HS) as ET. apply rnotify_inv in H; [|apply HI|apply HI].
  destruct H as (l' & -> & _ & _ & _ & _ & HT). cbn. rewrite HO, ET in HT. exact HT.
Qed.

(* one step: the text after an answer *)
Lemma answer_step w c h s e o s' e' : own (h ++ [o]) -> ids_valid (h ++ [o]) -> rinv w c h s e -> l_on (r_lab s) = true -> answers c o -> showable c (h ++ [o]) ->
  rstep w c s o = Ok (s', e') -> l_text (r_lab s') = to_show c (h ++ [o]).
Proof.
  intros HO HV HI HON HA HS H. pose proof (rinv_step _ _ _ _ _ _ _ _ HO HI H) as HI'.
  assert (K : exists s1, rnotify w c s1 = (s', e') /\ l_on (r_lab s1) = true /\ rig_text c s1 = rig_text c s' /\ l_over (r_lab s1) = ""%string /\ l_low (r_lab s1) = false).
  { destruct o as [v|v|b| |o]; cbn [rstep answers] in *; try contradiction.
    - rewrite HA in H. injection H as H. eexists. split; [exact H|]. split; [exact HON|]. apply rnotify_inv in H; [|apply HI|apply HI].
      destruct H as (l' & -> & _). split; [reflexivity|]. split; apply HI.
    - assert (ER : registered_id c = true) by (unfold registered_id; destruct (rc_id c); congruence). rewrite ER in H. injection H as H.
      eexists. split; [exact H|]. split; [exact HON|]. apply rnotify_inv in H; [|apply HI|apply HI].
      destruct H as (l' & -> & _). split; [reflexivity|]. split; apply HI. }
  destruct K as (s1 & K & K1 & K2 & K3 & K4). apply rnotify_inv in K; [|exact K3|exact K4]. destruct K as (l' & E & _ & _ & _ & _ & HT).
  rewrite K1, K2, (rig_text_shown _ _ _ _ _ HI' HV HS) in HT. rewrite E. exact HT.
Qed.

(* a step that is neither an answer nor a change of the preselection leaves the text, or shows what there is to show *)
Lemma quiet_step w c h s e o s' e' : own (h ++ [o]) -> ids_valid (h ++ [o]) -> rinv w c h s e -> l_on (r_lab s) = true -> ~ answers c o -> (forall b, o <> RShared b) ->
  rstep w c s o = Ok (s', e') -> l_text (r_lab s') = l_text (r_lab s) \/ l_text (r_lab s') = to_show c (h ++ [o]).
Proof.
  intros HO HV HI HON HA HB H. destruct o as [v|v|b| |o]; cbn [rstep answers] in *.
  - destruct (rc_name c); [tauto|]. injection H as <- <-. auto.
  - unfold registered_id in H. destruct (rc_id c); [injection H as <- <-; auto|exfalso; apply HA; discriminate..].
  - exfalso. apply (HB b). reflexivity.
  - rewrite HON in H. injection H as H. unfold rupdate in H. destruct (r_pre s) as [b|] eqn:EP.
    + match type of H with (if ?x then _ else _) = _ => destruct x end; [injection H as <- <-; auto|].
      assert (KN : forall s1 e1, rnotify w c (mkRl (r_lab s) (r_name s) (r_id s) (Some b) (Some b)) = (s1, e1) -> l_text (r_lab s1) = to_show c (h ++ [RUpdate])).
      { intros s1 e1 K. assert (HV0 : ids_valid h) by (intros v Hv; apply HV; apply in_or_app; auto).
        assert (EQ : to_show c (h ++ [RUpdate]) = to_show c h) by (unfold to_show; rewrite name_of_app, id_of_app, pre_of_app; reflexivity). rewrite EQ.
        eapply notified; [| | | |exact K]; [|exact HV0| |exact HON].
        - destruct HI as [J1 J2 J3 J4 J5 J6 J7 J8]. split; cbn; auto. exact J1. congruence.
        - right. left. rewrite <- (ri_pre _ _ _ _ _ HI), EP. discriminate. }
      destruct (rc_name c); [right; eapply KN; exact H|]. destruct (rc_id c); try (right; eapply KN; exact H). injection H as <- <-. auto.
    + injection H as <- <-. auto.
  - assert (EO : o = LInit) by (apply HO; apply in_or_app; right; left; reflexivity). subst o.
    cbn [lstep] in H. unfold label_init in H. rewrite HON in H. injection H as <- <-. auto.
Qed.

Lemma to_show_quiet c h o : ~ answers c o -> (forall b, o <> RShared b) -> to_show c (h ++ [o]) = to_show c h.
Proof.
  intros HA HB. unfold to_show. rewrite name_of_app, id_of_app, pre_of_app. destruct o as [v|v|b| |o]; cbn in *; try reflexivity.
  - unfold rig_label, name_parts. destruct (rc_name c); [tauto|]. reflexivity.
  - unfold rig_label, id_parts. destruct (rc_id c); [reflexivity|exfalso; apply HA; discriminate..].
  - exfalso. apply (HB b). reflexivity.
Qed.

Lemma classic_answers c o : answers c o \/ ~ answers c o.
Proof. destruct o; cbn; auto; [destruct (rc_name c); auto|destruct (rc_id c); [right; congruence|left; discriminate..]]. Qed.

Definition never_unknown (c : rconf) (h : list rop) : Prop := rc_name c = true \/ (forall v, In (RId v) h -> v <> None).

Lemma showable_answer c h o : answers c o -> (rc_name c = true \/ o <> RId None) -> showable c (h ++ [o]).
Proof.
  intros HA HK. unfold showable. rewrite id_of_app. destruct o as [v|v|b| |o]; cbn in *; try contradiction; auto.
  destruct HK as [HK|HK]; [auto|]. right. right. split; [exact HA|congruence].
Qed.

(* After an answer the label is right as long as the preselection does not change. *)
Lemma shows_run w c h1 o h2 s0 e0 : own (h1 ++ o :: h2) -> ids_valid (h1 ++ o :: h2) -> rinv w c h1 s0 e0 -> In (RLabel LInit) h1 -> answers c o ->
  never_unknown c (o :: h2) -> (forall b, ~ In (RShared b) h2) ->
  forall s e, rrun w c s0 (o :: h2) = Ok (s, e) -> rinv w c (h1 ++ o :: h2) s (e0 ++ e) /\ l_on (r_lab s) = true /\ l_text (r_lab s) = to_show c (h1 ++ o :: h2).
Proof.
  intros HO HV HI HON HA HK HB.
  assert (ON : l_on (r_lab s0) = true) by (apply (ri_on _ _ _ _ _ HI); exact HON).
  induction h2 as [|h2 x IH] using rev_ind_snoc; intros s e H.
  - change [o] with ([] ++ [o]) in H. apply rrun_snoc_ok in H. destruct H as (s1 & e1 & e2 & H1 & H2 & ->). injection H1 as <- <-. cbn [app].
    split; [eapply rinv_step; eauto|]. split.
    + apply (ri_on w c (h1 ++ [o]) s (e0 ++ e2)); [eapply rinv_step; eauto|apply in_or_app; auto].
    + eapply answer_step; try exact H2; eauto. apply showable_answer; [exact HA|]. destruct HK as [HK|HK]; [auto|right]. intros ->. apply (HK None); [left; reflexivity|reflexivity].
  - change (o :: h2 ++ [x]) with ((o :: h2) ++ [x]) in *. apply rrun_snoc_ok in H. destruct H as (s1 & e1 & e2 & H1 & H2 & ->).
    rewrite (app_assoc h1) in *. 
    assert (HO1 : own (h1 ++ o :: h2)) by (apply own_app in HO; tauto).
    assert (HV1 : ids_valid (h1 ++ o :: h2)) by (intros v Hv; apply HV; apply in_or_app; auto).
    assert (HK1 : never_unknown c (o :: h2)) by (destruct HK as [HK|HK]; [left; exact HK|right; intros v Hv; apply HK; apply in_or_app; auto]).
    assert (HB1 : forall b, ~ In (RShared b) h2) by (intros b Hb; apply (HB b); apply in_or_app; auto).
    destruct (IH HO1 HV1 HK1 HB1 _ _ H1) as (I1 & I2 & I3).
    pose proof (rinv_step _ _ _ _ _ _ _ _ HO I1 H2) as I1'. rewrite <- (app_assoc e0) in I1'.
    split; [exact I1'|]. split; [apply (ri_on _ _ _ _ _ I1'); rewrite in_app_iff, in_app_iff; auto|].
    assert (HNB : forall b, x <> RShared b) by (intros b ->; apply (HB b); apply in_or_app; right; left; reflexivity).
    destruct (classic_answers c x) as [AX|AX].
    + eapply answer_step; try exact H2; eauto. apply showable_answer; [exact AX|]. destruct HK as [HK|HK]; [auto|right].
      intros ->. apply (HK None); [apply in_or_app; right; left; reflexivity|reflexivity].
    + destruct (quiet_step _ _ _ _ _ _ _ _ HO HV I1 I2 AX HNB H2) as [E|E]; rewrite E; [|reflexivity]. rewrite I3. symmetry. apply to_show_quiet; assumption.
Qed.

Lemma rrun_app_ok w c h1 h2 : forall s s2 e, rrun w c s (h1 ++ h2) = Ok (s2, e) -> exists s1 e1 e2, rrun w c s h1 = Ok (s1, e1) /\ rrun w c s1 h2 = Ok (s2, e2) /\ e = e1 ++ e2.
Proof.
  induction h1 as [|o h1 IH]; intros l l2 e H.
  - exists l, [], e. auto.
  - cbn [app rrun] in *. destruct (rstep w c l o) as [[l1 e1]|] eqn:E; [|discriminate]. destruct (rrun w c l1 (h1 ++ h2)) as [[l3 e3]|] eqn:E3; [|discriminate].
    injection H as <- <-. destruct (IH _ _ _ E3) as (l4 & e4 & e5 & K1 & K2 & ->). rewrite K1. exists l4, (e1 ++ e4), e5. rewrite app_assoc. auto.
Qed.

Lemma label_right w c t0 c0 b0 h1 o h2 s e : own (h1 ++ o :: h2) -> ids_valid (h1 ++ o :: h2) -> In (RLabel LInit) h1 -> answers c o ->
  (rc_name c = true \/ (forall v, In (RId v) (o :: h2) -> v <> None)) -> (forall b, ~ In (RShared b) h2) ->
  rrun w c (new_rl (new_label t0 c0 b0)) (h1 ++ o :: h2) = Ok (s, e) -> screen_text e = Some (wraps w (to_show c (h1 ++ o :: h2))).
Proof.
  intros HO HV HON HA HK HB H. apply rrun_app_ok in H. destruct H as (s1 & e1 & e2 & H1 & H2 & ->).
  assert (HO1 : own h1) by (apply own_app in HO; tauto).
  destruct (shows_run _ _ _ _ _ _ _ HO HV (rinv_run _ _ _ _ _ _ _ _ HO1 H1) HON HA HK HB _ _ H2) as (I1 & I2 & I3).
  rewrite (screen_text_sync w (r_lab s) (e1 ++ e2)), I3; [reflexivity|apply I1|exact I2].
Qed.

(* --- preselection --- *)

(* what the callback remembers: the preselection at the last update *)
Lemma seen_run w c t0 c0 b0 h s e : own h -> rrun w c (new_rl (new_label t0 c0 b0)) h = Ok (s, e) ->
  forall p, r_seen s = p -> p <> None -> at_last_update h p.
Proof.
  revert s e. induction h as [|h o IH] using rev_ind_snoc; intros s e HO H p HP HN.
  - injection H as <- <-. cbn in HP. congruence.
  - apply rrun_snoc_ok in H. destruct H as (s1 & e1 & e2 & H1 & H2 & ->). apply own_app in HO. destruct HO as [HO HOo].
    pose proof (rinv_run _ _ _ _ _ _ _ _ HO H1) as HI.
    assert (KEEP : o <> RUpdate -> r_seen s1 = p -> at_last_update (h ++ [o]) p).
    { intros NO ES. destruct (IH _ _ HO H1 p ES HN) as (k1 & k2 & -> & K1 & K2 & K3). exists k1, (k2 ++ [o]). rewrite <- app_assoc. split; [reflexivity|].
      split; [|auto]. rewrite in_app_iff. intros [K|[K|[]]]; [exact (K1 K)|congruence]. }
    assert (RN : forall s0 s' e', rnotify w c s0 = (s', e') -> r_seen s' = r_seen s0).
    { intros s0 s' e' K. unfold rnotify in K. destruct (l_on (r_lab s0)); [|injection K as <- _; reflexivity].
      destruct (update_label w (r_lab s0) (rig_text c s0)). injection K as <- _. reflexivity. }
    destruct o as [v|v|b| |o]; cbn [rstep] in H2.
    + apply KEEP; [discriminate|]. destruct (rc_name c); [|injection H2 as <- _; exact HP]. injection H2 as H2. apply RN in H2. cbn in H2. congruence.
    + apply KEEP; [discriminate|]. destruct (registered_id c); [|injection H2 as <- _; exact HP]. injection H2 as H2. apply RN in H2. cbn in H2. congruence.
    + apply KEEP; [discriminate|]. injection H2 as <- _. exact HP.
    + destruct (l_on (r_lab s1)) eqn:EO.
      * assert (ES : r_seen s = r_pre s1).
        { injection H2 as H2. unfold rupdate in H2. destruct (r_pre s1) as [b|] eqn:EP; [|injection H2 as <- _; reflexivity].
          destruct (r_seen s1) as [x|] eqn:EX.
          - destruct (x =? b) eqn:EXB; [injection H2 as <- _; apply Z.eqb_eq in EXB; congruence|].
            destruct (rc_name c); [apply RN in H2; exact H2|]. destruct (rc_id c); try (apply RN in H2; exact H2). injection H2 as <- _. reflexivity.
          - destruct (rc_name c); [apply RN in H2; exact H2|]. destruct (rc_id c); try (apply RN in H2; exact H2). injection H2 as <- _. reflexivity. }
        exists h, []. split; [reflexivity|]. split; [intros []|]. split; [apply (ri_on _ _ _ _ _ HI); exact EO|]. rewrite <- (ri_pre _ _ _ _ _ HI). congruence.
      * injection H2 as <- _. destruct (IH _ _ HO H1 p HP HN) as (k1 & k2 & -> & K1 & K2 & K3). exfalso.
        assert (l_on (r_lab s1) = true) by (apply (ri_on _ _ _ _ _ HI); apply in_or_app; auto). congruence.
    + apply KEEP; [discriminate|]. destruct (lstep _ _ _) as [[l' e']|]; [|discriminate]. injection H2 as <- _. exact HP.
Qed.

(* The first update after a new preselection shows it, and it stays until the preselection changes. *)
Lemma bank_kept w c b h : forall k s e, rinv w c k s e -> own (k ++ h) -> ids_valid (k ++ h) -> l_on (r_lab s) = true -> pre_of k None = Some b -> (forall x, ~ In (RShared x) h) ->
  (l_text (r_lab s) = bank_label b \/ (In RUpdate h /\ r_seen s <> Some b)) -> rc_name c = true \/ rc_id c <> IdOff ->
  forall s' e', rrun w c s h = Ok (s', e') -> rinv w c (k ++ h) s' (e ++ e') /\ l_on (r_lab s') = true /\ l_text (r_lab s') = bank_label b.
Proof.
  induction h as [|o h IH]; intros k s e HI HO HV HON HP HB HT HC s' e' H; cbn [rrun] in H.
  - injection H as <- <-. rewrite !app_nil_r. destruct HT as [HT|[[] _]]. auto.
  - destruct (rstep w c s o) as [[s1 e1]|] eqn:E; [|discriminate]. destruct (rrun w c s1 h) as [[s2 e2]|] eqn:E2; [|discriminate]. injection H as <- <-.
    assert (EK : k ++ o :: h = (k ++ [o]) ++ h) by (rewrite <- app_assoc; reflexivity). rewrite EK in *. rewrite app_assoc.
    assert (HO1 : own (k ++ [o])) by (apply own_app in HO; tauto).
    assert (HV1 : ids_valid (k ++ [o])) by (intros v Hv; apply HV; apply in_or_app; auto).
    pose proof (rinv_step _ _ _ _ _ _ _ _ HO1 HI E) as HI1.
    assert (HP1 : pre_of (k ++ [o]) None = Some b).
    { rewrite pre_of_app, HP. destruct o; try reflexivity. exfalso. apply (HB b0). left. reflexivity. }
    assert (HON1 : l_on (r_lab s1) = true).
    { apply (ri_on _ _ _ _ _ HI1). apply in_or_app. left. apply (ri_on _ _ _ _ _ HI). exact HON. }
    assert (TS : to_show c (k ++ [o]) = bank_label b) by (unfold to_show; rewrite HP1; reflexivity).
    apply (IH (k ++ [o]) s1 (e ++ e1)); auto.
    + intros x Hx. apply (HB x). right. exact Hx.
    + assert (SH : showable c (k ++ [o])) by (right; left; congruence).
      assert (NB : forall x, o <> RShared x) by (intros x ->; apply (HB x); left; reflexivity).
      destruct (classic_answers c o) as [A|A].
      * left. rewrite <- TS. eapply answer_step; eauto.
      * assert (QS := quiet_step _ _ _ _ _ _ _ _ HO1 HV1 HI HON A NB E). rewrite TS in QS.
        destruct HT as [HT|[HU HS]]; [left; destruct QS; congruence|].
        assert (RN : forall s0 s' e', rnotify w c s0 = (s', e') -> r_seen s' = r_seen s0).
        { intros s0 s' e' K. unfold rnotify in K. destruct (l_on (r_lab s0)); [|injection K as <- _; reflexivity].
          destruct (update_label w (r_lab s0) (rig_text c s0)). injection K as <- _. reflexivity. }
        destruct o as [v|v|x| |o]; cbn [rstep answers] in *.
        -- right. split; [destruct HU as [HU|HU]; [discriminate|exact HU]|]. destruct (rc_name c); [tauto|]. injection E as <- _. exact HS.
        -- right. split; [destruct HU as [HU|HU]; [discriminate|exact HU]|]. unfold registered_id in E. destruct (rc_id c); [injection E as <- _; exact HS|exfalso; apply A; discriminate..].
        -- exfalso. apply (NB x). reflexivity.
        -- left. rewrite HON in E. injection E as E. unfold rupdate in E. rewrite (ri_pre _ _ _ _ _ HI), HP in E.
           assert (NS : match r_seen s with Some x => x =? b | None => false end = false).
           { destruct (r_seen s) as [x|]; [|reflexivity]. apply Z.eqb_neq. congruence. }
           rewrite NS in E.
           assert (KN : forall s1 e1, rnotify w c (mkRl (r_lab s) (r_name s) (r_id s) (Some b) (Some b)) = (s1, e1) -> l_text (r_lab s1) = bank_label b).
           { intros s3 e3 K. apply rnotify_inv in K; [|apply HI|apply HI]. destruct K as (l' & -> & _ & _ & _ & _ & KT). cbn in *. rewrite HON in KT. exact KT. }
           destruct (rc_name c); [eapply KN; exact E|]. destruct (rc_id c); [|eapply KN; exact E..]. destruct HC; congruence.
        -- right. split; [destruct HU as [HU|HU]; [discriminate|exact HU]|]. destruct (lstep _ _ _) as [[l' e']|]; [|discriminate]. injection E as <- _. exact HS.
Qed.

Lemma preselection_shown w c t0 c0 b0 h1 b h2 s e : own (h1 ++ RShared (Some b) :: h2) -> ids_valid (h1 ++ RShared (Some b) :: h2) -> rc_name c = true \/ rc_id c <> IdOff ->
  In (RLabel LInit) h1 -> ~ at_last_update h1 (Some b) -> (forall x, ~ In (RShared x) h2) -> In RUpdate h2 ->
  rrun w c (new_rl (new_label t0 c0 b0)) (h1 ++ RShared (Some b) :: h2) = Ok (s, e) -> screen_text e = Some (wraps w (bank_label b)).
Proof.
  intros HO HV HC HON HN HB HU H. change (h1 ++ RShared (Some b) :: h2) with (h1 ++ [RShared (Some b)] ++ h2) in *. rewrite app_assoc in *.
  apply rrun_app_ok in H. destruct H as (s1 & e1 & e2 & H1 & H2 & ->).
  assert (HO1 : own (h1 ++ [RShared (Some b)])) by (apply own_app in HO; tauto).
  pose proof (rinv_run _ _ _ _ _ _ _ _ HO1 H1) as HI.
  assert (HS : r_seen s1 <> Some b).
  { intros K. pose proof (seen_run _ _ _ _ _ _ _ _ HO1 H1 (Some b) K ltac:(discriminate)) as (k1 & k2 & EK & K1 & K2 & K3).
    apply HN. apply snoc_split in EK. destruct EK as [(_ & _ & EK)|(k & -> & ->)]; [discriminate|]. exists k1, k. split; [reflexivity|]. split; [|auto]. intros K4. apply K1. apply in_or_app. auto. }
  assert (ON : l_on (r_lab s1) = true) by (apply (ri_on _ _ _ _ _ HI); apply in_or_app; auto).
  destruct (bank_kept w c b h2 (h1 ++ [RShared (Some b)]) s1 e1 HI HO HV ON) with (s' := s) (e' := e2) as (I1 & I2 & I3); auto.
  { rewrite pre_of_app. reflexivity. }
  rewrite (screen_text_sync w (r_lab s) (e1 ++ e2)), I3; [reflexivity|apply I1|exact I2].
Qed.

(* --- rig ids are told apart --- *)

Lemma dec_inj a b : dec a = dec b -> a = b.
Proof.
  unfold dec. intros H.
  assert (K : forall z, NilZero.int_of_string (NilZero.string_of_int (Z.to_int z)) = Some (Z.to_int z)).
  { intros z. apply NilZero.isi; destruct z; cbn; try discriminate; intros E; injection E as E; revert E; [apply DecimalPos.Unsigned.to_uint_nonnil|apply DecimalPos.Unsigned.to_uint_nonnil]. }
  assert (E : Some (Z.to_int a) = Some (Z.to_int b)) by (rewrite <- !K, H; reflexivity). injection E as E.
  rewrite <- (of_to a), <- (of_to b), E. reflexivity.
Qed.

Fixpoint no_dash (s : string) : bool := match s with EmptyString => true | String a s' => negb (Ascii.eqb a "-"%char) && no_dash s' end.
Lemma no_dash_uint d : no_dash (NilEmpty.string_of_uint d) = true.
Proof. induction d; cbn; auto. Qed.
Lemma no_dash_dec z : 0 <= z -> no_dash (dec z) = true.
Proof.
  intros Hz. unfold dec. destruct z as [|p|p]; [reflexivity| |lia]. cbn. unfold NilZero.string_of_uint. destruct (Pos.to_uint p) eqn:E; [reflexivity|rewrite <- E; apply no_dash_uint..].
Qed.
Lemma dash_split a : forall a' b b', no_dash a = true -> no_dash a' = true -> (a ++ "-" ++ b = a' ++ "-" ++ b')%string -> a = a' /\ b = b'.
Proof.
  induction a as [|x a IH]; intros [|y a'] b b' H1 H2 E; cbn in *.
  - injection E as E. auto.
  - injection E as E0 E. subst y. discriminate.
  - injection E as E0 E. subst x. discriminate.
  - injection E as E0 E. subst y. apply andb_true_iff in H1, H2. destruct (IH a' b b' (proj2 H1) (proj2 H2) E) as [-> ->]. auto.
Qed.

Lemma id_unique i j : 0 <= i -> 0 <= j -> id_parts IdBoth (Some i) = id_parts IdBoth (Some j) -> i = j.
Proof.
  intros Hi Hj E. cbn [id_parts] in E. injection E as E. apply dash_split in E; [|apply no_dash_dec; lia..].
  destruct E as [E1 E2]. apply dec_inj in E1. apply dec_inj in E2. lia.
Qed.

(* The preselection is over but the label is not told: the text stays. *)
Lemma stale_forever w c s n : r_pre s = None -> l_on (r_lab s) = true -> exists s' , rrun w c s (repeat RUpdate n) = Ok (s', []) /\ r_lab s' = r_lab s.
Proof.
  revert s. induction n as [|n IH]; intros s HP HO; cbn [repeat rrun].
  - exists s. auto.
  - cbn [rstep]. rewrite HO. unfold rupdate. rewrite HP. destruct (IH (mkRl (r_lab s) (r_name s) (r_id s) None None)) as (s' & -> & E); cbn; auto. exists s'. auto.
Qed.
Lemma rrun_join w c h1 h2 : forall s s1 e1 s2 e2, rrun w c s h1 = Ok (s1, e1) -> rrun w c s1 h2 = Ok (s2, e2) -> rrun w c s (h1 ++ h2) = Ok (s2, e1 ++ e2).
Proof.
  induction h1 as [|o h1 IH]; intros s s1 e1 s2 e2 H1 H2; cbn [app rrun] in *.
  - injection H1 as <- <-. exact H2.
  - destruct (rstep w c s o) as [[s3 e3]|]; [|discriminate]. destruct (rrun w c s3 h1) as [[s4 e4]|] eqn:E; [|discriminate]. injection H1 as <- <-.
    rewrite (IH _ _ _ _ _ E H2), app_assoc. reflexivity.
Qed.
