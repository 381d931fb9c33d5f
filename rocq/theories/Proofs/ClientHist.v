(* Consequences of the refinement for whole histories (C05-C08). *)
From Verif.Lib Require Import Base.
From Verif.Model Require Import Midi Period Mapping Client.
From Verif.Spec Require Import Client.
From Verif.Proofs Require Import Client ClientTotal.
Open Scope Z_scope.

(* ---- facts about the automaton alone ---- *)

Definition waits (l : listener) (a : ast) : Prop := match a with Idle => False | Waiting _ _ ls => In l ls end.
Definition ast_ok (a : ast) : Prop := match a with Idle => True | Waiting _ _ ls => NoDup ls end.

Lemma count_app p e1 e2 : count p (e1 ++ e2) = (count p e1 + count p e2)%nat.
Proof. unfold count. rewrite filter_app, app_length. reflexivity. Qed.
Lemma count_cons p e es : count p (e :: es) = ((if p e then 1 else 0) + count p es)%nat.
Proof. unfold count. cbn. destruct (p e); reflexivity. Qed.

Ltac eqb_cases :=
  repeat match goal with
  | H : (?a =? ?b)%nat = true |- _ => apply Nat.eqb_eq in H; subst
  | H : listener_eqb ?a ?b = true |- _ => apply listener_eqb_spec in H; subst
  end.

Lemma astep_ok lt m a e a' : ast_ok a -> astep lt m a e = Some a' -> ast_ok a'.
Proof.
  intros Ha H. destruct e; cbn in H; try (injection H as <-; auto; fail); destruct (m0 =? m)%nat eqn:E; try (injection H as <-; auto; fail).
  - destruct a as [|t9 [| | |] ls]; inv H. auto.
  - destruct a as [|t9 ph [|l' ls]]; cbn in H; try discriminate. destruct (open_or_answering ph && _); inv H.
    cbn in *. apply NoDup_cons_iff in Ha. tauto.
  - destruct a as [|t9 ph [|l' ls]]; cbn in H; try discriminate. destruct (open_or_expiring ph && _); inv H.
    cbn in *. apply NoDup_cons_iff in Ha. tauto.
  - destruct a; inv H. constructor.
  - destruct a as [|t9 [| | |] ls]; try discriminate; destruct (existsb (listener_eqb l) ls) eqn:Ex; inv H;
      cbn in *; apply NoDup_app_snoc_local; auto; rewrite <- existsb_listener, Ex; discriminate.
  - destruct a as [|t9 ph [|l' ls]]; try discriminate. destruct (open_or_answering ph); inv H. exact I.
  - destruct a as [|t0 ph [|l' ls]]; try discriminate. destruct (open_or_expiring ph && _); inv H. exact I.
Qed.
Lemma arun_ast_ok lt m evs : forall a a', ast_ok a -> arun lt m a evs = Some a' -> ast_ok a'.
Proof.
  induction evs as [|e evs IH]; intros a a' Ha H; cbn in H; [inv H; auto|].
  destruct (astep lt m a e) eqn:E; [|discriminate]. eapply IH; [|exact H]. eapply astep_ok; eauto.
Qed.

(* one event: either it is a notification of l, and then l waited and does not any more; or it is a join of l; or l waits
   as before, and the request is the same one *)
Lemma astep_waits lt m a e a' l : ast_ok a -> astep lt m a e = Some a' ->
  if is_notif l m e then waits l a /\ ~ waits l a'
  else if is_join l m e then ~ waits l a /\ waits l a'
  else (waits l a <-> waits l a').
Proof.
  intros Ha H. destruct e; cbn in H |- *; try (injection H as <-; tauto).
  - destruct (m0 =? m)%nat; [|injection H as <-; tauto]. destruct a as [|t9 [| | |] ls]; inv H. cbn. tauto.
  - rewrite (Nat.eqb_sym m m0). destruct (m0 =? m)%nat eqn:E; [|rewrite andb_false_r; injection H as <-; tauto].
    rewrite andb_true_r. destruct a as [|t9 ph [|l' ls]]; cbn in H; try discriminate.
    destruct (open_or_answering ph && listener_eqb l0 l') eqn:E2; inv H. apply andb_true_iff in E2. destruct E2 as [_ E2].
    eqb_cases. cbn in *. apply NoDup_cons_iff in Ha. destruct (listener_eqb l l') eqn:E3; eqb_cases; [tauto|].
    split; [|tauto]. intros [->|?]; [rewrite listener_eqb_refl in E3; discriminate|auto].
  - rewrite (Nat.eqb_sym m m0). destruct (m0 =? m)%nat eqn:E; [|rewrite andb_false_r; injection H as <-; tauto].
    rewrite andb_true_r. destruct a as [|t9 ph [|l' ls]]; cbn in H; try discriminate.
    destruct (open_or_expiring ph && listener_eqb l0 l') eqn:E2; inv H. apply andb_true_iff in E2. destruct E2 as [_ E2].
    eqb_cases. cbn in *. apply NoDup_cons_iff in Ha. destruct (listener_eqb l l') eqn:E3; eqb_cases; [tauto|].
    split; [|tauto]. intros [->|?]; [rewrite listener_eqb_refl in E3; discriminate|auto].
  - destruct (m0 =? m)%nat; [|injection H as <-; tauto]. destruct a; inv H. cbn. tauto.
  - rewrite (Nat.eqb_sym m m0). destruct (m0 =? m)%nat eqn:E; [|rewrite andb_false_r; injection H as <-; tauto].
    rewrite andb_true_r.
    assert (exists t ph ls, a = Waiting t ph ls /\ existsb (listener_eqb l0) ls = false /\ a' = Waiting t ph (ls ++ [l0])) as (t & ph & ls & -> & Ex & ->).
    { destruct a as [|t9 [| | |] ls]; try discriminate; destruct (existsb (listener_eqb l0) ls) eqn:Ex; inv H; eauto 10. }
    cbn. destruct (listener_eqb l l0) eqn:E3; eqb_cases; rewrite in_app_iff; cbn.
    + split; [|tauto]. rewrite <- existsb_listener, Ex. discriminate.
    + split; [tauto|]. intros [?|[->|[]]]; auto. rewrite listener_eqb_refl in E3. discriminate.
  - destruct (m0 =? m)%nat; [|injection H as <-; tauto]. destruct a as [|t' ph [|l' ls]]; try discriminate.
    destruct (open_or_answering ph); inv H. cbn. tauto.
  - destruct (m0 =? m)%nat; [|injection H as <-; tauto]. destruct a as [|t' ph [|l' ls]]; try discriminate.
    destruct (open_or_expiring ph && _); inv H. cbn. tauto.
Qed.

(* while l waits the request stays the same *)
Lemma astep_same lt m a e a' l t ph ls : a = Waiting t ph ls -> In l ls -> astep lt m a e = Some a' ->
  exists ph' ls', a' = Waiting t ph' ls'.
Proof.
  intros -> Hl H. destruct e; cbn in H; try (inv H; eauto; fail); destruct (m0 =? m)%nat; try (inv H; eauto; fail).
  - destruct ph; inv H; eauto.
  - destruct ls as [|l' ls]; [destruct Hl|]. destruct (open_or_answering ph && _); inv H; eauto.
  - destruct ls as [|l' ls]; [destruct Hl|]. destruct (open_or_expiring ph && _); inv H; eauto.
  - destruct ph; try discriminate; destruct (existsb _ _); inv H; eauto.
  - destruct ls; [destruct Hl|discriminate].
  - destruct ls; [destruct Hl|discriminate].
Qed.

Lemma notif_needs_join lt m l evs : forall a a', ast_ok a -> arun lt m a evs = Some a' -> ~ waits l a ->
  forall e1 n e2, evs = e1 ++ n :: e2 -> is_notif l m n = true -> exists j, In j e1 /\ is_join l m j = true.
Proof.
  induction evs as [|e evs IH]; intros a a' Ha H Hw e1 n e2 E Hn; [destruct e1; discriminate|].
  cbn in H. destruct (astep lt m a e) as [a1|] eqn:Es; [|discriminate].
  pose proof (astep_waits lt m a e a1 l Ha Es) as Hst. destruct e1 as [|y e1]; inv E.
  - rewrite Hn in Hst. tauto.
  - destruct (is_notif l m y); [tauto|]. destruct (is_join l m y) eqn:Ej; [exists y; split; [left; auto|auto]|].
    destruct (IH a1 a' (astep_ok _ _ _ _ _ Ha Es) H (fun Hx => Hw (proj2 Hst Hx)) e1 n e2 eq_refl Hn) as (j & Hj & Hj').
    exists j. split; [right; auto|auto].
Qed.

Lemma told_once lt m l evs : forall t ph ls a', NoDup ls -> In l ls -> arun lt m (Waiting t ph ls) evs = Some a' ->
  (count (is_notif l m) evs = 0%nat /\ exists ph' ls', a' = Waiting t ph' ls' /\ In l ls') \/
  (exists e1 n e2, evs = e1 ++ n :: e2 /\ is_notif l m n = true /\ count (is_notif l m) e1 = 0%nat /\
     forall e3 n' e4, e2 = e3 ++ n' :: e4 -> is_notif l m n' = true -> exists j, In j e3 /\ is_join l m j = true).
Proof.
  induction evs as [|e evs IH]; intros t ph ls a' Hnd Hin H; cbn in H.
  - left. inv H. split; [reflexivity|eauto].
  - destruct (astep lt m (Waiting t ph ls) e) as [a1|] eqn:Es; [|discriminate].
    pose proof (astep_waits lt m (Waiting t ph ls) e a1 l Hnd Es) as Hst.
    pose proof (astep_ok lt m (Waiting t ph ls) e a1 Hnd Es) as Hok1.
    destruct (is_notif l m e) eqn:En.
    + right. exists [], e, evs. split; [reflexivity|]. split; [exact En|]. split; [reflexivity|].
      intros e3 n' e4 E Hn'. eapply notif_needs_join; eauto. tauto.
    + assert (waits l a1) as Hw by (destruct (is_join l m e); [tauto|apply Hst; exact Hin]).
      destruct (astep_same lt m _ e a1 l t ph ls eq_refl Hin Es) as (ph' & ls' & ->).
      destruct (IH _ _ _ _ Hok1 Hw H) as [(Hc & Hr)|(e1 & n & e2 & -> & Hn & Hc & Hr)].
      * left. split; [rewrite count_cons, En; exact Hc|exact Hr].
      * right. exists (e :: e1), n, e2. split; [reflexivity|]. split; [exact Hn|]. split; [|exact Hr].
        rewrite count_cons, En. exact Hc.
Qed.

(* counting *)
Definition is_sent_ast (a : ast) : nat := match a with Waiting _ Unsent _ | Idle => 0 | _ => 1 end.
Lemma arun_count lt m evs : forall a a', arun lt m a evs = Some a' ->
  (is_sent_ast a + count (is_sent m) evs = count (is_answered m) evs + count (is_expired m) evs + is_sent_ast a')%nat.
Proof.
  induction evs as [|e evs IH]; intros a a' H; cbn in H; [inv H; cbn; lia|].
  destruct (astep lt m a e) as [a1|] eqn:Es; [|discriminate]. specialize (IH a1 a' H). rewrite !count_cons.
  enough (is_sent_ast a + (if is_sent m e then 1 else 0) = (if is_answered m e then 1 else 0) + (if is_expired m e then 1 else 0) + is_sent_ast a1)%nat by lia.
  clear - Es. destruct e; cbn in Es |- *; try (inv Es; lia); rewrite ?(Nat.eqb_sym m m0); destruct (m0 =? m)%nat; try (inv Es; lia).
  - destruct a as [|t9 [| | |] ls]; inv Es. reflexivity.
  - destruct a as [|t9 ph [|l' ls]]; cbn in Es; try discriminate. destruct ph; cbn in Es; try discriminate;
      destruct (listener_eqb l l'); inv Es; reflexivity.
  - destruct a as [|t9 ph [|l' ls]]; cbn in Es; try discriminate. destruct ph; cbn in Es; try discriminate;
      destruct (listener_eqb l l'); inv Es; reflexivity.
  - destruct a; inv Es. reflexivity.
  - destruct a as [|t9 [| | |] ls]; try discriminate; destruct (existsb _ _); inv Es; reflexivity.
  - destruct a as [|t0 [| | |] [|l' ls]]; inv Es; reflexivity.
  - destruct a as [|t0 ph [|l' ls]]; try discriminate. destruct ph; cbn in Es; try discriminate; destruct (_ <? _); inv Es; reflexivity.
Qed.

(* a timeout of m is preceded by the opening of the request, more than a lifetime earlier *)
Definition is_end (m : mid) (e : event) : bool := is_answered m e || is_expired m e || is_opened m e.
Lemma astep_time lt m a e a' : astep lt m a e = Some a' ->
  match a' with
  | Idle => a = Idle \/ is_answered m e = true \/ is_expired m e = true
  | Waiting t _ _ => (exists ph ls, a = Waiting t ph ls /\ is_end m e = false) \/ (e = EvOpened m t)
  end.
Proof.
  intros Es. unfold is_end. destruct e; cbn in Es |- *; try (inv Es; destruct a'; eauto; fail); rewrite ?(Nat.eqb_sym m m0); destruct (m0 =? m)%nat eqn:E;
    try (inv Es; destruct a'; eauto; fail).
  - destruct a as [|t9 [| | |] ls]; inv Es. eauto.
  - destruct a as [|t9 ph [|l' ls]]; cbn in Es; try discriminate. destruct (_ && _); inv Es; eauto.
  - destruct a as [|t9 ph [|l' ls]]; cbn in Es; try discriminate. destruct (_ && _); inv Es; eauto.
  - destruct a; inv Es. apply Nat.eqb_eq in E. subst. eauto.
  - destruct a as [|t9 [| | |] ls]; try discriminate; destruct (existsb _ _); inv Es; eauto.
  - destruct a as [|t0 [| | |] [|l' ls]]; inv Es; auto.
  - destruct a as [|t0 ph [|l' ls]]; try discriminate. destruct (_ && _); inv Es; auto.
Qed.
Lemma arun_opened lt m evs : forall a t ph ls, arun lt m a evs = Some (Waiting t ph ls) ->
  (exists ph0 ls0, a = Waiting t ph0 ls0 /\ count (is_end m) evs = 0%nat) \/
  (exists e1 e2, evs = e1 ++ EvOpened m t :: e2 /\ count (is_end m) e2 = 0%nat).
Proof.
  induction evs as [|evs e IH] using rev_ind_snoc; intros a t ph ls H; [inv H; left; eauto|].
  rewrite arun_app in H. destruct (arun lt m a evs) as [a1|] eqn:E1; [|discriminate].
  cbn in H. destruct (astep lt m a1 e) as [a2|] eqn:Es; inv H. apply astep_time in Es.
  destruct Es as [(ph0 & ls0 & -> & Hne) | -> ].
  - destruct (IH _ _ _ _ E1) as [(ph1 & ls1 & -> & Hc)|(e1 & e2 & -> & Hc)].
    + left. exists ph1, ls1. split; auto. rewrite count_app, count_cons, Hc, Hne. reflexivity.
    + right. exists e1, (e2 ++ [e]). split; [rewrite <- app_assoc; reflexivity|]. rewrite count_app, count_cons, Hc, Hne. reflexivity.
  - right. exists evs, []. split; reflexivity.
Qed.
Lemma arun_never_early lt m evs a a' e1 t' e2 : arun lt m a evs = Some a' -> a = Idle -> evs = e1 ++ EvExpired m t' :: e2 ->
  exists e0 t e3, e1 = e0 ++ EvOpened m t :: e3 /\ count (is_end m) e3 = 0%nat /\ t + lt < t'.
Proof.
  intros H -> ->. rewrite arun_app in H. destruct (arun lt m Idle e1) as [a1|] eqn:E1; [|discriminate].
  cbn in H. rewrite Nat.eqb_refl in H. destruct a1 as [|t ph [|l ls]]; try discriminate.
  destruct (open_or_expiring ph && (t + lt <? t')) eqn:Eb; [|discriminate]. apply andb_true_iff in Eb. destruct Eb as [_ Eb].
  destruct (arun_opened _ _ _ _ _ _ _ E1) as [(ph0 & ls0 & ? & _)|(e0 & e3 & -> & Hc)]; [discriminate|].
  exists e0, t, e3. split; auto. split; auto. lia.
Qed.
(* a termination is followed by the timeout of the same request, before anything else happens to it *)
Lemma arun_terminated_expires lt m evs : forall t ls a', arun lt m (Waiting t Expiring ls) evs = Some a' ->
  (exists ls', a' = Waiting t Expiring ls') \/ exists e1 t' e2, evs = e1 ++ EvExpired m t' :: e2 /\ count (is_end m) e1 = 0%nat /\ t + lt < t'.
Proof.
  induction evs as [|e evs IH]; intros t ls a' H; cbn in H; [inv H; eauto|].
  destruct (astep lt m (Waiting t Expiring ls) e) as [a1|] eqn:Es; [|discriminate].
  assert ((exists ls', a1 = Waiting t Expiring ls' /\ is_end m e = false) \/ (exists t', e = EvExpired m t' /\ t + lt < t')) as [(ls' & -> & He)|(t' & -> & Ht)].
  { clear - Es. unfold is_end. destruct e; cbn in Es |- *; try (inv Es; eauto; fail); rewrite ?(Nat.eqb_sym m m0); destruct (m0 =? m)%nat eqn:E;
      try (inv Es; eauto; fail); try discriminate.
    - destruct ls; try discriminate.
    - destruct ls as [|l' ls]; try discriminate. cbn in Es. destruct (listener_eqb l l'); inv Es; eauto.
    - destruct ls; discriminate.
    - destruct ls; try discriminate. cbn in Es. destruct (t + lt <? t0) eqn:Et; inv Es. apply Nat.eqb_eq in E. subst. right. exists t0. split; auto. lia. }
  - destruct (IH _ _ _ H) as [?|(e1 & t' & e2 & -> & Hc & Ht)]; [auto|]. right. exists (e :: e1), t', e2. split; auto. split; auto.
    rewrite count_cons, He, Hc. reflexivity.
  - right. exists [], t', evs. repeat split; auto.
Qed.
