From Verif.Lib Require Import Base.
From Verif.Model Require Import Period.
From Verif.Spec Require Import Period.

Lemma last_mark_app s h1 h2 : last_mark s (h1 ++ h2) = last_mark (last_mark s h1) h2.
Proof.
  revert s. induction h1 as [|[t|t [|]] h IH]; intros s; cbn; auto.
Qed.

Lemma run_period_state p ops :
  interval (fst (run period_step p ops)) = interval p /\
  last_reset (fst (run period_step p ops)) = last_mark (last_reset p) (snd (run period_step p ops)).
Proof.
  revert ops. apply rev_ind_snoc.
  - rewrite run_nil. cbn. auto.
  - intros l x [Hi Hl]. rewrite run_snoc. cbn [fst snd].
    rewrite last_mark_app, <- Hl.
    destruct (run period_step p l) as [q es]. cbn [fst snd] in *.
    destruct x as [t|t]; cbn.
    + auto.
    + unfold p_exceeded. case_if; cbn; auto.
Qed.

(* Every report of a history, relative to what happened before it. *)
Lemma reports_exact i ops before t r after :
  snd (run period_step (new_period i) ops) = before ++ Reported t r :: after ->
  r = (last_mark 0 before + i <? t).
Proof.
  revert before t r after. induction ops as [|l x IH] using rev_ind_snoc; intros before t r after.
  - rewrite run_nil. cbn. destruct before; discriminate.
  - rewrite run_snoc. cbn [snd fst].
    pose proof (run_period_state (new_period i) l) as [Hi Hl].
    destruct (run period_step (new_period i) l) as [q es] eqn:Er. cbn [fst snd] in *.
    intros Heq.
    destruct (rev_ind_snoc (fun a => a = [] \/ exists a' z, a = a' ++ [z])
                (or_introl eq_refl) (fun l z _ => or_intror (ex_intro _ l (ex_intro _ z eq_refl))) after)
      as [->|(a' & z & ->)].
    + destruct x as [t0|t0]; cbn in Heq.
      * apply app_inj_tail in Heq. destruct Heq as [_ He]. discriminate.
      * unfold p_exceeded in Heq. cbn in Hi, Hl. rewrite Hi, Hl in Heq.
        destruct (last_mark 0 es + i <? t0) eqn:E; cbn in Heq;
          apply app_inj_tail in Heq; destruct Heq as [-> He]; inv He; auto.
    + assert (exists z', snd (period_step q x) = [z']) as [z' Hz'].
      { destruct x; cbn; [eauto|]. unfold p_exceeded. case_if; cbn; eauto. }
      rewrite Hz' in Heq.
      replace (before ++ Reported t r :: a' ++ [z]) with ((before ++ Reported t r :: a') ++ [z]) in Heq
        by (rewrite <- app_assoc; reflexivity).
      apply app_inj_tail in Heq. destruct Heq as [He _]. eapply IH; eauto.
Qed.

Lemma last_mark_ge s h b : clock_monotone b h -> b <= last_mark b h /\ (s <= b -> s <= last_mark s h).
Proof.
  revert s b. induction h as [|e h IH]; intros s b Hm; cbn in *; [lia|].
  destruct Hm as [H1 H2]. destruct e as [t|t [|]]; cbn in *.
  - destruct (IH t t H2) as [A B]. split; [lia|]. intros; lia.
  - destruct (IH t t H2) as [A B]. split; [lia|]. intros; lia.
  - destruct (IH b t H2) as [A B]. destruct (IH s t H2) as [A' B']. split; [lia|]. intros; apply B'; lia.
Qed.

Lemma clock_monotone_app b h1 h2 :
  clock_monotone b (h1 ++ h2) -> clock_monotone b h1 /\ clock_monotone (fold_left (fun _ e => ev_time e) h1 b) h2.
Proof.
  revert b. induction h1 as [|e h IH]; intros b H; cbn in *; [auto|].
  destruct H as [H1 H2]. apply IH in H2. tauto.
Qed.

Lemma expiries_apart i ops before t1 mid t2 after b :
  snd (run period_step (new_period i) ops)
    = before ++ Reported t1 true :: mid ++ Reported t2 true :: after ->
  clock_monotone b (snd (run period_step (new_period i) ops)) ->
  t1 + i < t2.
Proof.
  intros Heq Hm. rewrite Heq in Hm.
  apply clock_monotone_app in Hm. destruct Hm as [_ Hm]. cbn in Hm. destruct Hm as [_ Hm].
  apply clock_monotone_app in Hm. destruct Hm as [Hm _].
  replace (before ++ Reported t1 true :: mid ++ Reported t2 true :: after)
    with ((before ++ Reported t1 true :: mid) ++ Reported t2 true :: after) in Heq
    by (rewrite <- app_assoc; reflexivity).
  apply reports_exact in Heq. symmetry in Heq. apply Z.ltb_lt in Heq.
  rewrite last_mark_app in Heq. cbn in Heq.
  destruct (last_mark_ge t1 mid t1 Hm) as [A _]. lia.
Qed.
