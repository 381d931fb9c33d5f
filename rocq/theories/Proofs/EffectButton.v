From Verif.Lib Require Import Base.
From Verif.Model Require Import BinaryCb EffectButton.
From Verif.Spec Require Import EffectButton.

Lemma lit_app a b : lit_now (a ++ b) = match lit_now b with Some x => Some x | None => lit_now a end.
Proof.
  unfold lit_now. rewrite fold_left_app. generalize (fold_left (fun l x => match x with XE _ (EShow _ b _) => Some b | _ => l end) a None) as x.
  induction b as [|e b IH] using rev_ind; intros x; [reflexivity|]. rewrite !fold_left_app. cbn. rewrite (IH x). destruct e as [? []]; reflexivity.
Qed.
Lemma sent_app a b : sent (a ++ b) = sent a ++ sent b.
Proof. apply flat_map_app. Qed.

(* enabled, ticked, drawn *)
Definition ready (internal : bool) (s : xstate) (ev : list xev) : Prop :=
  x_enabled s = true /\ x_last s = Some true /\ b_cur (x_b s) = Some None /\ b_disp (x_b s) = Some (b_on (x_b s)) /\ b_col (x_b s) = Some 0 /\ b_off (x_b s) = OOne (Some 0) /\
  lit_now ev = Some (b_on (x_b s) && internal).
Lemma off_step internal s o : b_off (x_b s) = OOne (Some 0) -> b_off (x_b (fst (xstep internal s o))) = OOne (Some 0).
Proof.
  destruct s as [[on cur disp col off] en last]. cbn. intros ->. destruct o as [|b| | |]; cbn.
  - destruct en; [|reflexivity]. destruct on, cur as [[?|]|], disp as [[]|], col as [[| |]|]; reflexivity.
  - reflexivity.
  - destruct (match last with Some l => Bool.eqb l en | None => false end); [reflexivity|]. destruct en; reflexivity.
  - destruct en, on, cur as [[?|]|], disp as [[]|], col as [[| |]|]; reflexivity.
  - destruct en; reflexivity.
Qed.
Lemma off_all internal ops : b_off (x_b (fst (run (xstep internal) (x_init internal) ops))) = OOne (Some 0).
Proof.
  induction ops as [|ops o IH] using rev_ind_snoc; [reflexivity|]. rewrite run_snoc. destruct (run (xstep internal) (x_init internal) ops) as [s ev]. cbn [fst] in *.
  assert (H := off_step internal s o IH). destruct (xstep internal s o). exact H.
Qed.
Lemma ready_step internal s ev o : ready internal s ev -> stays o -> let '(s', e) := xstep internal s o in
  ready internal s' (ev ++ e) /\ b_on (x_b s') = count (b_on (x_b s)) o /\ sent e = presses (b_on (x_b s)) [o].
Proof.
  destruct s as [[on cur disp col off] en last]. intros (H1 & H2 & H3 & H4 & H5 & H6 & H7) Ho. cbn in *. subst. unfold ready.
  destruct o as [|b| | |]; try contradiction; destruct on;
    match goal with |- context [xstep ?i ?s ?o] => let r := eval cbv -[andb] in (xstep i s o) in change (xstep i s o) with r end;
    cbv beta iota zeta; cbn [x_enabled x_last x_b b_cur b_disp b_on b_col b_off];
    rewrite ?lit_app, ?app_nil_r; (split; [|split; reflexivity]); do 6 (split; [reflexivity|]); try exact H7; reflexivity.
Qed.
Lemma ready_run internal ops : forall s ev, ready internal s ev -> Forall stays ops -> let '(s', e) := run (xstep internal) s ops in
  ready internal s' (ev ++ e) /\ b_on (x_b s') = counted (b_on (x_b s)) ops /\ sent e = presses (b_on (x_b s)) ops.
Proof.
  induction ops as [|o ops IH]; intros s ev Hr Hf.
  - cbn. rewrite app_nil_r. auto.
  - apply Forall_cons_iff in Hf. destruct Hf as (Ho & Hf). rewrite run_cons. assert (H := ready_step internal s ev o Hr Ho). destruct (xstep internal s o) as [s1 e1]. destruct H as (Hr1 & H2 & H3). cbn [fst snd].
    specialize (IH s1 (ev ++ e1) Hr1 Hf). destruct (run (xstep internal) s1 ops) as [s2 e2]. destruct IH as (Hr2 & H4 & H5). cbn [fst snd]. rewrite app_assoc. split; [exact Hr2|].
    cbn [counted fold_left]. rewrite H2 in H4, H5. split; [exact H4|]. rewrite sent_app, H3, H5. cbn. rewrite app_nil_r. reflexivity.
Qed.

Lemma shown_ready internal ops0 : hidden_before ops0 -> let '(s, ev) := run (xstep internal) (x_init internal) (ops0 ++ [XEnable true; XTick]) in
  ready internal s ev /\ b_on (x_b s) = false.
Proof.
  intros H. rewrite run_app. assert (Hoff := off_all internal ops0). assert (Hl : x_last (fst (run (xstep internal) (x_init internal) ops0)) <> Some true).
  { destruct H as [->|(l & ->)]; [discriminate|]. rewrite run_app. destruct (run (xstep internal) (x_init internal) l) as [s ev]. cbn. destruct s as [b en last]. cbn. destruct last as [[]|]; cbn; discriminate. }
  destruct (run (xstep internal) (x_init internal) ops0) as [s ev]. cbn [fst snd] in *. destruct s as [[on cur disp col off] en last]. cbn in Hoff, Hl. subst off.
  destruct last as [[]|]; [congruence| |]; cbn; unfold ready; cbn; rewrite lit_app; repeat split.
Qed.
Lemma follows internal ops0 ops : hidden_before ops0 -> Forall stays ops ->
  let '(s0, ev0) := run (xstep internal) (x_init internal) (ops0 ++ [XEnable true; XTick]) in
  let '(s, ev) := run (xstep internal) s0 ops in
  is_on s0 = false /\ is_on s = counted false ops /\ sent ev = presses false ops /\ lit_now (ev0 ++ ev) = Some (counted false ops && internal).
Proof.
  intros H0 Hf. assert (H := shown_ready internal ops0 H0). destruct (run (xstep internal) (x_init internal) (ops0 ++ [XEnable true; XTick])) as [s0 ev0]. destruct H as (Hr & Hon).
  assert (G := ready_run internal ops s0 ev0 Hr Hf). destruct (run (xstep internal) s0 ops) as [s ev]. destruct G as (Hr2 & G1 & G2). rewrite Hon in *. unfold is_on. split; [exact Hon|].
  split; [exact G1|]. split; [exact G2|]. rewrite <- G1. apply Hr2.
Qed.
Lemma sends_only_presses internal s o : o <> XPush -> sent (snd (xstep internal s o)) = [].
Proof.
  destruct s as [[on cur disp col off] en last]. intros Ho. destruct o as [|b| | |]; [congruence|reflexivity| | |]; cbn.
  - destruct (match last with Some l => Bool.eqb l en | None => false end); [reflexivity|]. destruct en; reflexivity.
  - destruct en, on, cur as [[?|]|], disp as [[]|], col as [[| |]|]; reflexivity.
  - destruct en; reflexivity.
Qed.
Lemma reset_off internal s : is_on (fst (xstep internal s XReset)) = false.
Proof. destruct s as [[on cur disp col off] en last]. unfold is_on. cbn. destruct en; reflexivity. Qed.
Lemma hidden_quiet internal s o : x_enabled s = false -> (o = XRig -> is_on s = false) -> snd (xstep internal s o) = [].
Proof.
  destruct s as [[on cur disp col off] en last]. unfold is_on. cbn [x_enabled x_b b_on]. intros -> H. destruct o as [|b| | |]; try reflexivity.
  - cbn. destruct last as [[]|]; reflexivity.
  - cbn. rewrite (H eq_refl). reflexivity.
Qed.
