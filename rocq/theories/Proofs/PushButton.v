From Verif.Lib Require Import Base.
From Verif.Model Require Import Period PushButton.
From Verif.Spec Require Import PushButton.

Lemma set_state_state b s : b_state (fst (set_state b s)) = s.
Proof. unfold set_state. destruct (Bool.eqb s (b_state b)) eqn:E; cbn; auto. apply eqb_prop in E; auto. Qed.
Lemma set_state_mode b s : b_mode (fst (set_state b s)) = b_mode b.
Proof. unfold set_state. destruct (Bool.eqb s (b_state b)); reflexivity. Qed.
Lemma set_state_period b s : b_period (fst (set_state b s)) = b_period b.
Proof. unfold set_state. destruct (Bool.eqb s (b_state b)); reflexivity. Qed.
Lemma set_state_cmds b s : commands (snd (set_state b s)) = if Bool.eqb s (b_state b) then [] else [s].
Proof. unfold set_state. destruct (Bool.eqb s (b_state b)); reflexivity. Qed.

Ltac setst := rewrite ?set_state_state, ?set_state_mode, ?set_state_period, ?set_state_cmds; cbn.

Definition inv (m : mode) (hold : Z) (b : button) (rh : list button_op) : Prop :=
  b_mode b = m /\ b_state b = shown m hold rh /\ interval (b_period b) = hold /\
  (m = HOLD_MOMENTARY -> last_reset (b_period b) = hold_mark hold rh).

Lemma step_inv m hold b rh o : inv m hold b rh -> inv m hold (fst (button_step b o)) (o :: rh).
Proof.
  intros (Hm & Hs & Hi & Hp). destruct o as [t|t|s|]; cbn [button_step].
  - unfold push. rewrite Hm. destruct m; unfold inv; setst; rewrite ?Hs; repeat split; auto; discriminate.
  - unfold release. rewrite Hm. destruct m; unfold inv; setst; rewrite ?Hs; repeat split; auto; try discriminate.
    all: unfold p_exceeded; rewrite Hi, (Hp eq_refl).
    all: destruct (hold_mark hold rh + hold <? t) eqn:E; setst; rewrite ?Hs, ?E; auto.
  - unfold inv; cbn. repeat split; auto.
  - unfold inv; cbn. repeat split; auto.
Qed.

Lemma run_inv m hold h : inv m hold (fst (run button_step (new_button m hold) h)) (rev h).
Proof.
  induction h as [|h o IH] using rev_ind_snoc.
  - rewrite run_nil. repeat split.
  - rewrite run_snoc, rev_app_distr. cbn [fst rev app]. apply step_inv. exact IH.
Qed.

Lemma state_shown m hold h : b_state (fst (run button_step (new_button m hold) h)) = shown m hold (rev h).
Proof. apply run_inv. Qed.

Lemma step_commands m hold h o :
  let b := fst (run button_step (new_button m hold) h) in
  let before := b_state b in
  let after := b_state (fst (button_step b o)) in
  commands (snd (button_step b o)) =
  match o with
  | BPush _ => if match m with ONE_SHOT => true | _ => false end then [true]
               else if Bool.eqb before after then [] else [after]
  | BRelease _ => if match m with ONE_SHOT => true | _ => false end then []
                  else if Bool.eqb before after then [] else [after]
  | _ => []
  end.
Proof.
  cbn zeta. pose proof (run_inv m hold h) as (Hm & Hs & Hi & Hp).
  set (b := fst (run button_step (new_button m hold) h)) in *.
  destruct o as [t|t|s|]; cbn [button_step]; auto.
  - unfold push. rewrite Hm. destruct m; setst; destruct (b_state b); reflexivity.
  - unfold release. rewrite Hm. destruct m; setst; try (destruct (b_state b); reflexivity).
    destruct (p_exceeded (b_period b) t) as [[|] p']; setst; destruct (b_state b); reflexivity.
Qed.

(* User visible corollaries. *)
Lemma shown_latch_user hold h : user_only h -> shown LATCH hold (rev h) = Nat.odd (pushes h).
Proof.
  induction h as [|h o IH] using rev_ind_snoc; intros Hu; [reflexivity|].
  apply Forall_app in Hu. destruct Hu as [Hu Ho]. inv Ho. specialize (IH Hu).
  rewrite rev_app_distr. cbn [rev app shown]. unfold pushes in *. rewrite filter_app, app_length.
  destruct o; try tauto; cbn [filter length]; rewrite IH.
  - replace (length (filter (fun o => match o with BPush _ => true | _ => false end) h) + 1)%nat
      with (S (length (filter (fun o => match o with BPush _ => true | _ => false end) h))) by lia.
    rewrite Nat.odd_succ, <- Nat.negb_odd. reflexivity.
  - rewrite Nat.add_0_r. reflexivity.
Qed.

Lemma hold_press hold h t mid t' :
  Forall (fun o => match o with BFeedback _ => True | _ => False end) mid ->
  shown HOLD_MOMENTARY hold (rev (h ++ [BPush t] ++ mid ++ [BRelease t'])) =
  if t + hold <? t' then negb (shown HOLD_MOMENTARY hold (rev (h ++ [BPush t] ++ mid)))
  else shown HOLD_MOMENTARY hold (rev (h ++ [BPush t] ++ mid)).
Proof.
  intros Hm. replace (h ++ [BPush t] ++ mid ++ [BRelease t']) with ((h ++ [BPush t] ++ mid) ++ [BRelease t'])
    by (rewrite <- !app_assoc; reflexivity).
  rewrite rev_app_distr. cbn [rev app shown].
  replace (hold_mark hold (rev (h ++ BPush t :: mid))) with t; [reflexivity|].
  rewrite rev_app_distr. cbn [rev]. rewrite <- app_assoc. cbn [app].
  induction mid as [|mid o IH] using rev_ind_snoc; [reflexivity|].
  apply Forall_app in Hm. destruct Hm as [Hm Ho]. inv Ho. rewrite rev_app_distr. cbn [rev app hold_mark].
  destruct o; try tauto.
Qed.
