(* C23, C24: push button modes and commands. *)
From Verif.Lib Require Import Base.
From Verif.Model Require Import Period PushButton.
From Verif.Spec Require Import PushButton.
From Verif.Proofs Require Import PushButton.

(* For every mode, hold time and history of presses, releases, device feedback and resets with any clock
   readings, the state is what [shown] reads off the history (see Spec/PushButton.v). *)
Theorem C23_modes : forall m hold h,
  b_state (fst (run button_step (new_button m hold) h)) = shown m hold (rev h).
Proof. exact state_shown. Qed.
Print Assumptions C23_modes.

(* Latch: with user input only, on iff the number of presses is odd. *)
Theorem C23_latch_parity : forall hold h, user_only h ->
  shown LATCH hold (rev h) = Nat.odd (pushes h).
Proof. exact shown_latch_user. Qed.
Print Assumptions C23_latch_parity.

(* Hold momentary: a release that follows a press (with any device feedback between) toggles back iff the
   button was held strictly longer than the hold time. *)
Theorem C23_hold_momentary : forall hold h t mid t',
  Forall (fun o => match o with BFeedback _ => True | _ => False end) mid ->
  shown HOLD_MOMENTARY hold (rev (h ++ [BPush t] ++ mid ++ [BRelease t'])) =
  if t + hold <? t' then negb (shown HOLD_MOMENTARY hold (rev (h ++ [BPush t] ++ mid)))
  else shown HOLD_MOMENTARY hold (rev (h ++ [BPush t] ++ mid)).
Proof. exact hold_press. Qed.
Print Assumptions C23_hold_momentary.

Example C23_ex :
  let h := [BPush 1000; BRelease 1100; BFeedback true; BPush 2000; BRelease 2601] in
  b_state (fst (run button_step (new_button HOLD_MOMENTARY 600) h)) = true /\
  user_only [BPush 1; BRelease 2; BPush 3] /\ pushes [BPush 1; BRelease 2; BPush 3] = 2%nat.
Proof. split; [reflexivity|]. split; [repeat constructor|reflexivity]. Qed.

(* Finding: a release that reaches the action without a preceding press (the action was enabled while the
   switch was down, see C25) toggles a HOLD_MOMENTARY button and sends a command. *)
Theorem C23_unpaired_release_refuted :
  exists hold t, snd (run button_step (new_button HOLD_MOMENTARY hold) [BRelease t]) = [Command true; ShowState].
Proof. exists 600, 5000. exact eq_refl. Qed.
Print Assumptions C23_unpaired_release_refuted.

(* After any history, the next operation sends exactly one command carrying the new state if it is a user
   operation that changes the state, else none; ONE_SHOT sends exactly one on command per press and nothing on
   release; device feedback and reset never send. *)
Theorem C24_commands : forall m hold h o,
  let b := fst (run button_step (new_button m hold) h) in
  let before := b_state b in
  let after := b_state (fst (button_step b o)) in
  commands (snd (button_step b o)) =
  match o with
  | BPush _ => if match m with ONE_SHOT => true | _ => false end then [true]
               else if Bool.eqb before after then [] else [after]
  | BRelease _ => if match m with ONE_SHOT => true | _ => false end then []
                  else if Bool.eqb before after then [] else [after]
  | _ => []
  end.
Proof. exact step_commands. Qed.
Print Assumptions C24_commands.

Example C24_ex :
  commands (snd (run button_step (new_button MOMENTARY 600)
     [BPush 10; BRelease 20; BFeedback true; BPush 30; BRelease 40])) = [true; false; false].
Proof. reflexivity. Qed.
