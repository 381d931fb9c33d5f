(* What a push button shows after a history, read off the history (newest operation first). *)
From Verif.Lib Require Import Base.
From Verif.Model Require Import Period PushButton.

(* The time from which the hold time counts: the latest press, or the latest release that was recognised as a
   long press (it may only be followed by another release if the action got a release without press). *)
Fixpoint hold_mark (hold : Z) (rh : list button_op) : Z :=
  match rh with
  | [] => 0
  | BPush t :: _ => t
  | BRelease t :: h => if hold_mark hold h + hold <? t then t else hold_mark hold h
  | _ :: h => hold_mark hold h
  end.

(* The state after a history, newest operation first. Device feedback and reset always win. *)
Fixpoint shown (m : mode) (hold : Z) (rh : list button_op) : bool :=
  match rh with
  | [] => false
  | BFeedback s :: _ => s
  | BReset :: _ => false
  | BPush t :: h =>
      match m with
      | ENABLE | MOMENTARY | ONE_SHOT => true
      | DISABLE | MOMENTARY_INVERSE => false
      | LATCH | HOLD_MOMENTARY => negb (shown m hold h)
      | NO_STATE_CHANGE => shown m hold h
      end
  | BRelease t :: h =>
      match m with
      | MOMENTARY | ONE_SHOT => false
      | MOMENTARY_INVERSE => true
      | HOLD_MOMENTARY => if hold_mark hold h + hold <? t then negb (shown m hold h) else shown m hold h
      | ENABLE | DISABLE | LATCH | NO_STATE_CHANGE => shown m hold h
      end
  end.

Definition pushes (h : list button_op) : nat :=
  length (filter (fun o => match o with BPush _ => true | _ => false end) h).

Definition user_only (h : list button_op) : Prop :=
  Forall (fun o => match o with BPush _ | BRelease _ => True | _ => False end) h.

Definition commands (evs : list button_ev) : list bool :=
  flat_map (fun e => match e with Command s => [s] | ShowState => [] end) evs.
