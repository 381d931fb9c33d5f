(* controller/actions/__init__.py:193-314  PushButtonAction *)
From Verif.Lib Require Import Base.
From Verif.Model Require Import Period.

(* actions/__init__.py:199-209 *)
Inductive mode := ENABLE | DISABLE | LATCH | MOMENTARY | MOMENTARY_INVERSE | HOLD_MOMENTARY | ONE_SHOT | NO_STATE_CHANGE.

(* actions/__init__.py:220-230. The mode is fixed at construction. *)
Record button := mkButton { b_mode : mode; b_state : bool; b_period : period }.

Definition new_button (m : mode) (hold_ms : Z) : button := mkButton m false (new_period hold_ms).

Definition put_state (b : button) (s : bool) : button := mkButton (b_mode b) s (b_period b).
Definition put_period (b : button) (p : period) : button := mkButton (b_mode b) (b_state b) p.

(* Observable effects: state_changed_by_user called on the callback while the state is [s] (line 247), and a
   display update (249, 308, 314). The action is assumed to have a callback. A callback that answers by calling
   feedback_state synchronously (bidirectional devices) is a [Feedback] operation directly after this one: the
   state setter is always the last statement executed in push and release. *)
Inductive button_ev := Command (s : bool) | ShowState.

(* actions/__init__.py:239-249 state setter *)
Definition set_state (b : button) (s : bool) : button * list button_ev :=
  if Bool.eqb s (b_state b) then (b, []) else (put_state b s, [Command s; ShowState]).

(* actions/__init__.py:258-288 push *)
Definition push (b : button) (now : Z) : button * list button_ev :=
  match b_mode b with
  | ENABLE => set_state b true
  | DISABLE => set_state b false
  | LATCH => set_state b (negb (b_state b))
  | MOMENTARY => set_state b true
  | MOMENTARY_INVERSE => set_state b false
  | HOLD_MOMENTARY => let b' := put_period b (p_reset (b_period b) now) in set_state b' (negb (b_state b'))
  | ONE_SHOT => set_state (put_state b false) true
  | NO_STATE_CHANGE => (b, [])
  end.

(* actions/__init__.py:291-308 release *)
Definition release (b : button) (now : Z) : button * list button_ev :=
  match b_mode b with
  | MOMENTARY => set_state b false
  | MOMENTARY_INVERSE => set_state b true
  | HOLD_MOMENTARY =>
      let '(r, p') := p_exceeded (b_period b) now in
      let b' := put_period b p' in
      if r then set_state b' (negb (b_state b')) else (b', [])
  | ONE_SHOT => (put_state b false, [ShowState])
  | _ => (b, [])
  end.

(* actions/__init__.py:254-255 feedback_state *)
Definition feedback_state (b : button) (s : bool) : button := put_state b s.

(* actions/__init__.py:311-314 reset *)
Definition reset_button (b : button) : button * list button_ev := (put_state b false, [ShowState]).

Inductive button_op := BPush (now : Z) | BRelease (now : Z) | BFeedback (s : bool) | BReset.

Definition button_step (b : button) (o : button_op) : button * list button_ev :=
  match o with
  | BPush t => push b t
  | BRelease t => release b t
  | BFeedback s => (feedback_state b s, [])
  | BReset => reset_button b
  end.
