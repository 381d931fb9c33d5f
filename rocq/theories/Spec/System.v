(* C56: what the user sees and what is sent *)
From Verif.Lib Require Import Base.
From Verif.Model Require Import Midi Period Mapping Client Switch PushButton BinaryCb System.
From Verif.Spec Require Import Mapping Client ClientSafe BinaryCb.
Open Scope Z_scope.

(* A history from power on, without an exception; events per operation. *)
Definition powered (g : ycfg) (maps0 : mid -> mapping) (lifetime : Z) (ops : list yop) (s : sys) (evs : list (list yevent)) : Prop :=
  no_self_dependency maps0 /\ yrun g (yinit g maps0 lifetime) ops = Ok (s, evs).

(* What the switch of an action shows after some events: the latest thing shown, [before] if nothing was. *)
Definition lit_after (a : nat) (before : bool) (evs : list yevent) : bool :=
  fold_left (fun lit e => match e with YShow k _ l => if (k =? a)%nat then l else lit | _ => lit end) evs before.

(* The set messages of a parameter among the events. *)
Definition sent (m : mid) (evs : list yevent) : list (list msg) :=
  flat_map (fun e => match e with YSet k _ w => if (k =? m)%nat then [w] else [] | _ => [] end) evs.

(* A template carrying a value: the controller value, the program number, or data bytes 6 and 7. *)
Definition carrying (x : msg) (v : Z) : msg :=
  match x with
  | CC c _ => CC c v
  | PC _ => PC v
  | SysEx man d => SysEx man (firstn 6 (d ++ repeat 0 (8 - length d)) ++ [v / 128; v mod 128] ++ skipn 8 d)
  | other => other
  end.

(* The switch is held down, and since when, according to the polls of the history (in order). *)
Definition held (j : nat) (ops : list yop) : bool :=
  fold_left (fun h o => match o with YPoll k p _ => if (k =? j)%nat then p else h | _ => h end) ops false.
Fixpoint held_since_from (j : nat) (down : bool) (t : Z) (ops : list yop) : Z :=
  match ops with
  | [] => t
  | YPoll k p now :: ops' =>
      if (k =? j)%nat then held_since_from j p (if p && negb down then now else t) ops' else held_since_from j down t ops'
  | _ :: ops' => held_since_from j down t ops'
  end.
Definition held_since (j : nat) (ops : list yop) : Z := held_since_from j false 0 ops.

(* What the user asks for by pressing or releasing a switch that shows [lit]; [since] is the time of the press, [hold] the
   time that makes a press a long one. *)
Definition at_press (m : mode) (lit : bool) : option bool :=
  match m with
  | ENABLE | MOMENTARY => if lit then None else Some true
  | DISABLE | MOMENTARY_INVERSE => if lit then Some false else None
  | LATCH | HOLD_MOMENTARY => Some (negb lit)
  | ONE_SHOT => Some true
  | PushButton.NO_STATE_CHANGE => None
  end.
Definition at_release (m : mode) (lit : bool) (since hold now : Z) : option bool :=
  match m with
  | MOMENTARY => if lit then Some false else None
  | MOMENTARY_INVERSE => if lit then None else Some true
  | HOLD_MOMENTARY => if since + hold <? now then Some (negb lit) else None
  | _ => None
  end.
(* The wish expressed by an operation, given the history before it and what is shown. *)
Definition wish (c : acfg) (j : nat) (ops : list yop) (lit : bool) (o : yop) : option bool :=
  match o with
  | YPoll k p now =>
      if negb (k =? j)%nat then None
      else match held j ops, p with
           | false, true => at_press (a_mode c) lit
           | true, false => at_release (a_mode c) lit (held_since j ops) (a_hold c) now
           | _, _ => None
           end
  | _ => None
  end.

(* The action is on one switch only, once, and that switch has no hold actions. *)
Definition here (a : nat) (l : list Z) : list Z := filter (fun z => (Z.to_nat z =? a)%nat) l.
Definition only_on (g : ycfg) (j a : nat) : Prop :=
  sw_hold (y_switch g j) = [] /\ length (here a (sw_actions (y_switch g j))) = 1%nat /\
  forall k, k <> j -> here a (sw_actions (y_switch g k) ++ sw_hold (y_switch g k)) = [].
(* Its parameter is used by no other action. *)
Definition own_parameter (g : ycfg) (a : nat) : Prop := forall k, k <> a -> a_map (y_action g k) <> a_map (y_action g a).

(* The off value does not depend on what the device reports. *)
Definition fixed_off (x : offval) : option setval :=
  match x with
  | OOne (Some z) => Some (SOne z)
  | OMany l => match all_some l with Some zs => Some (SMany zs) | None => None end
  | OOne None => None
  end.

(* mapping.value as a number *)
Definition known (s : sys) (m : mid) : option Z := num (val (maps (y_cl s) m)).

(* What a stored value means for the display. *)
Definition means_on (c : bcfg) (v : option Z) : Prop := exists z, v = Some z /\ compares (bc_mode c) z (bc_ref c).
(* What a poll leaves on the display: the wish; a one shot button goes off when it is released. *)
Definition shown_after_poll (c : acfg) (j : nat) (ops : list yop) (lit : bool) (o : yop) : bool :=
  match wish c j ops lit o with
  | Some b => b
  | None =>
      match o, a_mode c with
      | YPoll k false _, ONE_SHOT => if (k =? j)%nat && held j ops then false else lit
      | _, _ => lit
      end
  end.

(* Parameters and values fit together: every message the actions send can be built. *)
Definition sendable (g : ycfg) (maps0 : mid -> mapping) (a : nat) : Prop :=
  fits (maps0 (a_map (y_action g a))) (set_arg (bc_enable (a_cb (y_action g a)))) /\
  exists w, fixed_off (bc_disable (a_cb (y_action g a))) = Some w /\ fits (maps0 (a_map (y_action g a))) (set_arg w).

(* The whole sequence of messages a history should send: one for each wish. [step] lists the operations with their events. *)
Fixpoint wished (c : acfg) (j a : nat) (on off : msg) (past : list yop) (lit : bool) (step : list (yop * list yevent)) : list (list msg) :=
  match step with
  | [] => []
  | (o, e) :: step' =>
      (match wish c j past lit o with Some b => [[if b then on else off]] | None => [] end) ++
      wished c j a on off (past ++ [o]) (lit_after a lit e) step'
  end.
