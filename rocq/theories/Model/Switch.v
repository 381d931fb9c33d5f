(* controller/inputs.py:6-154  SwitchController.process *)
From Verif.Lib Require Import Base.
From Verif.Model Require Import Period.

(* inputs.py:44-61: the fixed configuration. Actions are identified by numbers. *)
Record switch_cfg := mkSwitchCfg { sw_actions : list Z; sw_hold : list Z; sw_repeat : bool }.

(* inputs.py:36, 45-46, 58-61: the changing fields *)
Record switch := mkSwitch {
  pushed_state : bool; hold_active : bool; hold_was_active : bool; period_hold : period }.

Definition new_switch (hold_ms : Z) : switch := mkSwitch false false false (new_period hold_ms).

(* Everything one call of process() reads from outside: the hardware state (line 163), the clock, which actions
   are enabled (92, 131, 146; each action is asked at most once per call, just before its turn, so an arbitrary
   function per call also covers enablement changing while other actions run), and the override action, if any,
   with the truth value its push()/release() returns (103-104, 120-121).
   Simplification: one clock reading per call. *)
Record poll := mkPoll { p_pushed : bool; p_now : Z; p_enabled : Z -> bool; p_override : option bool }.

Inductive switch_ev := Push (a : Z) | Release (a : Z) | OvPush | OvRelease.

Definition each (en : Z -> bool) (f : Z -> list switch_ev) (l : list Z) : list switch_ev :=
  flat_map (fun a => if en a then f a else []) l.

(* inputs.py:137-154 __check_hold *)
Definition check_hold (c : switch_cfg) (s : switch) (p : poll) : switch * bool * list switch_ev :=
  let '(r, per) := p_exceeded (period_hold s) (p_now p) in
  if r then
    let s' := if sw_repeat c then mkSwitch (pushed_state s) (hold_active s) true per
              else mkSwitch (pushed_state s) false (hold_was_active s) per in
    (s', true, each (p_enabled p) (fun a => [Push a; Release a]) (sw_hold c))
  else (mkSwitch (pushed_state s) (hold_active s) (hold_was_active s) per, false, []).

Definition has_hold (c : switch_cfg) : bool := match sw_hold c with [] => false | _ => true end.

(* inputs.py:91-101: the tail of release(): normal actions, then flags cleared *)
Definition release_normal (c : switch_cfg) (s : switch) (p : poll) : switch * list switch_ev :=
  (mkSwitch (pushed_state s) false false (period_hold s),
   each (p_enabled p) (fun a => if has_hold c then [Push a; Release a] else [Release a]) (sw_actions c)).

(* inputs.py:78-101: the inner function release() *)
Definition do_release (c : switch_cfg) (s : switch) (p : poll) : switch * list switch_ev :=
  if has_hold c then
    if negb (hold_active s) then (s, [])                                   (* 80-81 *)
    else let '(s1, fired, ev) := check_hold c s p in
         if fired then (s1, ev)                                            (* 83-84 *)
         else if hold_was_active s1 then
                (mkSwitch (pushed_state s1) false false (period_hold s1), ev)   (* 86-89 *)
         else let '(s2, ev2) := release_normal c s1 p in (s2, ev ++ ev2)
  else release_normal c s p.

(* inputs.py:114-134: the part for a pushed switch after the hold check *)
Definition do_push (c : switch_cfg) (s : switch) (p : poll) : switch * list switch_ev :=
  if pushed_state s then (s, [])                                           (* 114-115 *)
  else
    let s1 := mkSwitch true (hold_active s) (hold_was_active s) (period_hold s) in   (* 118 *)
    let body :=
      if has_hold c
      then (mkSwitch true true (hold_was_active s1) (p_reset (period_hold s1) (p_now p)), [])  (* 125-128 *)
      else (s1, each (p_enabled p) (fun a => [Push a]) (sw_actions c)) in             (* 130-134 *)
    match p_override p with
    | None => body
    | Some accepts => if accepts then (fst body, OvPush :: snd body) else (s1, [OvPush])   (* 120-122 *)
    end.

(* inputs.py:71-134 process *)
Definition process (c : switch_cfg) (s : switch) (p : poll) : switch * list switch_ev :=
  if negb (p_pushed p) then
    if pushed_state s then
      let s1 := mkSwitch false (hold_active s) (hold_was_active s) (period_hold s) in     (* 75 *)
      match p_override p with
      | None => do_release c s1 p
      | Some accepts =>
          if accepts then let '(s2, ev) := do_release c s1 p in (s2, OvRelease :: ev)
          else (s1, [OvRelease])
      end
    else (s, [])
  else
    if hold_active s then
      let '(s1, fired, ev) := check_hold c s p in                                          (* 111-112 *)
      if fired then (s1, ev) else do_push c s1 p
    else do_push c s p.
