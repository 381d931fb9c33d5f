(* clients/kemper/__init__.py:143-257 TunerDisplayCallback, with the foot switches whose actions it overrides (controller/inputs.py:66,
   103-107, 120-122) and the display that asks it for the root element (ui/UiController.py:30-59).
   Simplifications: one clock reading per call; the strobe controller is modelled in Strobe.v. The value of the tuner parameter may change
   while a switch is processed (a push action that enables the tuner, or the command of line 249, with immediate feedback of a bidirectional
   client). As a switch reads override_action once per call, before any action is run, this is the same as the value changing right after
   the call. *)
From Verif.Lib Require Import Base.
From Verif.Model Require Import Period Switch.

(* appl.inputs: the switches 0 .. tm_n - 1 (continuous inputs have no pixels and are skipped, 218 and 228). [tm_process]: line 174. *)
Record tmcfg := mkTmcfg { tm_n : nat; tm_switch : nat -> switch_cfg; tm_hold : nat -> Z; tm_process : bool }.

(* [tm_val]: value of the mapping (163); [tm_before]: __pushed_before (169); [tm_over]: which switches have this object as override_action;
   [tm_shown]: the root shown by the display is the tuner splash. *)
Record tmode := mkTmode { tm_val : option Z; tm_before : bool; tm_over : nat -> bool; tm_sw : nat -> switch; tm_shown : bool }.
Definition tm_init (c : tmcfg) : tmode := mkTmode None false (fun _ => false) (fun j => new_switch (tm_hold c j)) false.

Inductive tmop :=
| TPoll (j : nat) (pushed : bool) (now : Z) (enabled : Z -> bool)     (* process() of switch j *)
| TValue (v : option Z)                                               (* the mapping gets the value and parameter_changed is called *)
| TLost.                                                              (* request_terminated: callbacks/__init__.py:51-60 *)

Inductive tmev :=
| TAct (j : nat) (e : switch_ev)      (* an action of switch j is pushed or released *)
| TOff                                (* client.set(mapping, 0), line 249 *)
| TDark (j : nat)                     (* white with brightness 0, lines 222-224 *)
| TReset (j : nat)                    (* all actions of switch j are reset, lines 231-232 *)
| TShow (tuner : bool).               (* another root element is shown, UiController.py:59 *)

(* 253-257 get_root *)
Definition tm_root (v : option Z) : bool := match v with Some x => x =? 1 | None => false end.

(* 235-237 push: sets the flag. 239-251 release *)
Definition tm_handle (before : bool) (j : nat) (e : switch_ev) : bool * list tmev :=
  match e with
  | OvPush => (true, [])
  | OvRelease => if negb before then (before, []) else (false, [TOff])
  | _ => (before, [TAct j e])
  end.
Fixpoint tm_handle_all (before : bool) (j : nat) (l : list switch_ev) : bool * list tmev :=
  match l with
  | [] => (before, [])
  | e :: l' => let '(b1, e1) := tm_handle before j e in let '(b2, e2) := tm_handle_all b1 j l' in (b2, e1 ++ e2)
  end.
(* What the override returns: 237, 242, 251 *)
Definition tm_accepts (c : tmcfg) (before pushed : bool) : bool :=
  if pushed then tm_process c else if negb before then false else tm_process c.

Definition upd_sw (f : nat -> switch) (j : nat) (w : switch) : nat -> switch := fun i => if (i =? j)%nat then w else f i.

Definition tm_step (c : tmcfg) (s : tmode) (o : tmop) : tmode * list tmev :=
  match o with
  | TPoll j pushed now en =>
      if (j <? tm_n c)%nat then
        let ov := if tm_over s j then Some (tm_accepts c (tm_before s) pushed) else None in
        let '(w, evs) := process (tm_switch c j) (tm_sw s j) (mkPoll pushed now en ov) in
        let '(b, out) := tm_handle_all (tm_before s) j evs in
        (mkTmode (tm_val s) b (tm_over s) (upd_sw (tm_sw s) j w) (tm_shown s), out)
      else (s, [])
  | TValue v =>
      let r := tm_root v in
      let show := if Bool.eqb r (tm_shown s) then [] else [TShow r] in         (* 210; UiController.py:45-46 *)
      if match v with Some x => x =? 1 | None => false end                     (* 215 *)
      then (mkTmode v (tm_before s) (fun j => (j <? tm_n c)%nat || tm_over s j) (tm_sw s) r,
            show ++ (if negb (tm_process c) then map TDark (seq 0 (tm_n c)) else []))
      else (mkTmode v (tm_before s) (fun j => negb (j <? tm_n c)%nat && tm_over s j) (tm_sw s) r,
            show ++ map TReset (seq 0 (tm_n c)))
  | TLost => (mkTmode None (tm_before s) (tm_over s) (tm_sw s) (tm_shown s), [])   (* UiController.py:33-34 *)
  end.
