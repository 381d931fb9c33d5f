(* The composition of switches, push button actions, binary parameter callbacks and the client, as wired by
   controller/controller.py, controller/actions/__init__.py and controller/callbacks/__init__.py:
   switch.process -> action.push / release -> state setter -> callback.state_changed_by_user -> client.set, client.request,
   and back: client.receive -> callback.parameter_changed / request_terminated -> action.update_displays.
   The parts are the models of the single classes; this file contains the wiring only.
   Simplifications: actions have a callback with one mapping, no mapping_disable, a fixed colour and no enable callback;
   numeric parameters. *)
From Verif.Lib Require Import Base.
From Verif.Model Require Import Midi Period Mapping Client Switch PushButton BinaryCb.
Open Scope Z_scope.

(* An action: its mode and hold time (actions/__init__.py:193-230), its callback (callbacks/__init__.py:79-167), the
   mapping of the callback and its colour. *)
Record acfg := mkAcfg { a_mode : mode; a_hold : Z; a_cb : bcfg; a_map : mid; a_color : Z }.
(* The device configuration: switches and actions are identified by numbers. [sw_actions] and [sw_hold] of a switch
   contain action numbers. [y_bi] are the mappings handled by a bidirectional protocol. *)
Record ycfg := mkYcfg { y_switch : nat -> switch_cfg; y_switch_hold : nat -> Z; y_action : nat -> acfg; y_bi : mid -> bool }.

(* Changing parts of an action: period of the button, and the callback's state; action.state is [b_on] of the latter. *)
Record astate := mkA { a_period : period; a_b : bstate }.
Record sys := mkSys { y_sw : nat -> switch; y_act : nat -> astate; y_cl : client }.

(* What can be observed: messages sent, with the argument of the set call, and switch colours. *)
Inductive yevent :=
| YSet (m : mid) (v : setarg) (w : list msg)
| YReq (m : mid) (w : list msg)
| YShow (a : nat) (color : Z) (lit : bool).

Definition fupd {A} (f : nat -> A) (k : nat) (x : A) : nat -> A := fun j => if (j =? k)%nat then x else f j.
Definition put_act (s : sys) (a : nat) (x : astate) : sys := mkSys (y_sw s) (fupd (y_act s) a x) (y_cl s).
Definition put_cl (s : sys) (c : client) : sys := mkSys (y_sw s) (y_act s) c.
Definition put_sw (s : sys) (j : nat) (x : switch) : sys := mkSys (fupd (y_sw s) j x) (y_act s) (y_cl s).

(* The callback object as a listener: it clears the value of its mapping when a request terminates
   (callbacks/__init__.py:51-60). *)
Definition listener_of (a : nat) : ext := mkExt a true.
Definition num (v : option value) : option Z := match v with Some (VNum n) => Some n | _ => None end.

(* actions/__init__.py:136-141 update_displays -> callbacks/__init__.py:232-248 *)
Definition act_show (g : ycfg) (s : sys) (a : nat) (v : option Z) : sys * list yevent :=
  let x := y_act s a in
  let '(b, ev) := update_displays (a_cb (y_action g a)) (a_b x) v (a_color (y_action g a)) in
  (put_act s a (mkA (a_period x) b),
   flat_map (fun e => match e with EShow c lit _ => [YShow a c lit] | _ => [] end) ev).

(* What the events of a client call cause. [arg] is the argument of the call if it was set(). *)
Definition deliver1 (g : ycfg) (arg : setarg) (s : sys) (e : event) : sys * list yevent :=
  match e with
  | EvSet m w => (s, [YSet m arg w])
  | EvReqSent m w => (s, [YReq m w])
  | EvChanged (LExt x) _ v => act_show g s (x_id x) (num v)         (* actions/__init__.py:16-18 *)
  | EvTerminated (LExt x) _ => act_show g s (x_id x) None           (* callbacks/__init__.py:51-60, actions/__init__.py:20-22 *)
  | _ => (s, [])
  end.
Fixpoint deliver (g : ycfg) (arg : setarg) (s : sys) (evs : list event) : sys * list yevent :=
  match evs with
  | [] => (s, [])
  | e :: evs' => let '(s1, o1) := deliver1 g arg s e in let '(s2, o2) := deliver g arg s1 evs' in (s2, o1 ++ o2)
  end.

(* One call of the client. *)
Definition call (g : ycfg) (s : sys) (o : op) : res (sys * list yevent) :=
  match cstep (y_bi g) (y_cl s) o with
  | Raise => Raise
  | Ok (c, evs) => Ok (deliver g (match o with Set_ _ _ v => v | _ => One 0 end) (put_cl s c) evs)
  end.

Definition set_arg (v : setval) : setarg := match v with SOne z => One z | SMany l => Many l end.

(* The effects of the callback: callbacks/__init__.py:197-222 *)
Fixpoint perform (g : ycfg) (a : nat) (now : Z) (s : sys) (evs : list bevent) : res (sys * list yevent) :=
  match evs with
  | [] => Ok (s, [])
  | e :: evs' =>
      let m := a_map (y_action g a) in
      match (match e with
             | ESet _ v => call g s (Set_ now m (set_arg v))
             | EAsk => call g s (Request now m (Some (listener_of a)))
             | EShow _ _ _ => Ok (s, [])                    (* not produced by state_changed *)
             end) with
      | Raise => Raise
      | Ok (s1, o1) => match perform g a now s1 evs' with Raise => Raise | Ok (s2, o2) => Ok (s2, o1 ++ o2) end
      end
  end.

(* The effects of the button: actions/__init__.py:239-249. [Command]: the callback's state_changed_by_user;
   [ShowState]: update_displays. *)
Fixpoint effects (g : ycfg) (a : nat) (now : Z) (s : sys) (evs : list button_ev) : res (sys * list yevent) :=
  match evs with
  | [] => Ok (s, [])
  | e :: evs' =>
      match (match e with
             | Command _ => perform g a now s (state_changed (a_cb (y_action g a)) (a_b (y_act s a)))
             | ShowState => Ok (act_show g s a (num (val (maps (y_cl s) (a_map (y_action g a))))))
             end) with
      | Raise => Raise
      | Ok (s1, o1) => match effects g a now s1 evs' with Raise => Raise | Ok (s2, o2) => Ok (s2, o1 ++ o2) end
      end
  end.

(* action.push() / action.release() on the shared action.state *)
Definition set_on (b : bstate) (on : bool) : bstate := mkB on (b_cur b) (b_disp b) (b_col b) (b_off b).
Definition button_of (g : ycfg) (s : sys) (a : nat) : button :=
  mkButton (a_mode (y_action g a)) (b_on (a_b (y_act s a))) (a_period (y_act s a)).
Definition operate (g : ycfg) (s : sys) (a : nat) (now : Z) (f : button -> Z -> button * list button_ev) : res (sys * list yevent) :=
  let '(b, evs) := f (button_of g s a) now in
  effects g a now (put_act s a (mkA (b_period b) (set_on (a_b (y_act s a)) (b_state b)))) evs.

(* inputs.py:71-154: what the switch does with its actions *)
Fixpoint drive (g : ycfg) (now : Z) (s : sys) (evs : list switch_ev) : res (sys * list yevent) :=
  match evs with
  | [] => Ok (s, [])
  | e :: evs' =>
      match (match e with
             | Push a => operate g s (Z.to_nat a) now push
             | Release a => operate g s (Z.to_nat a) now release
             | OvPush | OvRelease => Ok (s, [])
             end) with
      | Raise => Raise
      | Ok (s1, o1) => match drive g now s1 evs' with Raise => Raise | Ok (s2, o2) => Ok (s2, o1 ++ o2) end
      end
  end.

(* What happens to the device. *)
Inductive yop :=
| YInit (a : nat) (now : Z)                     (* callbacks/__init__.py:27-38: callback.init registers the mapping *)
| YUpdate (a : nat) (now : Z)                   (* callbacks/__init__.py:45-47: callback.update asks for the value *)
| YRedraw (a : nat)                             (* actions/__init__.py:113-121: reset and update_displays *)
| YPoll (j : nat) (pushed : bool) (now : Z)     (* the main loop polls a switch *)
| YReceive (now : Z) (x : option msg).          (* the main loop receives (or not) a message *)

Definition ystep (g : ycfg) (s : sys) (o : yop) : res (sys * list yevent) :=
  match o with
  | YInit a now => call g s (Register now (a_map (y_action g a)) (Some (listener_of a)))
  | YUpdate a now => call g s (Request now (a_map (y_action g a)) (Some (listener_of a)))
  | YRedraw a =>
      let x := y_act s a in
      let b := fst (bstep (a_cb (y_action g a)) (a_b x) Renew) in
      Ok (act_show g (put_act s a (mkA (a_period x) b)) a (num (val (maps (y_cl s) (a_map (y_action g a))))))
  | YPoll j pushed now =>
      let '(w, evs) := process (y_switch g j) (y_sw s j) (mkPoll pushed now (fun _ => true) None) in
      drive g now (put_sw s j w) evs
  | YReceive now x => call g s (Receive now x)
  end.

Fixpoint yrun (g : ycfg) (s : sys) (ops : list yop) : res (sys * list (list yevent)) :=
  match ops with
  | [] => Ok (s, [])
  | o :: ops' =>
      match ystep g s o with
      | Raise => Raise
      | Ok (s1, e1) => match yrun g s1 ops' with Raise => Raise | Ok (s2, es) => Ok (s2, e1 :: es) end
      end
  end.

Definition yinit (g : ycfg) (maps0 : mid -> mapping) (lifetime : Z) : sys :=
  mkSys (fun j => new_switch (y_switch_hold g j))
        (fun a => mkA (new_period (a_hold (y_action g a))) (binit (a_cb (y_action g a))))
        (init_client maps0 lifetime).
