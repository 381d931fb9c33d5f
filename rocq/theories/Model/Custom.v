(* Actions which send fixed messages or keys: clients/local/actions/custom.py 34-67 (_CustomMessageCallback), hid.py 37-69 (HidCallback), fixed_text.py 24-52 (_DisplayMessageCallback),
   called by controller/actions/__init__.py 131-138 (Action.push, release) on a switch (Switch.v).
   Left out: what is shown (update_displays). *)
From Verif.Lib Require Import Base.
From Verif.Model Require Import Switch.
Local Open Scope list_scope.

(* custom.py 8-33, hid.py 11-34, fixed_text.py 5-21: a single key code is a list of one (hid.py 46) *)
Inductive simple := Message (message : list Z) (message_release : option (list Z)) | Keyboard (keycodes : list Z) | Text.
(* What leaves the device: a MIDI message, a key *)
Inductive out := Midi (bytes : list Z) | Key (code : Z).

(* custom.py 36-38: bytearray(data) raises for values which are no bytes *)
Definition raw (data : list Z) : option (list out) := if forallb (fun b => (0 <=? b) && (b <? 256)) data then Some [Midi data] else None.
(* custom.py 58-59, hid.py 48-54 (the keyboard is not there if USB is not connected, 64-69), fixed_text.py 48-49 *)
Definition on_push (usb : bool) (a : simple) : option (list out) :=
  match a with
  | Message m _ => raw m
  | Keyboard l => Some (if usb then map Key l else [])
  | Text => Some []
  end.
(* custom.py 61-63, hid.py 56-57, fixed_text.py 51-52 *)
Definition on_release (a : simple) : option (list out) :=
  match a with
  | Message _ (Some (b :: r)) => raw (b :: r)
  | _ => Some []
  end.
(* Switches without override *)
Definition on_event (usb : bool) (acts : Z -> simple) (e : switch_ev) : option (list out) :=
  match e with Push a => on_push usb (acts a) | Release a => on_release (acts a) | OvPush | OvRelease => Some [] end.
(* An exception ends the program *)
Fixpoint on_events (usb : bool) (acts : Z -> simple) (l : list switch_ev) : option (list out) :=
  match l with
  | [] => Some []
  | e :: l => match on_event usb acts e with Some o => match on_events usb acts l with Some o' => Some (o ++ o') | None => None end | None => None end
  end.
(* The main loop: the switch is polled again and again, with USB connected or not *)
Fixpoint run (c : switch_cfg) (acts : Z -> simple) (s : switch) (h : list (poll * bool)) : option (list out) :=
  match h with
  | [] => Some []
  | (p, usb) :: h =>
      let (s, ev) := process c s p in
      match on_events usb acts ev with Some o => match run c acts s h with Some o' => Some (o ++ o') | None => None end | None => None end
  end.
