(* C76: the emulator's MIDI input as a queue of messages. *)
From Verif.Lib Require Import Base.
From Verif.Model Require Import Codec Emulator.
From Verif.Spec Require Import Codec.

(* What happens: a MIDI message arrives, or the emulator ticks *)
Inductive event := Arrives (m : wmsg) | Ticks.
Definition op_of (v : event) : eop := match v with Arrives m => EArrive (wire m) | Ticks => ETick end.
Definition arrived (vs : list event) : list wmsg := flat_map (fun v => match v with Arrives m => [m] | Ticks => [] end) vs.

(* The emulator after some events. limit: maxConsecutiveMidiMessages; size: the size of the input buffer *)
Definition emulator (limit size : nat) (chans : list Z) (vs : list event) : emu := fst (run (emu_step (S limit) size chans) emu_new (map op_of vs)).
(* what the client got, in order, and what the MIDI monitor showed, in order *)
Definition client_got (limit size : nat) (chans : list Z) (vs : list event) : list wmsg := snd (run (emu_step (S limit) size chans) emu_new (map op_of vs)).
Definition monitor_got (limit size : nat) (chans : list Z) (vs : list event) : list (list Z) := em_shown (emulator limit size chans vs).

(* The first list results from the second by leaving out elements *)
Inductive part_of {A} : list A -> list A -> Prop :=
| part_nil : part_of [] []
| part_keep x l l' : part_of l l' -> part_of (x :: l) (x :: l')
| part_skip x l l' : part_of l l' -> part_of l (x :: l').
Definition beginning_of {A} (l l' : list A) : Prop := exists r, l' = l ++ r.

(* The ideal: a queue of messages. A tick takes up to [calls] messages on channels listened to from its front, dropping those on other
   channels on the way. *)
Fixpoint next (chans : list Z) (ms : list wmsg) : option wmsg * list wmsg :=
  match ms with
  | [] => (None, [])
  | m :: ms' => if accepted chans m then (Some m, ms') else next chans ms'
  end.
Fixpoint take (calls : nat) (chans : list Z) (ms : list wmsg) : list wmsg * list wmsg :=
  match calls with
  | O => ([], ms)
  | S calls' =>
      match next chans ms with
      | (None, ms') => ([], ms')
      | (Some m, ms') => let '(l, r) := take calls' chans ms' in (m :: l, r)
      end
  end.
(* old: the messages the last tick has left; new: those arrived since *)
Fixpoint queue (calls : nat) (chans : list Z) (old new : list wmsg) (vs : list event) : list wmsg :=
  match vs with
  | [] => []
  | Arrives m :: vs' => queue calls chans old (new ++ [m]) vs'
  | Ticks :: vs' => let '(l, r) := take calls chans (old ++ new) in l ++ queue calls chans r [] vs'
  end.
(* Every message arriving fits into the buffer beside what the last tick has left there *)
Fixpoint fits (calls size : nat) (chans : list Z) (old new : list wmsg) (vs : list event) : Prop :=
  match vs with
  | [] => True
  | Arrives m :: vs' => fits calls size chans old (new ++ [m]) vs'
  | Ticks :: vs' => Forall (fun m => (length (wires old) + length (wire m) <= size)%nat) new /\ fits calls size chans (snd (take calls chans (old ++ new))) [] vs'
  end.

(* Between two ticks, at most n messages of at most size bytes arrive; each group is followed by a tick *)
Definition groups (gs : list (list wmsg)) : list event := flat_map (fun g => map Arrives g ++ [Ticks]) gs.
