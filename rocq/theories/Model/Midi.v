(* MIDI message values as the application sees them, and exceptions as values. *)
From Verif.Lib Require Import Base.

(* Result of a Python call: a value, or an exception that leaves the call. *)
Inductive res (A : Type) := Ok (a : A) | Raise.
Arguments Ok {A} a.
Arguments Raise {A}.

(* The message classes of adafruit_midi used by the application (controller/midi.py:6-10).
   Simplifications: the channel is only modelled in Model/Codec.v; every class other than ControlChange,
   ProgramChange, SystemExclusive and MIDIUnknownEvent is [OtherMsg], carrying its class attribute _STATUS
   ([None] models a class without it, controller/midi.py:112). Message objects are truthy (MIDIMessage
   defines neither __bool__ nor __len__, web/htdocs/python/adafruit_midi/midi_message.py:86-303). *)
Inductive msg :=
| CC (control value : Z)
| PC (patch : Z)
| SysEx (manufacturer data : list Z)
| OtherMsg (status : option Z)
| UnknownMsg (status : Z).

(* Equality of byte sequences (Python == on bytes / slices). *)
Fixpoint bytes_eqb (a b : list Z) : bool :=
  match a, b with
  | [], [] => true
  | x :: a', y :: b' => (x =? y) && bytes_eqb a' b'
  | _, _ => false
  end.
