(* What a user expects of the MIDI monitor. *)
From Coq Require Import String.
From Verif.Lib Require Import Base.
From Verif.Model Require Import Monitor.
Open Scope Z_scope.
Local Open Scope list_scope.

(* Ignoring a message concerns all messages of the same name; if it has no name, the same message *)
Definition concerns (name : list Z -> option string) (m m' : list Z) : Prop :=
  match name m with Some n => name m' = Some n | None => m' = m end.
(* The row of a message *)
Definition row_of (name : list Z -> option string) (out : bool) (m : list Z) : row := Msg out (mkItem m (name m)).
(* Complete MIDI messages: status byte and data bytes, or system exclusive messages with their end *)
Inductive complete : list Z -> Prop :=
| c_three st a b : 128 <= st < 192 \/ 224 <= st < 240 \/ st = 242 -> complete [st; a; b]
| c_two st a : 192 <= st < 224 \/ st = 241 \/ st = 243 -> complete [st; a]
| c_sysex l : ~ In 247 l -> complete (240 :: l ++ [247])
| c_one st : 244 <= st -> complete [st].
(* The last rows *)
Definition last_rows (n : nat) (l : list row) : list row := skipn (List.length l - n) l.
(* All messages of a history are complete *)
Definition all_complete (h : list op) : Prop := forall out m, In (Message out m) h -> complete m.
