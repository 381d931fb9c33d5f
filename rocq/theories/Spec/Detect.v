(* C121: messages in raw bytes. *)
From Verif.Lib Require Import Base.
From Verif.Model Require Import Midi.
Open Scope Z_scope.

(* The bytes of a system exclusive message *)
Definition wire (m : msg) : option (list Z) := match m with SysEx man data => Some (0xf0 :: man ++ data ++ [0xf7]) | _ => None end.
