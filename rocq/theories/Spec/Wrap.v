(* C107: words, lines. *)
From Coq Require Import String Ascii.
From Verif.Lib Require Import Base.
Local Open Scope list_scope.

(* Space, tab, line breaks and the other separators *)
Definition separator (c : ascii) : Prop := (9 <= nat_of_ascii c <= 13 \/ 28 <= nat_of_ascii c <= 32)%nat.
Fixpoint all (P : ascii -> Prop) (s : string) : Prop := match s with EmptyString => True | String c s => P c /\ all P s end.
(* A word: not empty, no separators *)
Definition word (w : string) : Prop := w <> EmptyString /\ all (fun c => ~ separator c) w.
(* The words a text consists of, in order *)
Inductive reads : string -> list string -> Prop :=
| reads_end : reads EmptyString []
| reads_space c s ws : separator c -> reads s ws -> reads (String c s) ws
| reads_word w s ws : word w -> (s = EmptyString \/ exists c r, s = String c r /\ separator c) -> reads s ws -> reads (w ++ s)%string (w :: ws).
