(* C111: sizes as texts, amounts of memory. *)
From Coq Require Import String Ascii DecimalString.
From Verif.Lib Require Import Base.
From Verif.Model Require Import Memory.
Local Open Scope list_scope.
Local Open Scope Z_scope.

(* The units, with the number of bytes *)
Definition units : list string := [" B"; " KiB"; " MiB"; " GiB"; " TiB"; " PiB"; " EiB"; " ZiB"; "YiB"]%string.
Definition decimal (n : Z) (s : string) : Prop := exists i, NilZero.int_of_string s = Some i /\ Z.of_int i = n.
(* The text is the number of tenths t, with sign if negative, in the k-th unit *)
Definition says (negative : bool) (t : Z) (k : nat) (s : string) : Prop :=
  exists whole tenth u, nth_error units k = Some u /\ decimal (t / 10) whole /\ decimal (t mod 10) tenth /\ String.length tenth = 1%nat /\
    s = ((if negative then "-" else "") ++ whole ++ "." ++ tenth ++ u)%string.
(* What has been allocated after the last start, according to the lines *)
Fixpoint sum_allocated (l : list line) : Z := match l with [] => 0 | Watched a _ :: l => a + sum_allocated l | _ :: l => sum_allocated l end.
Definition free_of (l : line) : Z := match l with Starting f _ => f | Watched _ f => f end.
Definition is_watch (c : call) : Prop := match c with Watch _ _ => True | _ => False end.
