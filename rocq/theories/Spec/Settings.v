(* C108: the last choices of the user. *)
From Coq Require Import String DecimalString.
From Verif.Lib Require Import Base.
From Verif.Model Require Import Settings.
Local Open Scope list_scope.
Local Open Scope Z_scope.

(* The last time which was typed, the last state of the checkbox; None: never changed *)
Definition last_time (h : list change) : option string := fold_left (fun a o => match o with Time t => Some t | Repeat _ => a end) h None.
Definition last_repeat (h : list change) : option bool := fold_left (fun a o => match o with Repeat b => Some b | Time _ => a end) h None.
(* The text is a whole number from 0 on *)
Definition is_number (t : string) (n : Z) : Prop := 0 <= n /\ t = NilZero.string_of_int (Z.to_int n).
