(* C71: what a screen consists of. *)
From Verif.Lib Require Import Base.
From Verif.Model Require Import Screens.

(* an element and everything in it, in the order it is listed *)
Fixpoint parts (e : elem) : list elem :=
  match e with Elem i u cs => e :: flat_map (fun c => match c with None => [] | Some c => parts c end) cs end.
Definition ids (e : elem) : list nat := map eid (parts e).
Definition is_updateable (e : elem) : bool := match e with Elem _ u _ => u end.

(* the screens shown, in order *)
Definition roots (ops : list uop) : list elem := flat_map (fun o => match o with UShow r => [r] | UUpdate => [] end) ops.
(* the elements are objects: the same one always has the same parts *)
Definition objects (rs : list elem) : Prop :=
  forall a b, In a (flat_map parts rs) -> In b (flat_map parts rs) -> eid a = eid b -> a = b.

(* the groups element i was drawn in; the screens shown on the display; the elements updated *)
Definition drawn_in (i : nat) (ev : list uev) : list nat :=
  flat_map (fun e => match e with UInit j r => if (j =? i)%nat then [r] else [] | _ => [] end) ev.
Definition shown (ev : list uev) : list nat := flat_map (fun e => match e with UScreen r => [r] | _ => [] end) ev.
(* without immediate repetitions *)
Fixpoint changes (l : list nat) : list nat :=
  match l with
  | a :: ((b :: _) as l') => if (a =? b)%nat then changes l' else a :: changes l'
  | l => l
  end.
