(* C116: what the morph state should be. *)
From Verif.Lib Require Import Base.
From Verif.Model Require Import Fade.
Local Open Scope list_scope.
Local Open Scope Z_scope.

(* Pedals and sliders give 0 to 16383 *)
Definition sensible (o : op) : Prop := match o with Slide v => 0 <= v <= 16383 | _ => True end.
(* The rig whose button was pressed last *)
Definition last_rig (h : list op) : option Z := fold_left (fun a o => match o with Rig r => Some r | _ => a end) h None.
(* The morph state, given directly or by a new rig, together with the rig *)
Definition given (h : list op) : Z * option Z :=
  fold_left (fun a o => match o with Slide v => (v, snd a) | Rig r => (match snd a with Some q => if q =? r then fst a else 0 | None => 0 end, Some r) | _ => a end) h (0, None).
(* The option: on at first, as long as the checkbox was not touched *)
Definition option_on (h : list op) : bool := fold_left (fun a o => match o with Check b => b | _ => a end) h true.
(* A fade from v after n updates: 410 per update, to the end which is farther away *)
Definition faded (v : Z) (n : nat) : Z := if 8191 <? v then Z.max 0 (v - 410 * Z.of_nat n) else Z.min 16383 (v + 410 * Z.of_nat n).
