(* C73: effect buttons. *)
From Verif.Lib Require Import Base.
From Verif.Model Require Import BinaryCb EffectButton.

Definition is_on (s : xstate) : bool := b_on (x_b s).
(* on or off, as the user counts: every press toggles, a new rig starts with off *)
Definition count (on : bool) (o : xop) : bool :=
  match o with XPush => negb on | XRig | XReset => false | XTick | XEnable _ => on end.
Definition counted (on : bool) (ops : list xop) : bool := fold_left count ops on.
(* what the presses send: 1 if that switches on, else 0 *)
Fixpoint presses (on : bool) (ops : list xop) : list Z :=
  match ops with
  | [] => []
  | o :: l => match o with XPush => [if on then 0 else 1] | _ => [] end ++ presses (count on o) l
  end.
Definition sent (ev : list xev) : list Z :=
  flat_map (fun x => match x with XE _ (ESet _ (SOne v)) => [v] | _ => [] end) ev.
(* lit or not, as drawn last *)
Definition lit_now (ev : list xev) : option bool :=
  fold_left (fun l x => match x with XE _ (EShow _ b _) => Some b | _ => l end) ev None.
Definition stays (o : xop) : Prop := match o with XEnable _ => False | _ => True end.
(* the button is new, or not visible for a while *)
Definition hidden_before (ops : list xop) : Prop := ops = [] \/ exists l, ops = l ++ [XEnable false; XTick].
