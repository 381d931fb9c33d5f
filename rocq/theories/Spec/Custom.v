(* What a user expects of a switch which sends messages or keys. *)
From Verif.Lib Require Import Base.
From Verif.Model Require Import Switch Custom.
From Verif.Spec Require Import Switch.
Local Open Scope list_scope.

(* All messages consist of bytes *)
Definition are_bytes (l : list Z) : Prop := Forall (fun b => 0 <= b < 256) l.
Definition valid (a : simple) : Prop := match a with Message m r => are_bytes m /\ (forall d, r = Some d -> are_bytes d) | _ => True end.
(* What pushing and releasing send *)
Definition pushing (usb : bool) (a : simple) : list out := match a with Message m _ => [Midi m] | Keyboard l => if usb then map Key l else [] | Text => [] end.
Definition releasing (a : simple) : list out := match a with Message _ (Some d) => if (List.length d =? 0)%nat then [] else [Midi d] | _ => [] end.
(* At each poll where the switch goes down, all actions enabled then, in their order; where it goes up, those enabled then *)
Fixpoint sent (acts : list Z) (act : Z -> simple) (prev : bool) (h : list (poll * bool)) : list out :=
  match h with
  | [] => []
  | (p, usb) :: h =>
      (match prev, p_pushed p with
       | false, true => flat_map (fun a => pushing usb (act a)) (enabled_of p acts)
       | true, false => flat_map (fun a => releasing (act a)) (enabled_of p acts)
       | _, _ => []
       end) ++ sent acts act (p_pushed p) h
  end.
(* Complete presses of an action [a], which is enabled or disabled both when the switch goes down and when it goes up; counted if enabled *)
Inductive presses (a : Z) : list (poll * bool) -> nat -> Prop :=
| presses_nil : presses a [] 0
| presses_idle h p u n : presses a h n -> p_pushed p = false -> presses a (h ++ [(p, u)]) n
| presses_press h p0 u0 held pr ur n : presses a h n -> p_pushed p0 = true -> Forall (fun x => p_pushed (fst x) = true) held -> p_pushed pr = false -> p_enabled p0 a = p_enabled pr a ->
    presses a (h ++ (p0, u0) :: held ++ [(pr, ur)]) (if p_enabled p0 a then S n else n).
