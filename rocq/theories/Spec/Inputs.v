(* What a user expects of the inputs of the emulated controller. *)
From Verif.Lib Require Import Base.
From Verif.Model Require Import Switch Inputs.
Local Open Scope list_scope.

(* Only the mouse is used; only touches, none of them canceled *)
Definition mouse (a : act) : Prop := match a with MoveTo _ | Press | LetGo => True | _ => False end.
(* The mouse holds a switch: its button went down above it, and has not been released since, nor has the pointer left the switch. [b]: the button is down; [o]: what is below; [h]: what is held *)
Fixpoint holds (o : option nat) (b : bool) (h : option nat) (l : list act) : option nat :=
  match l with
  | [] => h
  | MoveTo t :: l => holds t b (match h, t with Some i, Some j => if Nat.eqb i j then h else None | _, _ => None end) l
  | Press :: l => holds o true (if b then h else o) l
  | LetGo :: l => holds o false None l
  | _ :: l => holds o b h l
  end.
(* A finger is on a switch. One finger at a time on each *)
Definition touched (i : nat) (l : list act) : bool :=
  fold_left (fun t a => match a with TouchStart j => if Nat.eqb j i then true else t | TouchEnd j | TouchCancel j => if Nat.eqb j i then false else t | _ => t end) l false.
Definition touch (a : act) : Prop := match a with TouchStart _ | TouchEnd _ => True | _ => False end.
(* The controller polls the switch at least once after each thing the user does with the mouse *)
Inductive slow : list op -> Prop :=
| slow_nil : slow []
| slow_poll h t en : slow h -> slow (h ++ [Poll t en])
| slow_act h a t en : slow h -> mouse a -> slow (h ++ [Do a; Poll t en]).
Definition acts_of (h : list op) : list act := flat_map (fun o => match o with Do a => [a] | Poll _ _ => [] end) h.
(* How often the button of the mouse goes down above a switch *)
Fixpoint clicks (i : nat) (o : option nat) (b : bool) (l : list act) : nat :=
  match l with
  | [] => 0
  | MoveTo t :: l => clicks i t b l
  | Press :: l => (if b then 0 else match o with Some j => if Nat.eqb j i then 1 else 0 | None => 0 end) + clicks i o true l
  | LetGo :: l => clicks i o false l
  | _ :: l => clicks i o b l
  end.
Definition enabled_always (a : Z) (h : list op) : Prop := forall t en, In (Poll t en) h -> en a = true.
Definition pushes (a : Z) (l : list switch_ev) : nat := List.length (filter (fun e => match e with Push b => b =? a | _ => false end) l).
Definition releases (a : Z) (l : list switch_ev) : nat := List.length (filter (fun e => match e with Release b => b =? a | _ => false end) l).
(* How far the wheel has been dragged: the sum of the distances moved while held. [x]: where the pointer has been seen last *)
Fixpoint dragged (x : option Z) (l : list drag) : Z :=
  match l with
  | [] => 0
  | PointerDown x' :: l => dragged (Some x') l
  | PointerMove x' :: l => match x with Some x0 => (x' - x0) + dragged (Some x') l | None => dragged None l end
  | PointerUp :: l => dragged None l
  end.
