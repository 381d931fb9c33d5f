(* ui/ui.py:30-97 DisplayElement, ui/UiController.py, misc.py:62-79 Updater: screens (splashes) made of display elements. *)
From Verif.Lib Require Import Base.

(* A display element: which object it is, whether it is an Updateable, and its children (None entries are allowed). Elements created by
   an element for itself (TunerDisplay, elements.py:342-368) are children like others. Adding children later (ui.py:78-82) is left out. *)
Inductive elem := Elem (i : nat) (updateable : bool) (children : list (option elem)).
Definition eid (e : elem) : nat := match e with Elem i _ _ => i end.

(* __initialized of all elements *)
Definition flags := nat -> bool.
Definition set_flag (f : flags) (i : nat) : flags := fun j => (j =? i)%nat || f j.

(* ui.py:66-75 initialized *)
Fixpoint initialized (f : flags) (e : elem) : bool :=
  match e with
  | Elem i _ cs => forallb (fun c => match c with None => true | Some c => initialized f c end) cs && f i
  end.

(* What happens: element i is initialised, which draws it in the group of the root element; a root is shown; element i is updated *)
Inductive uev := UInit (i root : nat) | UScreen (root : nat) | UUpd (i : nat).

Definition init_list (init : elem -> flags -> flags * list uev) : list (option elem) -> flags -> flags * list uev :=
  fix go l f := match l with
                | [] => (f, [])
                | None :: l' => go l' f
                | Some c :: l' => if initialized f c then go l' f
                                  else let '(f1, e1) := init c f in let '(f2, e2) := go l' f1 in (f2, e1 ++ e2)
                end.
(* ui.py:47-59 init *)
Fixpoint init (root : nat) (e : elem) (f : flags) : flags * list uev :=
  match e with
  | Elem i _ cs => let '(f1, ev) := init_list (init root) cs (set_flag f i) in (f1, UInit i root :: ev)
  end.

(* ui.py:85-95 contents_flat, restricted to Updateables (UiController.py:55) *)
Fixpoint updateables (e : elem) : list nat :=
  match e with
  | Elem i u cs => (if u then [i] else []) ++ flat_map (fun c => match c with None => [] | Some c => updateables c end) cs
  end.

(* __current_splash_element, updateables, flags *)
Record screens := mkScreens { sc_cur : option nat; sc_upd : list nat; sc_flags : flags }.
Definition sc_init : screens := mkScreens None [] (fun _ => false).
Inductive uop :=
| UShow (root : elem)      (* show (also by parameter_changed), get_root returning this element *)
| UUpdate.                 (* update *)
(* UiController.py:30-31, 37-38, 41-59. The group is created once per root (ui.py:62-67). *)
Definition ustep (s : screens) (o : uop) : screens * list uev :=
  match o with
  | UShow r =>
      if match sc_cur s with Some c => (eid r =? c)%nat | None => false end then (s, [])
      else let '(f, ev) := if initialized (sc_flags s) r then (sc_flags s, []) else init (eid r) r (sc_flags s) in
           (mkScreens (Some (eid r)) (updateables r) f, ev ++ [UScreen (eid r)])
  | UUpdate => (s, map UUpd (sc_upd s))
  end.
