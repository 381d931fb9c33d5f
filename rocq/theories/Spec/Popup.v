(* What a user expects of popups. *)
From Verif.Lib Require Import Base.
From Verif.Model Require Import Popup.
Local Open Scope list_scope.

(* The popup can be seen *)
Definition seen (s : window) (p : nat) : Prop := In p (w_open s) /\ w_visible s = true.
(* Trying to close a popup: the user is asked if the popup wants that, and if it closes, it is told so, once *)
Definition closes_now (confirms : nat -> bool) (yes : nat -> bool) (p : nat) : bool := negb (confirms p) || yes p.
Definition closing (confirms closes : nat -> bool) (yes : nat -> bool) (p : nat) : list call :=
  (if confirms p then [Asked p] else []) ++ (if closes_now confirms yes p && closes p then [Closed p] else []).
(* Nothing happens before the timeout of a popup which has been opened *)
Inductive settled : list op -> Prop :=
| settled_nil : settled []
| settled_show h p : settled h -> settled (h ++ [Show p; Timer])
| settled_other h o : settled h -> (forall p, o <> Show p) -> settled (h ++ [o]).
(* No popup is opened or closed by the application while another one is open *)
Definition alone (confirms closes : nat -> bool) (h : list op) : Prop :=
  forall h1 o h2 p, h = h1 ++ o :: h2 -> o = Show p \/ o = Hide p -> forall q, In q (w_open (run confirms closes h1)) -> q = p.
