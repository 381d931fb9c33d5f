(* The popups of the web application: /repo/web/htdocs/js/ui/popups/Popup.js. All of them are shown in the same container (js/ui/PySwitchUI.js 332-345: #popupContainer).
   Left out: what is in the popups (Properties.v, Displays.v, Pages.v). *)
From Verif.Lib Require Import Base.
Local Open Scope list_scope.

(* Popups are numbered. What the functions passed as options are called for: confirmClose, onClose, onReturnKey *)
Inductive call := Asked (p : nat) | Closed (p : nat) | Returned (p : nat).
(* [w_open]: the popups whose content is in the container (#container is set); [w_visible]: the container is shown; [w_keys], [w_clicks]: the handlers of the window, in the order they have been added,
   by the popup whose namespace they have; [w_timers]: pending timeouts of show *)
Record window := mkWindow { w_open : list nat; w_visible : bool; w_keys : list nat; w_clicks : list nat; w_timers : list nat; w_calls : list call }.
Definition others (p : nat) (l : list nat) : list nat := filter (fun q => negb (Nat.eqb q p)) l.

Section Popups.
(* The options confirmClose and onClose are given *)
Variables confirms closes : nat -> bool.

(* 40-55: hide *)
Definition hide (no_callback : bool) (p : nat) (s : window) : window :=
  mkWindow (others p (w_open s)) false (others p (w_keys s)) (others p (w_clicks s)) (w_timers s)
    (w_calls s ++ if negb no_callback && closes p then [Closed p] else []).
(* 60-126: show *)
Definition show (p : nat) (s : window) : window :=
  let s := hide true p s in
  mkWindow (w_open s ++ [p]) true (w_keys s ++ [p]) (w_clicks s) (w_timers s ++ [p]) (w_calls s).
(* 121-125: the timeout of show *)
Definition timer (s : window) : window :=
  match w_timers s with [] => s | p :: l => mkWindow (w_open s) (w_visible s) (w_keys s) (w_clicks s ++ [p]) l (w_calls s) end.
(* 64-69: confirmAndHide. [yes]: what confirmClose returns *)
Definition confirm_and_hide (yes : nat -> bool) (s : window) (p : nat) : window :=
  if confirms p then
    let s := mkWindow (w_open s) (w_visible s) (w_keys s) (w_clicks s) (w_timers s) (w_calls s ++ [Asked p]) in
    if yes p then hide false p s else s
  else hide false p s.
(* Events of the window call the handlers which are there when the event arrives (jQuery) *)
Inductive op :=
| Show (p : nat) | Hide (p : nat) | Timer
(* 103-114: keys; 121-125: a click which is not in a popup; 93-96: the close button, if it can be seen *)
| Escape (yes : nat -> bool) | Enter | Outside (yes : nat -> bool) | Button (p : nat) (yes : nat -> bool).
Definition step (s : window) (o : op) : window :=
  match o with
  | Show p => show p s
  | Hide p => hide false p s
  | Timer => timer s
  | Escape yes => fold_left (confirm_and_hide yes) (w_keys s) s
  | Enter => mkWindow (w_open s) (w_visible s) (w_keys s) (w_clicks s) (w_timers s) (w_calls s ++ map Returned (w_keys s))
  | Outside yes => fold_left (confirm_and_hide yes) (w_clicks s) s
  | Button p yes => if existsb (Nat.eqb p) (w_open s) && w_visible s then confirm_and_hide yes s p else s
  end.
Definition run (h : list op) : window := fold_left step h (mkWindow [] false [] [] [] []).
End Popups.
