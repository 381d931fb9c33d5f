(* What a user expects of the tabs of the web application. *)
From Coq Require Import String.
From Verif.Lib Require Import Base.
From Verif.Model Require Import Tabs.
Open Scope string_scope.
Local Open Scope list_scope.

(* The tab which can be seen: its content is visible, that of the others is not, and the buttons in the header are its own *)
Definition seen (s : tabs) (t : tab) : Prop :=
  In t (x_tabs s) /\ (forall t', In t' (x_tabs s) -> (In (t_id t') (x_shown s) <-> t' = t)) /\ (forall b, x_buttons s = Some b -> b = t_id t).
(* No tab can be seen *)
Definition none_seen (s : tabs) : Prop := (forall t, In t (x_tabs s) -> ~ In (t_id t) (x_shown s)) /\ x_buttons s = None.
Definition seen_name (s : tabs) (n : string) : Prop := exists t, seen s t /\ t_name t = n.
(* The tabs which are there once a configuration has been loaded *)
Definition base : list string := ["inputs.py"; "display.py"; "MIDI Monitor"; "Settings"].
Definition client_tab (c : option string) : list string := match c with Some n => [if String.eqb n "" then "Virtual Client" else n] | None => [] end.
(* What the user does to choose a tab *)
Definition choice (o : op) : bool := match o with Click _ | Source => true | _ => false end.
(* The client whose tab is there, and whether a configuration has been loaded, since the page has been loaded *)
Definition present (h : list op) : option string * bool :=
  fold_left (fun a o => match o with Config => (fst a, true) | Client n ui => (if ui then n else None, snd a) | Reload => (None, false) | _ => a end) h (None, false).
(* The panel is open *)
Definition open (h : list op) : bool :=
  fold_left (fun a o => match o with Source => true | Toggle => negb a | Close => false | _ => a end) h false.
(* The tab of this name is the last one which has been seen *)
Definition last_seen (h : list op) (n : string) : Prop :=
  exists h1 h2, h = h1 ++ h2 /\ seen_name (run h1) n /\ forall h3 h4 n', h2 = h3 ++ h4 -> seen_name (run (h1 ++ h3)) n' -> n' = n.
