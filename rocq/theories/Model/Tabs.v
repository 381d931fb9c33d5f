(* The tabs of the web application: /repo/web/htdocs/js/ui/tabs/Tabs.js, Tab.js, js/misc/LocalState.js, and where tabs come from: js/ui/PySwitchUI.js 642-690, 709-740.
   Left out: the width of the panel; the contents of the tabs (Session.v, Monitor.v). *)
From Coq Require Import String.
From Verif.Lib Require Import Base.
Open Scope string_scope.
Local Open Scope list_scope.

(* Tab.js 4-17. [t_id] tells apart tabs of the same name (objects); [t_own]: it has its own buttons for the header (64-66, CodeEditor.js 60-74) *)
Record tab := mkTab { t_id : nat; t_name : string; t_own : bool }.
(* Local storage: Tabs.js 72, 154, 166, 191 *)
Record store := mkStore { st_current : option string; st_show : bool }.
(* [x_tabs]: #tabs; [x_active]: active; [x_shown]: the tabs whose content is visible and whose header is marked (Tab.js 84-105); [x_buttons]: the tab whose buttons are in the header (Tabs.js 196-200), if it has any;
   [x_panel]: the panel is visible; [x_client]: #virtualClientTab of PySwitchUI.js; [x_base]: the tabs for the files, the monitor and the settings have been made; [x_next]: for new objects *)
Record tabs := mkTabs { x_tabs : list tab; x_active : option nat; x_shown : list nat; x_buttons : option nat; x_panel : bool; x_store : store; x_client : option tab; x_base : bool; x_next : nat }.

Definition with_active (s : tabs) (a : option nat) : tabs := mkTabs (x_tabs s) a (x_shown s) (x_buttons s) (x_panel s) (x_store s) (x_client s) (x_base s) (x_next s).
Definition with_list (s : tabs) (l : list tab) (shown : list nat) : tabs := mkTabs l (x_active s) shown (x_buttons s) (x_panel s) (x_store s) (x_client s) (x_base s) (x_next s).
Definition with_buttons (s : tabs) (b : option nat) : tabs := mkTabs (x_tabs s) (x_active s) (x_shown s) b (x_panel s) (x_store s) (x_client s) (x_base s) (x_next s).
Definition with_client (s : tabs) (c : option tab) : tabs := mkTabs (x_tabs s) (x_active s) (x_shown s) (x_buttons s) (x_panel s) (x_store s) c (x_base s) (x_next s).
Definition with_store (s : tabs) (d : store) : tabs := mkTabs (x_tabs s) (x_active s) (x_shown s) (x_buttons s) (x_panel s) d (x_client s) (x_base s) (x_next s).

Definition is_active (s : tabs) (t : tab) : bool := match x_active s with Some a => Nat.eqb (t_id t) a | None => false end.
(* Tabs.js 216-224: #updateActive. Containers and headers of tabs which are not in the list are not changed *)
Definition update_active (s : tabs) : tabs :=
  with_list s (x_tabs s) (filter (fun i => negb (existsb (fun t => Nat.eqb (t_id t) i) (x_tabs s))) (x_shown s) ++ map t_id (filter (is_active s) (x_tabs s))).
(* Tabs.js 118-123: getTabByName *)
Definition by_name (s : tabs) (n : string) : option tab := find (fun t => String.eqb (t_name t) n) (x_tabs s).
(* Tabs.js 185-201: setActive *)
Definition set_active (s : tabs) (t : tab) : tabs :=
  let s := update_active (with_active s (Some (t_id t))) in
  let s := with_store s (mkStore (Some (t_name t)) (st_show (x_store s))) in
  with_buttons s (if t_own t then Some (t_id t) else None).
(* Tabs.js 206-211: setActiveByName *)
Definition set_active_by_name (s : tabs) (n : string) : tabs := match by_name s n with Some t => set_active s t | None => s end.
(* Tabs.js 229-247: #update *)
Definition update (s : tabs) : tabs :=
  match x_tabs s, x_active s with
  | t :: _, None =>
      match st_current (x_store s) with
      | Some c =>
          if String.eqb c "" then set_active s t
          else match by_name s c with Some t' => set_active s t' | None => update_active s end
      | None => set_active s t
      end
  | _, _ => update_active s
  end.
(* Tabs.js 82-95: add. The content of a new tab is visible until it is updated *)
Definition add (s : tabs) (t : tab) : tabs := update (with_list s (x_tabs s ++ [t]) (x_shown s ++ [t_id t])).
Definition new_tab (s : tabs) (n : string) (own : bool) : tab * tabs :=
  (mkTab (x_next s) n own, mkTabs (x_tabs s) (x_active s) (x_shown s) (x_buttons s) (x_panel s) (x_store s) (x_client s) (x_base s) (S (x_next s))).
Definition add_new (s : tabs) (n : string) : tabs := let (t, s) := new_tab s n true in add s t.
(* Tabs.js 100-113: remove, with Tab.js 27-33: destroy. Only the tabs of clients are removed, which have nothing to confirm (Tab.js 73-75) *)
Definition remove (s : tabs) (t : tab) : tabs :=
  let s := with_list s (x_tabs s) (filter (fun i => negb (Nat.eqb i (t_id t))) (x_shown s)) in
  let s := if is_active s t then with_active s None else s in
  update (with_list s (filter (fun t' => negb (Nat.eqb (t_id t') (t_id t))) (x_tabs s)) (x_shown s)).
(* Tabs.js 137-166: show, hide *)
Definition set_panel (s : tabs) (b : bool) : tabs :=
  mkTabs (x_tabs s) (x_active s) (x_shown s) (x_buttons s) b (mkStore (st_current (x_store s)) b) (x_client s) (x_base s) (x_next s).
(* Tabs.js 18-26, 31-77: the page is loaded *)
Definition load (d : store) : tabs := set_panel (mkTabs [] None [] None false d None false 0) (st_show d).

(* PySwitchUI.js 642-690: a configuration is loaded, or restarted *)
Definition base_names : list string := ["inputs.py"; "display.py"; "MIDI Monitor"; "Settings"].
Definition with_base (s : tabs) : tabs := mkTabs (x_tabs s) (x_active s) (x_shown s) (x_buttons s) (x_panel s) (x_store s) (x_client s) true (x_next s).
Definition apply_config (s : tabs) : tabs :=
  if x_base s then s
  else with_base (fold_left add_new base_names s).
(* PySwitchUI.js 709-740: showVirtualClient. [c]: the name of the client, if there is a virtual client; [ui]: it has a user interface.
   Simplification: #virtualClientTab is cleared before and not after the tab is removed, which does not use it *)
Definition show_client (s : tabs) (c : option string) (ui : bool) : tabs :=
  let s := match x_client s with Some t => remove (with_client s None) t | None => s end in
  match c with
  | None => s
  | Some n =>
      if ui then let (t, s) := new_tab s (if String.eqb n "" then "Virtual Client" else n) false in add (with_client s (Some t)) t
      else s
  end.

Inductive op :=
(* A configuration is loaded; a client is connected *)
| Config | Client (name : option string) (ui : bool)
(* The header of the tab at this place is clicked; the link to the source code in the dialog for actions (ParserFrontendInput.js 482-487) *)
| Click (k : nat) | Source
(* The button for the panel, the button in its header *)
| Toggle | Close
| Reload.
Definition step (s : tabs) (o : op) : tabs :=
  match o with
  | Config => apply_config s
  | Client n ui => show_client s n ui
  | Click k => match nth_error (x_tabs s) k with Some t => set_active s t | None => s end
  | Source => set_active_by_name (set_panel s true) "inputs.py"
  | Toggle => set_panel s (negb (x_panel s))
  | Close => set_panel s false
  | Reload => load (x_store s)
  end.
Definition run (h : list op) : tabs := fold_left step h (load (mkStore None false)).
