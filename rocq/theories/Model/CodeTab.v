(* A tab with the code of a file in the web application: /repo/web/htdocs/js/ui/editors/CodeEditor.js, with js/ui/tabs/Tabs.js 150, 194 (refresh), js/model/parser/Parser.js 255-277 and js/Controller.js 209-247
   (restart). The whole application, without the timeouts modelled here, is in Session.v.
   Left out: the history of changes of the editor component (CodeMirror); undoing is like typing. *)
From Coq Require Import String.
From Verif.Lib Require Import Base.
Local Open Scope list_scope.

(* [k_text]: what the editor component contains; [k_mark]: #dirty, the button for applying is active; [k_timers]: contents to be set by pending timeouts; [k_code]: the code of the configuration which is open *)
Record tab := mkTab { k_text : string; k_mark : bool; k_timers : list string; k_code : option string }.
Definition new_tab : tab := mkTab "" false [] None.
(* 78-83: setConfig, with 156-181: #setContent by a timeout *)
Definition set_config (s : tab) (c : string) : tab := mkTab (k_text s) false (k_timers s ++ [c]) (Some c).
(* 159-167: #setContent. The editor component tells the change, which sets the mark (51-53), then the mark is set back *)
Definition set_content (s : tab) (c : string) : tab :=
  let s' := mkTab c true (k_timers s) (k_code s) in
  mkTab (k_text s') (if k_mark s then true else false) (k_timers s') (k_code s').
(* 168-180: the timeout *)
Definition fire (s : tab) : tab := match k_timers s with [] => s | c :: l => set_content (mkTab (k_text s) (k_mark s) l (k_code s)) c end.
Inductive op :=
(* A configuration is opened, changed by other parts of the application, or restarted: setConfig has its code *)
| Open (c : string)
(* The user changes the text (51-53) *)
| Type_ (t : string)
(* The tab or the panel is shown: refresh (191-194) *)
| Show
| Fire
(* 88-98: apply. [ok]: the parser accepts the code; if not, it raises after the configuration has been changed (Parser.js 258-274) *)
| Apply (ok : bool).
Definition step (s : tab) (o : op) : tab :=
  match o with
  | Open c => set_config s c
  | Type_ t => mkTab t true (k_timers s) (k_code s)
  | Show => mkTab (k_text s) (k_mark s) (k_timers s ++ [k_text s]) (k_code s)
  | Fire => fire s
  | Apply ok =>
      match k_code s with
      | None => s
      | Some _ =>
          let s := mkTab (k_text s) (k_mark s) (k_timers s) (Some (k_text s)) in
          if ok then set_config (mkTab (k_text s) false (k_timers s) (k_code s)) (k_text s) else s
      end
  end.
Definition run (h : list op) : tab := fold_left step h new_tab.
