(* The MIDI monitor of the web application: /repo/web/htdocs/js/ui/misc/MidiMonitor.js, /repo/web/htdocs/js/misc/LocalState.js, Tools.js 50-62. Left out: the formats (hex, bytes, values), which only
   change how rows look; messages which are missing (shown as a text, 313). [name]: the name the virtual clients give to a message (493-501), which does not depend on the state of the monitor. *)
From Coq Require Import String.
From Verif.Lib Require Import Base.
Open Scope Z_scope.
Local Open Scope list_scope.

(* What is ignored: bytes and name of the message which has been chosen (325-328) *)
Record item := mkItem { i_msg : list Z; i_name : option string }.
Inductive row := Comment (text : string) | Msg (out : bool) (it : item).
(* Local storage (258, 274, 445, 459) *)
Record store := mkStore { s_run : bool; s_exclude : list item }.
Record monitor := mkMonitor { m_run : bool; m_rows : list row; m_exclude : list item; m_store : store }.

(* 508-516: #cleanup *)
Definition max_rows : nat := 100.
Fixpoint cleanup (l : list row) : list row := match l with [] => [] | _ :: l' => if (max_rows <? List.length l)%nat then cleanup l' else l end.
(* 366-380: addComment *)
Definition add_row (s : monitor) (r : row) : monitor := mkMonitor (m_run s) (cleanup (m_rows s ++ [r])) (m_exclude s) (m_store s).
(* 247-259, 264-275: #resume, #stop *)
Definition set_run (s : monitor) (b : bool) : monitor := mkMonitor b (m_rows s) (m_exclude s) (mkStore b (s_exclude (m_store s))).
Definition resume (s : monitor) : monitor := set_run (if m_run s then s else add_row s (Comment "resumed")) true.
Definition stop (s : monitor) : monitor := set_run (if m_run s then add_row s (Comment "stopped") else s) false.

(* Tools.js 50-62: compareArrays *)
Fixpoint compare (a b : list Z) : bool := match a, b with [], [] => true | x :: a, y :: b => (x =? y) && compare a b | _, _ => false end.
(* 385-396: #doExclude *)
Definition excludes (it e : item) : bool :=
  match i_name it, i_name e with
  | Some n, Some n' => negb (String.eqb n' "") && String.eqb n' n
  | _, _ => compare (firstn (List.length (i_msg e)) (i_msg it)) (i_msg e)
  end.
Definition do_exclude (s : monitor) (it : item) : bool := existsb (excludes it) (m_exclude s).
(* 311-361: addMessage *)
Definition add_message (s : monitor) (out : bool) (it : item) : monitor :=
  if negb (m_run s) then s else if do_exclude s it then s else add_row s (Msg out it).

Definition set_exclude (s : monitor) (l : list item) : monitor := mkMonitor (m_run s) (m_rows s) l (mkStore (s_run (m_store s)) l).
(* 423-432: #excludeMessage. The objects have no property "name", so these are always equal. *)
Definition exclude_message (s : monitor) (it : item) : monitor :=
  if existsb (fun e => compare (i_msg e) (i_msg it)) (m_exclude s) then s else set_exclude s (m_exclude s ++ [it]).
(* 437-446: #includeMessage *)
Definition include_message (s : monitor) (it : item) : monitor := set_exclude s (filter (fun e => negb (compare (i_msg e) (i_msg it))) (m_exclude s)).
(* 501-503: #clear *)
Definition clear (s : monitor) : monitor := mkMonitor (m_run s) [] (m_exclude s) (m_store s).
(* 27-143: the page is loaded *)
Definition load (d : store) : monitor := mkMonitor (s_run d) [] (s_exclude d) d.

Inductive op :=
(* A message is sent or received *)
| Message (out : bool) (m : list Z)
(* The button for running; the text to begin with; a click on the list; another tab is shown *)
| Run | Begin | Click | Leave
| Clear
(* The buttons of rows for ignoring a message, and of the list of ignored messages for removing it there. The click on a row also reaches the list (117-124, 413-420). *)
| Ignore (it : item) | Restore (it : item)
| Reload.

Definition item_dec (a b : item) : {a = b} + {a <> b}.
Proof. decide equality; [decide equality; apply string_dec | apply (list_eq_dec Z.eq_dec)]. Defined.
Definition shown_item (r : row) (it : item) : bool := match r with Comment _ => false | Msg _ i => if item_dec i it then true else false end.
Section Monitor.
Variable name : list Z -> option string.
Definition step (s : monitor) (o : op) : monitor :=
  match o with
  | Message out m => add_message s out (mkItem m (name m))
  | Run => if m_run s then stop s else resume s
  | Begin => resume s
  | Click | Leave => stop s
  | Clear => clear s
  | Ignore it => if existsb (fun r => shown_item r it) (m_rows s) then stop (exclude_message s it) else s
  | Restore it => if in_dec item_dec it (m_exclude s) then include_message s it else s
  | Reload => load (m_store s)
  end.
Definition run (h : list op) : monitor := fold_left step h (load (mkStore false [])).
End Monitor.
