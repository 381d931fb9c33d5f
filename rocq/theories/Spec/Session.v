(* C90: unsaved changes. *)
From Coq Require Import String.
From Verif.Lib Require Import Base.
From Verif.Model Require Import Session.
Open Scope string_scope.
Local Open Scope list_scope.

Definition run (es : list event) : session := fold_left step es start.
(* The code of the configuration which is open *)
Definition current (s : session) : data := object s (s_ref s).
(* These events change the code of the open configuration, or open another one *)
Definition changes (o : event) : bool := match o with OGui _ | OApply _ | OUpload _ _ | OOpen _ _ _ | OReload _ | OBrowser _ _ => true | _ => false end.
(* Nothing is changed while a save is under way *)
Definition quiet (es : list event) : Prop := forall before o after, es = before ++ o :: after -> changes o = true -> s_saves (run before) = [].
(* The code is kept somewhere: some place had it, exactly as it is, when it was loaded from there or written there *)
Definition kept (s : session) : Prop := exists p, In (p, current s) (s_log s).
(* Events by which another configuration is opened, or the same one again, with or without being asked *)
Definition opens (o : event) : bool := match o with OOpen _ _ _ | OReload _ | OBrowser _ _ => true | _ => false end.
(* The user is asked before, and agrees *)
Definition agreed (s : session) (o : event) : Prop := match o with OOpen _ _ answer => asks s = true /\ answer = true | _ => False end.
(* No save fails *)
Definition no_failure (es : list event) : Prop := forall k, ~ In (OFail k) es.
(* The text in a tab, and whether it is marked as changed *)
Definition tab (first : bool) (s : session) : string * bool := if first then fst (s_tabs s) else snd (s_tabs s).
Definition file (first : bool) (d : data) : string := if first then fst d else snd d.
(* These events leave texts in the tabs alone: saving, and typing in the other tab *)
Definition leaves (first : bool) (o : event) : bool := match o with OSave _ _ | OPart _ | ODone _ | OFail _ => true | OType f _ => negb (Bool.eqb f first) | _ => false end.
