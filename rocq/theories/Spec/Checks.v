(* C89: when two actions can use a display at the same time. *)
From Coq Require Import String Ascii.
From Verif.Lib Require Import Base.
From Verif.Model Require Import Checks.
Open Scope string_scope.
Local Open Scope list_scope.

(* The actions of a configuration *)
Definition actions (c : config) : list action := flat_map (fun i => fst i ++ snd i) c.
(* The value of the first argument with this name *)
Definition value (a : action) (n v : string) : Prop := exists before after, a_args a = before ++ (Some n, v) :: after /\ forall w, ~ In (Some n, w) before.
Definition no_dot (s : string) : Prop := ~ In "."%char (list_ascii_of_string s).
(* The action belongs to page g of the pager p: enable_callback is p.something, and its id is g *)
Definition on_page (a : action) (p g : string) : Prop :=
  (exists x, value a "enable_callback" (p ++ "." ++ x) /\ no_dot p /\ no_dot x /\ p <> "") /\ value a "id" g /\ g <> "" /\ g <> "None".
(* Which actions are enabled if each pager shows some page *)
Definition enabled (shows : string -> string) (a : action) : Prop := forall p g, on_page a p g -> shows p = g.
Definition together (a b : action) : Prop := exists shows, enabled shows a /\ enabled shows b.
Definition contains (s t : string) : Prop := exists x y, s = String.append x (String.append t y).
(* The i-th argument of the action uses the display, other than for previews or changes *)
Definition uses (a : action) (i : nat) (d : string) : Prop :=
  exists n, nth_error (a_args a) i = Some (Some n, d) /\ ~ contains n "preview" /\ ~ contains n "change".
(* Actions have different ids, no callback of a nameless pager is used *)
Definition sound (c : config) : Prop := NoDup (map a_id (actions c)) /\ forall a x, In a (actions c) -> ~ value a "enable_callback" (String "." x).
(* Displays are not given by position *)
Definition by_name (displays : list string) (c : config) : Prop := forall a d, In a (actions c) -> In d displays -> ~ In (None, d) (a_args a).
(* The editor warns about this action using this display *)
Definition warned (ms : list message) (a : action) (d : string) : Prop := exists m, In m (messages_for ms (a_id a)) /\ fst m = d.
