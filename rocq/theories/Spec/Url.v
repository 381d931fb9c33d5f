(* What users expect of names of configurations which are opened by their URL. *)
From Coq Require Import String Ascii.
From Verif.Lib Require Import Base.
Open Scope string_scope.
Local Open Scope list_scope.

Fixpoint chars (s : string) : list ascii := match s with EmptyString => [] | String c s => c :: chars s end.
Definition has (c : ascii) (s : string) : Prop := In c (chars s).
(* Without the characters which have a meaning for the router *)
Definition plain (s : string) : Prop := ~ has "+" s /\ ~ has "?" s /\ ~ has "#" s.
(* The path of the page has no hash; it may have a query *)
Definition page (s : string) : Prop := ~ has "#" s.
(* Percent signs are only used for escapes of characters which have a meaning in URLs: these stay as they are in names of presets *)
Inductive kept_escapes : string -> Prop :=
| ke_end : kept_escapes ""
| ke_char c s : c <> "%"%char -> kept_escapes s -> kept_escapes (String c s)
| ke_escape e s : In e ["%23"; "%24"; "%26"; "%2B"; "%2b"; "%2C"; "%2c"; "%2F"; "%2f"; "%3A"; "%3a"; "%3B"; "%3b"; "%3D"; "%3d"; "%3F"; "%3f"; "%40"] -> kept_escapes s -> kept_escapes (e ++ s).
(* The name of a folder: what comes after the last slash *)
Definition is_last (path name : string) : Prop := ~ has "/" name /\ (path = name \/ exists d, path = (d ++ "/" ++ name)%string).
