(* C113: what the name of an action tells. *)
From Coq Require Import String Ascii.
From Verif.Lib Require Import Base.
From Verif.Model Require Import Names.
Local Open Scope list_scope.

(* A character is in a text *)
Fixpoint has (c : ascii) (s : string) : Prop := match s with EmptyString => False | String x s => x = c \/ has c s end.
(* The value of a parameter for a call: the argument, or else the default *)
Inductive value_of (params a : args) (name : string) : string -> Prop :=
| value_argument v : get_arg name a = Some v -> value_of params a name v
| value_default d : get_arg name a = None -> In (name, d) params -> value_of params a name d.
(* What a call of RIG_SELECT does: selects the rig, selects the current rig again, or toggles between two *)
Inductive rigs := Rig (r : string) | Current | Toggle (r off : string).
Inductive selects (params a : args) : rigs -> Prop :=
| selects_toggle r o : get_arg "rig_off" a = Some o -> o <> "None"%string -> value_of params a "rig" r -> selects params a (Toggle r o)
| selects_current : (forall o, get_arg "rig_off" a = Some o -> o = "None"%string) -> get_arg "rig" a = Some "None"%string -> selects params a Current
| selects_rig r : (forall o, get_arg "rig_off" a = Some o -> o = "None"%string) -> get_arg "rig" a <> Some "None"%string -> value_of params a "rig" r -> selects params a (Rig r).
Definition text_of (t : rigs) : string :=
  match t with Rig r => "Select Rig " ++ r | Current => "Select Current Rig" | Toggle r o => "Toggle Rigs " ++ r ++ "/" ++ o end.
(* The same for banks *)
Inductive banks := Bank (b : string) | Preselect (b : string) | ToggleBanks (b off : string).
Inductive selects_bank (params a : args) : banks -> Prop :=
| bank_toggle b o : get_arg "bank_off" a = Some o -> o <> "None"%string -> value_of params a "bank" b -> selects_bank params a (ToggleBanks b o)
| bank_preselect b : (forall o, get_arg "bank_off" a = Some o -> o = "None"%string) -> get_arg "preselect" a = Some "True"%string -> value_of params a "bank" b -> selects_bank params a (Preselect b)
| bank_select b : (forall o, get_arg "bank_off" a = Some o -> o = "None"%string) -> get_arg "preselect" a <> Some "True"%string -> value_of params a "bank" b -> selects_bank params a (Bank b).
Definition bank_text (t : banks) : string :=
  match t with Bank b => "Select Bank " ++ b | Preselect b => "Preselect Bank " ++ b | ToggleBanks b o => "Toggle Banks " ++ b ++ "/" ++ o end.
(* Parameters with different names without braces; all values are without opening braces *)
Definition plain (params a : args) : Prop :=
  NoDup (map fst params) /\ Forall (fun p => ~ has "{" (fst p) /\ ~ has "}" (fst p) /\ ~ has "{" (snd p)) params /\ Forall (fun p => ~ has "{" (snd p)) a.
(* Names of functions: no small letters, no spaces *)
Definition constant_name (s : string) : Prop := forall c, has c s -> (nat_of_ascii c < 97 \/ 122 < nat_of_ascii c)%nat /\ c <> " "%char.
