(* C119: what a name of a client means, and which messages arrive. *)
From Coq Require Import String Ascii.
From Verif.Lib Require Import Base.
From Verif.Model Require Import Connect.
Local Open Scope list_scope.
Local Open Scope string_scope.

(* The ports which are there after a history *)
Definition plugged (l : list string) (h : list event) : list string := fold_left (fun l e => match e with Plug l' => l' | _ => l end) h l.
(* Which client a name stands for *)
Inductive means (there : list string) : string -> option kind -> Prop :=
| MSimulated id : In id ["kemper"; "boomerang"; "local"] -> means there ("virtual-" ++ id) (Some (Simulated id))
| MPort p : ~ (exists r, p = "virtual" ++ r) -> In p there -> means there p (Some (Port p))
| MNone p : ~ (exists r, p = "virtual" ++ r) -> ~ In p there -> means there p None.
Definition no_connect (e : event) : Prop := match e with Connect _ => False | _ => True end.
(* The messages of a port which have not been fetched *)
Definition arrived (p : string) (w : list event) : list (list Z) :=
  fold_left (fun l e => match e with Receive q d => if String.eqb q p then l ++ [d] else l | Read => [] | _ => l end)%list w [].
(* To whom the emulator is connected *)
Definition connected (s : state) : option kind := option_map snd (wrapper s).
Definition sensible (e : event) : Prop := match e with Connect x => forall r, x = "virtual" ++ r -> exists id, In id ["kemper"; "boomerang"; "local"] /\ x = "virtual-" ++ id | _ => True end.
