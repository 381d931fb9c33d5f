(* C124: the callback of a label. *)
From Coq Require Import String.
From Verif.Lib Require Import Base.
From Verif.Model Require Import Elements CallbackParams LabelCallback.
Local Open Scope list_scope.
Local Open Scope string_scope.

(* The label has a call of n as its callback, with the arguments e *)
Definition calls (a : args) (n : string) (e : list (string * string)) : Prop := get_argument "callback" a = Some (Object (Some n) e).
(* The first callback with a name *)
Definition is_definition (cs : clients) (n : string) (k : callback) : Prop :=
  exists l r, flat_map snd cs = (l ++ k :: r)%list /\ k_name k = n /\ ~ In n (map k_name l).
(* Python needs an argument *)
Definition needed (p : param) : Prop := p_python p = None \/ p_python p = Some "".
(* The last name which was chosen; an empty option is no choice *)
Definition last_name (h : list choice) : option string := fold_left (fun a c => match c with Field n => Some n | Option n => if String.eqb n "" then a else Some n end) h None.
