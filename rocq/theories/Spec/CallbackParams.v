(* C122: what was chosen last, in the language of the configuration. *)
From Coq Require Import String.
From Verif.Lib Require Import Base.
From Verif.Model Require Import CallbackParams.
Local Open Scope list_scope.
Local Open Scope string_scope.

(* The Python code for a choice *)
Definition code (i : input) : string := match i with Typed s => s | Checked true => "True" | Checked false => "False" end.
(* Check boxes are used for parameters which are on or off, and for no others *)
Definition fits (p : param) (i : input) : Prop := match i with Checked _ => kind p = Some "bool" | Typed _ => kind p <> Some "bool" end.
(* A parameter with a default in the code, and none in the metadata which might differ *)
Definition plain (p : param) (d : string) : Prop := p_default p = None /\ p_python p = Some d /\ d <> "".
(* The last choice for a parameter *)
Definition last_choice (n : string) (h : list (param * input)) : option input := fold_left (fun a o => if String.eqb (p_name (fst o)) n then Some (snd o) else a) h None.
(* What a field must show for the code *)
Definition faithful (p : param) (v : string) (s : shown) : Prop :=
  match kind p with
  | Some "bool" => (v = "True" -> s = ShowCheck true) /\ (v = "False" -> s = ShowCheck false)
  | Some "int" => False
  | _ => s = ShowText v
  end.
