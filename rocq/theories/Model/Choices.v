(* The mappings offered for a parameter of an action or of the tuner display: /repo/web/htdocs/js/model/parser/MappingOptions.js, ParameterRange.js.
   Texts are ASCII. Names of equal options are compared inconsistently by the code (sort gets -1 both ways), they may come in any order, which cannot be seen. *)
From Coq Require Import String Ascii.
From Verif.Lib Require Import Base.
From Verif.Model Require Import Label.
Local Open Scope list_scope.
Local Open Scope string_scope.

(* ParameterRange.js 11-17, 24-31: with the tokens resolved (KemperClient.js 64-71). None: there are no additional values *)
Record range := { r_additional : option (list string); r_min : Z; r_max : Z }.
(* ParameterMeta.js 10-30, and the list of values in meta.json *)
Record param := { p_name : string; p_range : option range; p_values : option (list string) }.
Record mapping := { m_name : string; m_params : list param }.

(* ParameterRange.js 44-49 *)
Definition numbers (min max : Z) : list string := map (fun k => dec (min + Z.of_nat k)) (seq 0 (Z.to_nat (max - min + 1))).
(* 22-52: getValues. None: null *)
Definition get_values (r : range) : option (list string) :=
  match r_additional r with
  | Some l => Some (l ++ numbers (r_min r) (r_max r))%list
  | None => if (100 <? r_max r - r_min r)%Z then None else Some (numbers (r_min r) (r_max r))
  end.
(* MappingOptions.js 20-29: addValues *)
Definition add_values (m : mapping) (p : param) (l : list string) : list string :=
  map (fun v => append (m_name m) (append "(" (append (append (if (1 <? length (m_params m))%nat then append (p_name p) " = " else "") v) ")"))) l.
(* 7-43: getMappingVariants. None: raises (iterating over null, or no values) *)
Definition variants (m : mapping) : option (list string) :=
  match m_params m with
  | [] => Some [append (m_name m) "()"]
  | p :: _ => option_map (add_values m p) (match p_range p with Some r => get_values r | None => p_values p end)
  end.
(* 53-57: the options of all clients *)
Fixpoint collect (l : list mapping) : option (list string) :=
  match l with [] => Some [] | m :: r => match variants m with None => None | Some v => option_map (fun w => v ++ w)%list (collect r) end end.
(* 59: sort *)
Fixpoint insert (x : string) (l : list string) : list string := match l with [] => [x] | y :: r => if String.leb x y then x :: l else y :: insert x r end.
Definition sort (l : list string) : list string := fold_right insert [] l.
(* 6-60: generate *)
Definition generate (clients : list (list mapping)) (add_none : bool) : option (list string) :=
  option_map (fun l => sort ((if add_none then ["None"] else []) ++ l)%list) (collect (concat clients)).
