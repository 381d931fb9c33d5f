(* The parameters of the callbacks of a display in the editor of the web application: /repo/web/htdocs/js/ui/editors/display/DisplayCallbackParameterList.js 25-100,
   js/ui/misc/ParameterList.js 399-427, js/model/parser/ParameterMeta.js 35-47, 213-255.
   Left out: the drawing of the fields (ParameterList.js), the lists of options, and parameters with an unknown type (these raise an error when shown, ParameterMeta.js 249). *)
From Coq Require Import String Ascii.
From Verif.Lib Require Import Base.
From Verif.Model Require Import Label Pages Elements.
Local Open Scope list_scope.
Local Open Scope string_scope.

(* A parameter with its metadata: type, default, the lowest value and the first option. p_python: the default in the Python code (a parameter without one is required) *)
Record param := mkParam { p_name : string; p_type : option string; p_default : option string; p_min : option string; p_first : option string; p_python : option string }.
(* JavaScript: an empty text and undefined are both false *)
Definition truthy (o : option string) : option string := match o with Some "" => None | _ => o end.

(* ParameterMeta.js 213-255: getDefaultValue *)
Definition default_value (p : param) : string :=
  match truthy (p_default p) with
  | Some d => d
  | None =>
    match truthy (p_python p) with
    | Some d => d
    | None =>
      match truthy (p_type p) with
      | None => "None"
      | Some t =>
        if (String.eqb t "int" || String.eqb t "float")%bool then match p_min p with Some m => m | None => "0" end
        else if (String.eqb t "select" || String.eqb t "select-page")%bool then match p_first p with Some v => v | None => "" end
        else if String.eqb t "bool" then "False"
        else if String.eqb t "color" then "(0, 0, 0)" else ""
      end
    end
  end.
(* ParameterMeta.js 35-47: type *)
Definition kind (p : param) : option string :=
  match truthy (p_type p) with
  | Some t => Some t
  | None =>
    let d := default_value p in
    if (String.eqb d "False" || String.eqb d "True")%bool then Some "bool"
    else match parse_int d with Some z => if Z.eqb z 0 then None else Some "int" | None => None end
  end.
Definition is_kind (t : string) (p : param) : bool := match kind p with Some k => String.eqb k t | None => false end.

(* What comes from a field: the text of a text, number or selection field, or the state of a check box *)
Inductive input := Typed (s : string) | Checked (b : bool).
(* What a field shows. A number field which is set to NaN is empty: ShowNumber None *)
Inductive shown := ShowNumber (z : option Z) | ShowCheck (b : bool) | ShowText (s : string).

(* ParameterList.js 410-416: convertValue *)
Definition convert (p : param) (v : string) : shown :=
  if is_kind "int" p then ShowNumber (parse_int v) else if is_kind "bool" p then ShowCheck (String.eqb v "True") else ShowText v.
(* ParameterList.js 421-427: unconvertValue *)
Definition number_text (i : input) : string := match i with Typed s => match parse_int s with Some z => dec z | None => "NaN" end | Checked _ => "NaN" end.
Definition unconvert (p : param) (i : input) : string :=
  if is_kind "int" p then String """" (number_text i ++ """")
  else if is_kind "bool" p then (if match i with Checked b => b | Typed s => negb (String.eqb s "") end then "True" else "False")
  else match i with Typed s => s | Checked b => if b then "true" else "false" end.

(* The arguments of the callback, as code *)
Definition arguments := list (string * string).
(* DisplayCallbackParameterList.js 31-38: getCurrentValue *)
Definition current (p : param) (a : arguments) : shown :=
  convert p match truthy (get_argument (p_name p) a) with Some v => v | None => default_value p end.
(* DisplayCallbackParameterList.js 40-56: setCurrentValue *)
Definition change (a : arguments) (o : param * input) : arguments :=
  let v := unconvert (fst o) (snd o) in
  if String.eqb v (default_value (fst o)) then remove_argument (p_name (fst o)) a else put_argument (p_name (fst o)) v a.
Definition changes (a : arguments) (h : list (param * input)) : arguments := fold_left change h a.

(* Python: the code whose value the callback gets for a parameter: that of the argument, or the default. None: the call fails *)
Definition received (p : param) (a : arguments) : option string := match get_argument (p_name p) a with Some v => Some v | None => p_python p end.
