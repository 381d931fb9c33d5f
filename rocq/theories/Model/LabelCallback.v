(* The callback of a label in the display editor of the web application: /repo/web/htdocs/js/ui/editors/display/types/DisplayLabelTypeParameterList.js 45-98, 114-149,
   js/model/parser/Parser.js 454-484, js/ui/editors/display/DisplayNode.js 497-524. The parameters of the chosen callback are edited in CallbackParams.v.
   Left out: the redrawing of the parameters, and the client which is stored with the callback (it only selects the definition for the parameters). *)
From Coq Require Import String.
From Verif.Lib Require Import Base.
From Verif.Model Require Import Elements CallbackParams.
Local Open Scope list_scope.
Local Open Scope string_scope.

(* definitions/callbacks.json: the available callbacks of a client *)
Record callback := mkCallback { k_name : string; k_target : string; k_params : list param }.
Definition clients := list (string * list callback).

(* DisplayLabelTypeParameterList.js 48-59: the options *)
Definition label_options (cs : clients) : list string := map k_name (filter (fun k => String.eqb (k_target k) "DisplayLabel") (flat_map snd cs)).
(* Parser.js 471-484: getCallbackDefinition without client *)
Definition definition (cs : clients) (n : string) : option callback := find (fun k => String.eqb (k_name k) n) (flat_map snd cs).
(* DisplayLabelTypeParameterList.js 139-146: the parameters without default *)
Definition required (k : callback) : list (string * string) :=
  map (fun p => (p_name p, default_value p)) (filter (fun p => match truthy (p_python p) with None => true | Some _ => false end) (k_params k)).

(* DisplayLabelTypeParameterList.js 46, 68: what the field shows. The name of a text is undefined, which is shown as nothing *)
Definition callback_shown (a : args) : string := match get_argument "callback" a with None => "None" | Some (Object (Some n) _) => n | Some (Object None _) | Some (Text _) => "" end.
(* DisplayLabelTypeParameterList.js 114-149: #setCallback. No value is equal to null, the default of setParameter *)
Definition set_callback (cs : clients) (a : args) (n : string) : args :=
  if match get_argument "callback" a with Some (Object (Some m) _) => String.eqb m n | _ => false end then a
  else if String.eqb n "" then set_parameter "callback" (Text "None") None a
  else match definition cs n with
       | None => set_parameter "callback" (Object (Some n) []) None a
       | Some k => set_parameter "callback" (Object (Some n) (required k)) None a
       end.
(* What comes from the text field (70-73), or the list (82-93: its first option, with an empty value, does nothing) *)
Inductive choice := Field (n : string) | Option (n : string).
Definition choose (cs : clients) (a : args) (c : choice) : args :=
  match c with Field n => set_callback cs a n | Option n => if String.eqb n "" then a else set_callback cs a n end.
Definition choose_all (cs : clients) (a : args) (h : list choice) : args := fold_left (choose cs) h a.
