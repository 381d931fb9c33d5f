(* The parameters of tuners and labels in the display editor of the web application: /repo/web/htdocs/js/ui/editors/display/DisplayNode.js 497-524,
   types/TunerDisplayTypeParameterList.js, types/DisplayLabelTypeLayout.js, js/misc/Tools.js 98-107, 143-150, and what the firmware makes of them
   (content/lib/pyswitch/ui/elements.py 27-39, 316-331). Bounds, names and the tree of elements are modelled in Displays.v.
   Left out: the callbacks of labels, and that a layout may be assigned to a variable (DisplayLabelTypeLayout.js 141): each label has its own copy of the layout. *)
From Coq Require Import String Ascii.
From Verif.Lib Require Import Base.
From Verif.Model Require Import Properties.
Local Open Scope list_scope.
Local Open Scope string_scope.

(* The value of an argument: code, or a call with its arguments; a dictionary has no name *)
Inductive value := Text (code : string) | Object (name : option string) (entries : list (string * string)).
Section Arguments.
Context {V : Type}.
(* Tools.js 143-150: getArgument *)
Fixpoint get_argument (name : string) (l : list (string * V)) : option V :=
  match l with [] => None | (n, v) :: l => if String.eqb n name then Some v else get_argument name l end.
(* DisplayNode.js 514-520, DisplayLabelTypeLayout.js 108-114: the first one is changed, or a new one is appended *)
Fixpoint put_argument (name : string) (v : V) (l : list (string * V)) : list (string * V) :=
  match l with [] => [(name, v)] | (n, w) :: l => if String.eqb n name then (n, v) :: l else (n, w) :: put_argument name v l end.
(* DisplayNode.js 510, DisplayLabelTypeLayout.js 104 *)
Definition remove_argument (name : string) (l : list (string * V)) : list (string * V) := filter (fun e => negb (String.eqb (fst e) name)) l.
End Arguments.

(* ---- tuners ---- *)

Definition args := list (string * value).
(* DisplayNode.js 507-524: setParameter. [default]: None is null, to which no text is equal. Simplification: a text is equal to a number if it is the usual text of the number *)
Definition equals (v : value) (default : option string) : bool := match v, default with Text c, Some d => String.eqb c d | _, _ => false end.
Definition set_parameter (name : string) (v : value) (default : option string) (a : args) : args :=
  if equals v default then remove_argument name a else put_argument name v a.
(* TunerDisplayTypeParameterList.js 70-156, 189-200: the fields with what they show without an argument, and the default which is given to setParameter *)
Definition tuner_fields : list (string * (string * option string)) :=
  [("deviance_height", ("40", None)); ("deviance_width", ("5", None)); ("deviance_zoom", ("2.4", None)); ("color_in_tune", ("Colors.LIGHT_GREEN", None));
   ("color_out_of_tune", ("Colors.ORANGE", None)); ("color_neutral", ("Colors.WHITE", None)); ("calibration_high", ("8192 + 350", None)); ("calibration_low", ("8192 - 350", None));
   ("scale", ("1", Some "1"))].
(* What such a field shows *)
Definition field_value (p : string) (a : args) : option string :=
  match get_argument p tuner_fields with
  | None => None
  | Some (d, _) => Some match get_argument p a with None => d | Some (Text c) => c | Some (Object _ _) => "[object Object]" end
  end.
(* The drop down lists for mappings (36-66). A list shows nothing if the value is not one of its options *)
Definition pick (options : list string) (v : string) : string := if existsb (String.eqb v) options then v else "".
Definition note_value (options : list string) (a : args) : string :=
  match get_argument "mapping_note" a with None => pick options "None" | Some (Text c) => pick options c | Some (Object _ _) => "" end.
Definition deviance_value (options : list string) (a : args) : string :=
  match get_argument "mapping_deviance" a with
  | None => pick options "None"
  | Some (Text c) => if String.eqb c "None" then pick options c else pick options "undefined()"
  | Some (Object n _) => pick options (append (match n with Some n => n | None => "undefined" end) "()")
  end.
(* What the user does: a field or one of the lists is changed, or the font of the note is chosen (171-187) *)
Inductive change := Field (p typed : string) | Note (chosen : string) | Deviance (chosen : string) | Font (chosen : string).
Definition step (a : args) (o : change) : args :=
  match o with
  | Field p t => match get_argument p tuner_fields with Some (_, d) => set_parameter p (Text t) d a | None => a end
  | Note c => set_parameter "mapping_note" (Text c) None a
  | Deviance c => set_parameter "mapping_deviance" (Text c) None a
  | Font f => set_parameter "layout" (Object None [("font", append "'" (append (strip_quotes f) "'"))]) None a
  end.
Definition run (a : args) (h : list change) : args := fold_left step h a.

(* elements.py 316-331: the code of the parameters, with the defaults of the firmware *)
Definition tuner_defaults : list (string * string) :=
  [("mapping_note", "None"); ("mapping_deviance", "None"); ("scale", "1"); ("deviance_height", "40"); ("deviance_width", "5"); ("deviance_zoom", "2.4");
   ("color_in_tune", "Colors.LIGHT_GREEN"); ("color_out_of_tune", "Colors.ORANGE"); ("color_neutral", "Colors.WHITE"); ("calibration_high", "8192 + 350"); ("calibration_low", "8192 - 350")].
Definition code_of (v : value) : string := match v with Text c => c | Object (Some n) [] => append n "()" | Object _ _ => "..." end.
Definition used (p : string) (a : args) : option string :=
  match get_argument p a with Some v => Some (code_of v) | None => get_argument p tuner_defaults end.
(* The layout of the note *)
Definition note_layout (p : string) (a : args) : option string := match get_argument "layout" a with Some (Object _ l) => get_argument p l | _ => None end.

(* ---- labels ---- *)

Definition layout := list (string * string).
(* DisplayLabelTypeLayout.js 93-96 and what a field shows for null; 101-118 *)
Definition layout_value (p : string) (l : layout) : string := match get_argument p l with Some c => c | None => "" end.
Definition set_layout (p typed : string) (l : layout) : layout := if String.eqb typed "" then remove_argument p l else put_argument p typed l.
Definition run_layout (l : layout) (h : list (string * string)) : layout := fold_left (fun l o => set_layout (fst o) (snd o) l) h l.
(* elements.py 28-34 with misc.py 7-12: the code of the options, with the defaults of the firmware *)
Definition layout_defaults : list (string * string) :=
  [("font", "None"); ("maxTextWidth", "False"); ("lineSpacing", "1"); ("text", """"""); ("textColor", "None"); ("backColor", "None"); ("stroke", "0")].
Definition layout_used (p : string) (l : layout) : option string := match get_argument p l with Some c => Some c | None => get_argument p layout_defaults end.
