(* C115: what was typed last, and what is not touched. *)
From Coq Require Import String.
From Verif.Lib Require Import Base.
From Verif.Model Require Import Elements.
Local Open Scope list_scope.
Local Open Scope string_scope.

(* The fields of a tuner *)
Definition fields : list string :=
  ["deviance_height"; "deviance_width"; "deviance_zoom"; "color_in_tune"; "color_out_of_tune"; "color_neutral"; "calibration_high"; "calibration_low"; "scale"].
(* The last text of a field; None: it was not changed *)
Definition last_text (p : string) (h : list change) : option string :=
  fold_left (fun a o => match o with Field q t => if String.eqb q p then Some t else a | _ => a end) h None.
(* The last choice of a mapping *)
Definition last_note (h : list change) : option string := fold_left (fun a o => match o with Note c => Some c | _ => a end) h None.
Definition last_deviance (h : list change) : option string := fold_left (fun a o => match o with Deviance c => Some c | _ => a end) h None.
Definition last_font (h : list change) : option string := fold_left (fun a o => match o with Font c => Some c | _ => a end) h None.
(* Which argument a change is about *)
Definition about (o : change) : string := match o with Field p _ => p | Note _ => "mapping_note" | Deviance _ => "mapping_deviance" | Font _ => "layout" end.
(* The arguments which no change is about *)
Definition untouched {V} (names : list string) (l : list (string * V)) : list (string * V) := filter (fun e => negb (existsb (String.eqb (fst e)) names)) l.
(* Labels: the last text of a field *)
Definition last_layout (p : string) (h : list (string * string)) : option string := fold_left (fun a o => if String.eqb (fst o) p then Some (snd o) else a) h None.
