(* The names of actions in the web application: /repo/web/htdocs/clients/kemper/KemperFunctionMeta.js 59-78, 114-146, 151-176, 200-255 and js/model/parser/FunctionMeta.js 35-49, 70-76, 248-260.
   Left out: the names of pagers, keyboards, encoders and messages, the names of actions with a mapping as argument, and the prefix with the name of the client.
   Simplifications: ASCII names; arguments without $ (which has a special meaning for String.replace of JavaScript). *)
From Coq Require Import String Ascii.
From Verif.Lib Require Import Base.
Local Open Scope list_scope.

(* The arguments of a call with their code, and the parameters of a function with their defaults *)
Definition args := list (string * string).
(* FunctionMeta.js 251-260 *)
Fixpoint get_arg (name : string) (a : args) : option string :=
  match a with [] => None | (n, v) :: r => if String.eqb n name then Some v else get_arg name r end.

(* str.replace(token, value): the first occurrence *)
Fixpoint strip_prefix (p s : string) : option string :=
  match p, s with
  | EmptyString, _ => Some s
  | String a p, String b s => if Ascii.eqb a b then strip_prefix p s else None
  | _, EmptyString => None
  end.
Fixpoint replace_first (s token value : string) : string :=
  match strip_prefix token s with
  | Some r => (value ++ r)%string
  | None => match s with EmptyString => EmptyString | String c s => String c (replace_first s token value) end
  end.
(* KemperFunctionMeta.js 235-255: #replaceParameterTokens *)
Definition replace_value (a : args) (param : string * string) : string := match get_arg (fst param) a with Some v => v | None => snd param end.
Definition replace_tokens (params : args) (a : args) (str : string) : string :=
  fold_left (fun s p => replace_first s ("{" ++ fst p ++ "}") (replace_value a p)) params str.

(* Is the argument given, and not None? *)
Definition given (name : string) (a : args) : bool := match get_arg name a with Some v => negb (String.eqb v "None") | None => false end.
(* 62-78: without a call: the function itself *)
Definition rig_select_name (params : args) (call : option args) : string :=
  match call with
  | Some a =>
      if given "rig_off" a then replace_tokens params a "Toggle Rigs {rig}/{rig_off}"
      else match get_arg "rig" a with
           | Some v => if String.eqb v "None" then "Select Current Rig" else replace_tokens params a "Select Rig {rig}"
           | None => replace_tokens params a "Select Rig {rig}"
           end
  | None => "Select Rig"
  end.
(* 117-134 *)
Definition bank_select_name (params : args) (call : option args) : string :=
  match call with
  | None => "Select Bank"
  | Some a =>
      if given "bank_off" a then replace_tokens params a "Toggle Banks {bank}/{bank_off}"
      else match get_arg "preselect" a with
           | Some v => if String.eqb v "True" then replace_tokens params a "Preselect Bank {bank}" else replace_tokens params a "Select Bank {bank}"
           | None => replace_tokens params a "Select Bank {bank}"
           end
  end.
(* 139-146 *)
Definition effect_button_name (params : args) (call : option args) : string :=
  match call with
  | Some a => match get_arg "num" a with Some _ => replace_tokens params a "Effect Button {num}" | None => "Effect Button" end
  | None => "Effect Button"
  end.
(* 154-170, 206-222: getSlotName, with the constants in kemper/actions *)
Definition slot_name (id : string) : string :=
  if String.eqb id "KemperEffectSlot.EFFECT_SLOT_ID_A" then "A" else if String.eqb id "KemperEffectSlot.EFFECT_SLOT_ID_B" then "B"
  else if String.eqb id "KemperEffectSlot.EFFECT_SLOT_ID_C" then "C" else if String.eqb id "KemperEffectSlot.EFFECT_SLOT_ID_D" then "D"
  else if String.eqb id "KemperEffectSlot.EFFECT_SLOT_ID_X" then "X" else if String.eqb id "KemperEffectSlot.EFFECT_SLOT_ID_MOD" then "MOD"
  else if String.eqb id "KemperEffectSlot.EFFECT_SLOT_ID_DLY" then "DLY" else if String.eqb id "KemperEffectSlot.EFFECT_SLOT_ID_REV" then "REV"
  else if String.eqb id "KemperEffectSlot.EFFECT_SLOT_ID_DLY_NO_SPILL" then "DLY" else if String.eqb id "KemperEffectSlot.EFFECT_SLOT_ID_REV_NO_SPILL" then "REV" else "?".
(* 151-176 *)
Definition effect_state_name (call : option args) : string :=
  match call with
  | Some a => match get_arg "slot_id" a with Some v => "Effect State " ++ slot_name v | None => "Effect State" end
  | None => "Effect State"
  end.

(* FunctionMeta.js 73-76: underscoreToDisplayName *)
Definition upper (c : ascii) : ascii := let n := nat_of_ascii c in if (Nat.leb 97 n && Nat.leb n 122)%bool then ascii_of_nat (n - 32) else c.
Definition lower (c : ascii) : ascii := let n := nat_of_ascii c in if (Nat.leb 65 n && Nat.leb n 90)%bool then ascii_of_nat (n + 32) else c.
Fixpoint split_at (c : ascii) (s : string) : list string :=
  match s with
  | EmptyString => [EmptyString]
  | String x s => if Ascii.eqb x c then EmptyString :: split_at c s else match split_at c s with t :: r => String x t :: r | [] => [String x EmptyString] end
  end.
Fixpoint map_string (f : ascii -> ascii) (s : string) : string := match s with EmptyString => EmptyString | String c s => String (f c) (map_string f s) end.
Definition capitalize (token : string) : string := match token with EmptyString => EmptyString | String c s => String (upper c) (map_string lower s) end.
Definition display_name (s : string) : string := String.concat " " (map capitalize (split_at "_" s)).
