(* C87, C88: histories of what is kept in the browser. *)
From Coq Require Import String QArith.
From Verif.Lib Require Import Base.
From Verif.Model Require Import Storage.
Open Scope string_scope.
Open Scope Z_scope.
Local Open Scope list_scope.

(* The storage after the user's operations, first one first *)
Definition urun (ops : list uop) : storage := fold_left ustep ops [].
(* The operation is about the preset with this name *)
Definition names (o : uop) (id : string) : Prop :=
  match o with
  | UNew answers _ _ => In (Some id) answers
  | UOverwrite j confirmed _ _ | UDelete j confirmed => confirmed = true /\ j = id
  | USave j _ _ => j = id
  | URename j (Some n) => j = id \/ n = id
  | URename _ None | USetting _ _ _ _ => False
  end.
(* It asks for something else than presets *)
Definition is_setting (o : uop) : Prop := match o with USetting _ _ _ _ => True | _ => False end.
(* The preset is there with this content / it is not there *)
Definition holds (st : storage) (id : string) (data : json) : Prop := In id (preset_ids st) /\ preset_get id st = data.
Definition lacks (st : storage) (id : string) : Prop := ~ In id (preset_ids st) /\ preset_get id st = JNull.

(* ---- settings of the emulator ---- *)

Definition srun (version : string) (ops : list sop) : storage := fold_left (sstep version) ops [].
Definition options : list string := numbers ++ checkboxes.
(* No number field is left empty, and what else is kept in the browser does not use the same place *)
Definition proper (version : string) (o : sop) : Prop :=
  match o with
  | SNumber _ None => False
  | SOther (USetting v i k _) => ~ (local_id (Some v) i = SETTINGS version /\ k = "config.py")
  | _ => True
  end.
(* The same value, numbers compared as numbers *)
Definition same (a b : json) : Prop := match a, b with JNum x, JNum y => (x == y)%Q | _, _ => a = b end.
(* The settings as the settings dialog shows them, as the emulator uses them, and as a controller uses them which is given the downloaded config.py *)
Definition shown (version : string) (st : storage) (p : string) : json := get_attribute (config_get version st) p.
Definition emulated (version : string) (st : storage) (p : string) : json := firmware (config_get version st) p.
Definition downloaded (version : string) (st : storage) : option (list (string * json)) := python (render (config_get version st)).
