(* The MIDI channels of the emulator: /repo/web/htdocs/js/model/CommunicationSettings.js, js/ui/misc/EmulatorSettings.js 38-96, 326-335, 367-384,
   js/PySwitchRunner.js 399-407, python/PySwitchRunner.py 108-123 and python/adafruit_midi/__init__.py 59-115. *)
From Coq Require Import String QArith.
From Verif.Lib Require Import Base.
From Verif.Model Require Import Label Pages Storage.
Open Scope string_scope.
Open Scope Z_scope.
Local Open Scope list_scope.

(* ---- CommunicationSettings.js ---- *)

(* 11-15 *)
Definition comm_defaults : list (string * json) := [("inChannel", JNull); ("outChannel", JNum 0); ("debug", JBool false)].
(* 21-30 get, set *)
Definition comm_get (version : string) (st : storage) : list (string * json) := match local_get (SETTINGS version) "communication" st with JObj o => o | _ => [] end.
Definition comm_set (version : string) (data : list (string * json)) (st : storage) : storage := local_set (SETTINGS version) "communication" (JObj data) st.
(* 35-42 getAttribute, 47-53 setAttribute *)
Definition comm_attribute (data : list (string * json)) (name : string) : json :=
  match field name data with Some v => v | None => match field name comm_defaults with Some v => v | None => JNull end end.
Definition comm_set_attribute (version name : string) (v : json) (st : storage) : storage := comm_set version (put name v (comm_get version st)) st.

(* ---- EmulatorSettings.js ---- *)

(* 373-378 setCommFromInput for the text fields. NaN is stored as null by JSON.stringify *)
Definition channel_value (typed : string) : json :=
  if String.eqb typed "All" then JNull else match parse_int typed with Some n => JNum (inject_Z (n - 1)) | None => JNull end.
(* 54, 64: what is shown. null + 1 is 1. Simplification: only null and whole numbers are ever stored, everything else counts as an empty field *)
Definition field_in (data : list (string * json)) : string :=
  match comm_attribute data "inChannel" with JNull => "All" | JNum (n # 1) => dec (n + 1) | _ => "" end.
Definition field_out (data : list (string * json)) : string :=
  match comm_attribute data "outChannel" with JNull => "1" | JNum (n # 1) => dec (n + 1) | _ => "" end.
(* What the user does: typing a channel, the checkbox (369-371), Reset (326-335); and all the rest which is kept in the browser *)
Inductive cop := TypeIn (typed : string) | TypeOut (typed : string) | Debug (on : bool) | ResetComm | Else (o : sop).
Definition cstep (version : string) (st : storage) (o : cop) : storage :=
  match o with
  | TypeIn t => comm_set_attribute version "inChannel" (channel_value t) st
  | TypeOut t => comm_set_attribute version "outChannel" (channel_value t) st
  | Debug b => comm_set_attribute version "debug" (JBool b) st
  | ResetComm => comm_set version [] st
  | Else o => sstep version st o
  end.

(* ---- the emulator ---- *)

(* adafruit_midi/__init__.py 93-102: the channels listened to, None: RuntimeError. Pyodide (0.27.3) turns null to None, whole numbers to int *)
Definition midi_in (v : json) : option (list Z) :=
  match v with
  | JNull => Some (map Z.of_nat (seq 0 16))
  | JNum (n # 1) => if (0 <=? n) && (n <=? 15) then Some [n] else None
  | _ => None
  end.
(* 111-115: None is no number (TypeError) *)
Definition midi_out (v : json) : option Z := match v with JNum (n # 1) => if (0 <=? n) && (n <=? 15) then Some n else None | _ => None end.
(* PySwitchRunner.py 111-123: the channels to listen to and to send to. None: an exception, the emulator does not start *)
Definition connect (data : list (string * json)) : option (list Z * Z) :=
  match midi_in (match field "inChannel" data with Some v => v | None => JNull end), midi_out (match field "outChannel" data with Some v => v | None => JNum 0 end) with
  | Some l, Some o => Some (l, o)
  | _, _ => None
  end.
