(* What the web editor keeps in the browser: /repo/web/htdocs/js/misc/LocalState.js, js/model/Presets.js with the dialogs of js/ui/presets/LocalPresetsProvider.js and
   js/ui/PySwitchUI.js 457-491, and js/model/ConfigFile.js with js/ui/misc/EmulatorSettings.js. *)
From Coq Require Import String QArith.
From Verif.Lib Require Import Base.
Open Scope string_scope.
Open Scope Z_scope.
Local Open Scope list_scope.

(* JSON values. Numbers are finite: parseInt and parseFloat give NaN for an empty field, which JSON.stringify writes as null *)
Inductive json := JNull | JBool (b : bool) | JNum (q : Q) | JStr (s : string) | JArr (l : list json) | JObj (o : list (string * json)).
Definition truthy (j : json) : bool :=
  match j with JNull => false | JBool b => b | JNum q => negb (Qeq_bool q 0) | JStr s => negb (String.eqb s "") | JArr _ | JObj _ => true end.
(* Objects: o[k] and o[k] = v *)
Fixpoint field (k : string) (o : list (string * json)) : option json :=
  match o with [] => None | (x, v) :: o => if String.eqb k x then Some v else field k o end.
Fixpoint put (k : string) (v : json) (o : list (string * json)) : list (string * json) :=
  match o with [] => [(k, v)] | (x, w) :: o => if String.eqb k x then (x, v) :: o else (x, w) :: put k v o end.

(* ---- LocalState.js ---- *)

(* localStorage. Simplification: it holds the objects whose JSON texts are stored; other texts are never written, they count as {} (26-28) *)
Definition storage := list (string * json).
(* 12-14; [version]: Controller.VERSION, None with noVersion *)
Definition local_id (version : option string) (id : string) : string := String.append (match version with None => "pyswitch" | Some v => String.append "pyswitch-" v end) (String.append "-" id).
Definition local_object (sid : string) (st : storage) : list (string * json) := match field sid st with Some (JObj o) => o | _ => [] end.
(* 38-46 get; 24-33 set *)
Definition local_get (sid key : string) (st : storage) : json := match field key (local_object sid st) with Some v => v | None => JNull end.
Definition local_set (sid key : string) (v : json) (st : storage) : storage := put sid (JObj (put key v (local_object sid st))) st.

(* ---- Presets.js ---- *)

(* 5-7 *)
Definition PRESETS : string := local_id None "presets".
(* An entry { id, data } of the array: 50-53, and how it is read (15, 30-33) *)
Definition entry (e : string * json) : json := JObj [("id", JStr (fst e)); ("data", snd e)].
Definition read_entry (j : json) : string * json :=
  match j with
  | JObj o => (match field "id" o with Some (JStr s) => s | _ => "" end, match field "data" o with Some d => d | None => JNull end)
  | _ => ("", JNull)
  end.
(* 13, 28, 44, 62 *)
Definition presets (st : storage) : list (string * json) := match local_get PRESETS "data" st with JArr l => map read_entry l | _ => [] end.
Definition presets_write (l : list (string * json)) (st : storage) : storage := local_set PRESETS "data" (JArr (map entry l)) st.
(* 12-16 getAll, 27-37 get, 21-23 has, 42-56 set, 61-67 delete *)
Definition preset_ids (st : storage) : list string := map fst (presets st).
Definition preset_get (id : string) (st : storage) : json := match find (fun e => String.eqb (fst e) id) (presets st) with Some e => snd e | None => JNull end.
Definition preset_has (id : string) (st : storage) : bool := truthy (preset_get id st).
Definition preset_set (id : string) (data : json) (st : storage) : storage := presets_write (filter (fun e => negb (String.eqb (fst e) id)) (presets st) ++ [(id, data)]) st.
Definition preset_delete (id : string) (st : storage) : storage := presets_write (filter (fun e => negb (String.eqb (fst e) id)) (presets st)) st.

(* ---- the dialogs ---- *)

(* A configuration: Configuration.js 36-41 *)
Definition code (inputs display : string) : json := JObj [("inputs_py", JStr inputs); ("display_py", JStr display)].
(* PySwitchUI.js 474-477: the user is asked until they enter a new name, or cancel *)
Fixpoint new_name (answers : list (option string)) (st : storage) : option string :=
  match answers with
  | Some n :: rest => if String.eqb n "" then None else if preset_has n st then new_name rest st else Some n
  | _ => None
  end.
(* What the user does: saving as a new preset (PySwitchUI.js 472-485), over another one (478-485), saving the preset which is open (PresetConfiguration.js 35-37),
   deleting (LocalPresetsProvider.js 46-50) and renaming one (70-75); or anything else is kept with LocalState, by any version of the editor.
   [data]: the code of inputs.py and display.py. Simplification: one window, or the windows act one after the other *)
Inductive uop :=
  | UNew (answers : list (option string)) (inputs display : string)
  | UOverwrite (id : string) (confirmed : bool) (inputs display : string)
  | USave (id inputs display : string)
  | UDelete (id : string) (confirmed : bool)
  | URename (id : string) (answer : option string)
  | USetting (version id key : string) (v : json).
Definition ustep (st : storage) (o : uop) : storage :=
  match o with
  | UNew answers a b => match new_name answers st with Some n => preset_set n (code a b) st | None => st end
  | UOverwrite id c a b => if c then preset_set id (code a b) st else st
  | USave id a b => preset_set id (code a b) st
  | UDelete id c => if c then preset_delete id st else st
  | URename id answer => match answer with Some n => if String.eqb n "" then st else preset_set n (preset_get id st) (preset_delete id st) | None => st end
  | USetting v id k x => local_set (local_id (Some v) id) k x st
  end.

(* ---- ConfigFile.js ---- *)

(* 14-31 *)
Definition defaults : list (string * json) :=
  [("maxConsecutiveMidiMessages", JNum 10); ("clearBuffers", JBool true); ("maxRequestLifetimeMillis", JNum 2000); ("memoryWarnLimitBytes", JNum 15360); ("updateInterval", JNum 200);
   ("displayDimFactorOn", JNum 1); ("displayDimFactorOff", JNum (2 # 10)); ("ledBrightnessOn", JNum (3 # 10)); ("ledBrightnessOff", JNum (2 # 100)); ("exploreMode", JBool false);
   ("debugStats", JBool false); ("debugStatsInterval", JNum 2000); ("debugBidirectionalProtocol", JBool false); ("debugUnparsedMessages", JBool false); ("debugSentMessages", JBool false);
   ("debugClientStats", JBool false)].
Definition SETTINGS (version : string) : string := local_id (Some version) "global-settings".
(* 37-46 get, set *)
Definition config_get (version : string) (st : storage) : list (string * json) := match local_get (SETTINGS version) "config.py" st with JObj o => o | _ => [] end.
Definition config_set (version : string) (data : list (string * json)) (st : storage) : storage := local_set (SETTINGS version) "config.py" (JObj data) st.
(* 51-58 getAttribute, 63-69 setAttribute *)
Definition get_attribute (data : list (string * json)) (name : string) : json :=
  match field name data with Some v => v | None => match field name defaults with Some v => v | None => JNull end end.
Definition set_attribute (version name : string) (v : json) (st : storage) : storage := config_set version (put name v (config_get version st)) st.

(* 84-87 isDefault, by == : null equals only null, truth values are 0 and 1 next to a number; other types do not occur *)
Definition loose_eq (a b : json) : bool :=
  match a, b with
  | JNull, JNull => true
  | JBool x, JBool y => Bool.eqb x y
  | JNum x, JNum y => Qeq_bool x y
  | JBool x, JNum y => Qeq_bool (if x then 1 else 0) y
  | JNum x, JBool y => Qeq_bool x (if y then 1 else 0)
  | JStr x, JStr y => String.eqb x y
  | _, _ => false
  end.
Definition is_default (name : string) (v : json) : bool := match field name defaults with Some d => loose_eq d v | None => false end.

(* templates/config-template.py: its tokens in their order (12-61), and the entry of line 30. Simplification: the text between is left out *)
Inductive piece := Token (name : string) | Entry (commented : bool) (name : string) (v : json).
Definition template : list piece :=
  [Token "maxConsecutiveMidiMessages"; Token "clearBuffers"; Token "maxRequestLifetimeMillis"; Token "updateInterval"; Token "memoryWarnLimitBytes"; Entry false "enableMidiBridge" (JBool true);
   Token "displayDimFactorOn"; Token "displayDimFactorOff"; Token "ledBrightnessOn"; Token "ledBrightnessOff"; Token "debugStats"; Token "debugStatsInterval"; Token "debugBidirectionalProtocol";
   Token "debugUnparsedMessages"; Token "debugSentMessages"; Token "debugClientStats"; Token "exploreMode"].
(* 101-107 replaceToken: String.replace replaces the first occurrence *)
Fixpoint replace_first (name : string) (p : piece) (t : list piece) : list piece :=
  match t with
  | [] => []
  | Token n :: t => if String.eqb name n then p :: t else Token n :: replace_first name p t
  | Entry c n v :: t => Entry c n v :: replace_first name p t
  end.
Definition replace_token (data : list (string * json)) (t : list piece) (name : string) : list piece :=
  let v := get_attribute data name in replace_first name (Entry (is_default name v) name v) t.
(* 74-123 render: first all fields of the data, then the defaults which are not among them *)
Definition render (data : list (string * json)) : list piece :=
  fold_left (replace_token data) (filter (fun n => negb (existsb (String.eqb n) (map fst data))) (map fst defaults)) (fold_left (replace_token data) (map fst data) template).

(* How config.py is read by Python: None if it is not valid. Truth values are written as Python writes them (92-96), null is no name in Python, a token is no syntax *)
Fixpoint python (t : list piece) : option (list (string * json)) :=
  match t with
  | [] => Some []
  | Token _ :: _ => None
  | Entry true _ _ :: t => python t
  | Entry false n v :: t => match v with JBool _ | JNum _ => match python t with Some d => Some ((n, v) :: d) | None => None end | _ => None end
  end.

(* Which inputs there are in EmulatorSettings.js (114-265) *)
Definition numbers : list string :=
  ["updateInterval"; "maxConsecutiveMidiMessages"; "maxRequestLifetimeMillis"; "memoryWarnLimitBytes"; "displayDimFactorOn"; "displayDimFactorOff"; "ledBrightnessOn"; "ledBrightnessOff"; "debugStatsInterval"].
Definition checkboxes : list string :=
  ["clearBuffers"; "exploreMode"; "debugStats"; "debugBidirectionalProtocol"; "debugUnparsedMessages"; "debugSentMessages"; "debugClientStats"].
(* 339-362 setConfigFromInput (None: the field is empty or no number), 311-320 resetConfig; and all the rest which is kept in the browser *)
Inductive sop := SNumber (name : string) (v : option Q) | SCheck (name : string) (v : bool) | SReset | SOther (o : uop).
Definition sstep (version : string) (st : storage) (o : sop) : storage :=
  match o with
  | SNumber n v => if existsb (String.eqb n) numbers then set_attribute version n (match v with Some q => JNum q | None => JNull end) st else st
  | SCheck n b => if existsb (String.eqb n) checkboxes then set_attribute version n (JBool b) st else st
  | SReset => config_set version [] st
  | SOther u => ustep st u
  end.

(* misc.py:7-12 get_option *)
Definition get_option (config : list (string * json)) (name : string) (default : json) : json := match field name config with Some v => v | None => default end.
(* How the firmware reads the options: controller.py:48-70, client.py:260-275, 529, callbacks/__init__.py:177-194, process.py:25. debugStatsInterval is what
   the statistics of the processing loop use (controller.py:60; those of the client, client.py:267, default to 2000) *)
Definition firmware (config : list (string * json)) (name : string) : json :=
  if String.eqb name "debugStatsInterval" then get_option config name (get_option config "updateInterval" (JNum 200))
  else get_option config name (match field name
    [("maxConsecutiveMidiMessages", JNum 10); ("clearBuffers", JBool true); ("maxRequestLifetimeMillis", JNum 2000); ("memoryWarnLimitBytes", JNum 15360); ("updateInterval", JNum 200);
     ("displayDimFactorOn", JNum 1); ("displayDimFactorOff", JNum (2 # 10)); ("ledBrightnessOn", JNum (3 # 10)); ("ledBrightnessOff", JNum (2 # 100))] with Some v => v | None => JBool false end).
