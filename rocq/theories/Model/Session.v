(* A session of the web editor: the configuration which is open, unsaved changes, and saving. /repo/web/htdocs/js/model/configurations/*.js, js/ui/PySwitchUI.js, js/Controller.js,
   js/ui/editors/CodeEditor.js, js/ui/misc/Upload.js, js/ui/localfolder/LocalFolderSelection.js, js/routing/Routing.js, js/DeviceController.js. *)
From Coq Require Import String.
From Verif.Lib Require Import Base.
Open Scope string_scope.
Local Open Scope list_scope.

(* Where configurations are kept: PresetConfiguration, LocalFolderConfiguration, ControllerConfiguration, WebConfiguration *)
Inductive place := PPreset (id : string) | PFolder | PController (port : string) | PWeb (path : string).
(* The code of inputs.py and display.py *)
Definition data := (string * string)%type.
(* A save which is under way: where to, which object holds the code (objects are numbered in the order of their creation), what has been read from it so far,
   and the configuration whose own save it is (None: a copy, as in PySwitchUI.js 483-485, 512-514, 610-612) *)
Record save := { v_target : place; v_ref : nat; v_inputs : option string; v_display : option string; v_own : option nat }.
(* [s_heap]: the objects with the code; [s_ref]: the one of the open configuration (#data of Configuration.js); [s_open]: where it has been loaded from, None: no configuration is open;
   [s_id] number of the configuration which is open; [s_dirty]: its #dirty; [s_marker]: the mark for changes is shown (PySwitchUI.js 780-789);
   [s_tabs]: the texts in the tabs inputs.py and display.py and whether they are marked as changed; [s_log]: what the places have had, found when loading or written *)
Record session := { s_open : option place; s_id : nat; s_heap : list data; s_ref : nat; s_dirty : bool; s_marker : bool; s_tabs : (string * bool) * (string * bool); s_saves : list save; s_log : list (place * data) }.
Definition start : session := {| s_open := None; s_id := 0; s_heap := []; s_ref := 0; s_dirty := false; s_marker := false; s_tabs := (("", false), ("", false)); s_saves := []; s_log := [] |}.

Definition object (s : session) (r : nat) : data := nth r (s_heap s) ("", "").
Fixpoint replace {A} (n : nat) (x : A) (l : list A) : list A := match l, n with [], _ => [] | _ :: l, O => x :: l | y :: l, S n => y :: replace n x l end.
Fixpoint remove_nth {A} (n : nat) (l : list A) : list A := match l, n with [], _ => [] | _ :: l, O => l | y :: l, S n => y :: remove_nth n l end.

(* PySwitchUI.js 653-655 with CodeEditor.js 78-83: the tabs show the code, and are not marked *)
Definition apply_config (s : session) : session :=
  let d := object s (s_ref s) in
  {| s_open := s_open s; s_id := s_id s; s_heap := s_heap s; s_ref := s_ref s; s_dirty := s_dirty s; s_marker := s_marker s; s_tabs := ((fst d, false), (snd d, false)); s_saves := s_saves s; s_log := s_log s |}.
(* Configuration.js 54-57 set, with 91-94 setDirty; to the object r *)
Definition set_data (r : nat) (s : session) : session :=
  {| s_open := s_open s; s_id := s_id s; s_heap := s_heap s; s_ref := r; s_dirty := true; s_marker := true; s_tabs := s_tabs s; s_saves := s_saves s; s_log := s_log s |}.
Definition write_object (r : nat) (d : data) (s : session) : session :=
  {| s_open := s_open s; s_id := s_id s; s_heap := replace r d (s_heap s); s_ref := s_ref s; s_dirty := s_dirty s; s_marker := s_marker s; s_tabs := s_tabs s; s_saves := s_saves s; s_log := s_log s |}.
Definition new_object (d : data) (s : session) : session :=
  {| s_open := s_open s; s_id := s_id s; s_heap := s_heap s ++ [d]; s_ref := s_ref s; s_dirty := s_dirty s; s_marker := s_marker s; s_tabs := s_tabs s; s_saves := s_saves s; s_log := s_log s |}.
(* Parser.js updateConfig: a new object *)
Definition gui_edit (d : data) (s : session) : session := apply_config (set_data (length (s_heap s)) (new_object d s)).
(* Parser.js updateFromSource and Upload.js 44-57: the object is changed in place, and set again *)
Definition code_edit (d : data) (s : session) : session := apply_config (set_data (s_ref s) (write_object (s_ref s) d s)).
(* Controller.js 143-189 loadConfiguration, with Configuration.js 43-49; None: loading fails *)
Definition load (p : place) (d : option data) (s : session) : session :=
  match d with
  | None => {| s_open := None; s_id := s_id s; s_heap := s_heap s; s_ref := s_ref s; s_dirty := s_dirty s; s_marker := false; s_tabs := s_tabs s; s_saves := s_saves s; s_log := s_log s |}
  | Some d => apply_config {| s_open := Some p; s_id := S (s_id s); s_heap := s_heap s ++ [d]; s_ref := length (s_heap s); s_dirty := false; s_marker := false; s_tabs := s_tabs s; s_saves := s_saves s; s_log := (p, d) :: s_log s |}
  end.
Definition with_saves (l : list save) (s : session) : session :=
  {| s_open := s_open s; s_id := s_id s; s_heap := s_heap s; s_ref := s_ref s; s_dirty := s_dirty s; s_marker := s_marker s; s_tabs := s_tabs s; s_saves := l; s_log := s_log s |}.
Definition with_marker (m : bool) (s : session) : session :=
  {| s_open := s_open s; s_id := s_id s; s_heap := s_heap s; s_ref := s_ref s; s_dirty := s_dirty s; s_marker := m; s_tabs := s_tabs s; s_saves := s_saves s; s_log := s_log s |}.
Definition with_dirty (m : bool) (s : session) : session :=
  {| s_open := s_open s; s_id := s_id s; s_heap := s_heap s; s_ref := s_ref s; s_dirty := m; s_marker := s_marker s; s_tabs := s_tabs s; s_saves := s_saves s; s_log := s_log s |}.
Definition with_log (e : place * data) (s : session) : session :=
  {| s_open := s_open s; s_id := s_id s; s_heap := s_heap s; s_ref := s_ref s; s_dirty := s_dirty s; s_marker := s_marker s; s_tabs := s_tabs s; s_saves := s_saves s; s_log := e :: s_log s |}.
Definition with_tabs (t : (string * bool) * (string * bool)) (s : session) : session :=
  {| s_open := s_open s; s_id := s_id s; s_heap := s_heap s; s_ref := s_ref s; s_dirty := s_dirty s; s_marker := s_marker s; s_tabs := t; s_saves := s_saves s; s_log := s_log s |}.

(* What a save reads next. DeviceController.js 110-113: the two files one after the other, each read from the object when its turn comes.
   LocalFolderConfiguration.js 87-98 and PresetConfiguration.js 35-37: both at once *)
Definition read_part (s : session) (v : save) : save :=
  let d := object s (v_ref v) in
  match v_target v with
  | PController _ =>
      match v_inputs v with
      | None => {| v_target := v_target v; v_ref := v_ref v; v_inputs := Some (fst d); v_display := v_display v; v_own := v_own v |}
      | Some _ => match v_display v with
                  | None => {| v_target := v_target v; v_ref := v_ref v; v_inputs := v_inputs v; v_display := Some (snd d); v_own := v_own v |}
                  | Some _ => v
                  end
      end
  | _ => match v_inputs v with None => {| v_target := v_target v; v_ref := v_ref v; v_inputs := Some (fst d); v_display := Some (snd d); v_own := v_own v |} | Some _ => v end
  end.
(* Configuration.js 76-79: after doSave, the dirty state is reset: 99-102; for copies that of the configuration open then (PySwitchUI.js 487, 516, 614) *)
Definition finish (i d : string) (v : save) (s : session) : session :=
  let s := with_marker false (with_log (v_target v, (i, d)) s) in
  match v_own v with Some c => if Nat.eqb c (s_id s) then with_dirty false s else s | None => match s_open s with Some _ => with_dirty false s | None => s end end.

(* What happens: a change with the frontend, the display editor or the input settings; typing into one of the tabs (first: inputs.py); applying a tab (CodeEditor.js 89-101); uploading files;
   a restart after changing settings; saving starts (own: to where the configuration is from, otherwise a copy), reads on, is finished, or fails;
   opening a configuration by the editor's menus (Routing.js 146-150, with PySwitchUI.js 694-704: [answer] is what the user says if asked);
   the folder which is open is chosen again, or its files are changed by another program (LocalFolderSelection.js 36-41, LocalFolderConfiguration.js 145-163);
   opening by the buttons of the browser (Routing.js 42-98: the routes do not ask).
   Simplification: each is one step; the editor waits for loading (the UI is blocked) *)
Inductive event :=
  | OGui (d : data)
  | OType (first : bool) (text : string)
  | OApply (first : bool)
  | OUpload (i d : option string)
  | ORestart
  | OSave (own : bool) (target : place)
  | OPart (k : nat)
  | ODone (k : nat)
  | OFail (k : nat)
  | OOpen (p : place) (d : option data) (answer : bool)
  | OReload (d : option data)
  | OBrowser (p : place) (d : option data).
Definition is_web (p : place) : bool := match p with PWeb _ => true | _ => false end.
(* PySwitchUI.js 694-704 with Tabs.js 127-132 and CodeEditor.js 148-151 *)
Definition asks (s : session) : bool := snd (fst (s_tabs s)) || snd (snd (s_tabs s)) || match s_open s with Some _ => s_dirty s | None => false end.
Definition step (s : session) (o : event) : session :=
  match o, s_open s with
  | OOpen p d answer, _ => if asks s && negb answer then s else load p d s
  | OBrowser p d, _ => load p d s
  | OPart k, _ => match nth_error (s_saves s) k with Some v => with_saves (replace k (read_part s v) (s_saves s)) s | None => s end
  | ODone k, _ =>
      match nth_error (s_saves s) k with
      | Some v => match v_inputs v, v_display v with Some i, Some d => finish i d v (with_saves (remove_nth k (s_saves s)) s) | _, _ => s end
      | None => s
      end
  | OFail k, _ => with_saves (remove_nth k (s_saves s)) s
  | _, None => s
  | OGui d, Some _ => gui_edit d s
  | OType first t, Some _ => with_tabs (if first then ((t, true), snd (s_tabs s)) else (fst (s_tabs s), (t, true))) s
  | OApply first, Some _ => let d := object s (s_ref s) in code_edit (if first then (fst (fst (s_tabs s)), snd d) else (fst d, fst (snd (s_tabs s)))) s
  | OUpload i d, Some _ => let o := object s (s_ref s) in code_edit (match i with Some x => x | None => fst o end, match d with Some x => x | None => snd o end) s
  | ORestart, Some _ => apply_config s
  | OSave true _, Some p =>
      if is_web p then s else with_saves (s_saves s ++ [{| v_target := p; v_ref := s_ref s; v_inputs := None; v_display := None; v_own := Some (s_id s) |}]) s
  | OSave false t, Some _ =>
      if is_web t then s else with_marker true (with_saves (s_saves s ++ [{| v_target := t; v_ref := s_ref s; v_inputs := None; v_display := None; v_own := None |}]) s)
  | OReload d, Some PFolder => load PFolder d s
  | OReload _, Some _ => s
  end.
