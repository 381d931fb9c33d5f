(* Connecting the emulator to a client device: /repo/web/htdocs/js/ClientController.js 126-178 (#connect), js/PySwitchRunner.js 311-329, js/midi/PythonMidiWrapper.js,
   js/midi/MidiListener.js, js/midi/MidiHandler.js 12-46 (init), 99-141, js/ui/PySwitchUI.js 709-740 (showVirtualClient), clients/kemper/virtual/VirtualKemperClient.js 79-92 and 215-234.
   Calls are executed one after the other. Ports stand for pairs of input and output with the same name. Left out: what is sent by virtual clients, texts on the screen, the scan (Model/Scan.v). *)
From Coq Require Import String Ascii.
From Verif.Lib Require Import Base.
Local Open Scope list_scope.
Local Open Scope string_scope.

Inductive kind := Simulated (id : string) | Port (name : string).
(* Objects have numbers. wrapper: externalRefs.midiWrapper; listeners: MidiHandler.#listeners; queues: all messages waiting, with the number of the wrapper;
   running: intervals of virtual clients; tab: the virtual client shown; current: ClientController.current; ports: which are there; heard: inputs with onmidimessage *)
Record state := { wrapper : option (nat * kind); listeners : list (nat * string); queues : list (nat * list Z); running : list (nat * string); tab : option (nat * string);
  current : option string; ports : list string; heard : list string; next : nat }.
(* MidiHandler.js 12-46, 118-129: callbacks are attached once *)
Definition init (l : list string) : state := {| wrapper := None; listeners := []; queues := []; running := []; tab := None; current := None; ports := l; heard := l; next := 0 |}.

(* ClientFactory.js 9-16: getInstance *)
Definition known (id : string) : bool := String.eqb id "kemper" || String.eqb id "boomerang" || String.eqb id "local".
(* Only the virtual Kemper has an interval and a user interface *)
Definition lively (id : string) : bool := String.eqb id "kemper".
(* PythonMidiWrapper.js 39-42, VirtualKemperClient.js 215-224: detach *)
Definition detach (s : state) (w : nat * kind) : state :=
  match snd w with
  | Port _ => {| wrapper := wrapper s; listeners := filter (fun l => negb (Nat.eqb (fst l) (fst w))) (listeners s); queues := queues s; running := running s; tab := tab s; current := current s; ports := ports s; heard := heard s; next := next s |}
  | Simulated _ => {| wrapper := wrapper s; listeners := listeners s; queues := queues s; running := filter (fun l => negb (Nat.eqb (fst l) (fst w))) (running s); tab := tab s; current := current s; ports := ports s; heard := heard s; next := next s |}
  end.
(* PySwitchRunner.js 311-321: setMidiWrapper *)
Definition set_wrapper (s : state) (w : option (nat * kind)) : state :=
  let s := match wrapper s with Some o => detach s o | None => s end in
  {| wrapper := w; listeners := listeners s; queues := queues s; running := running s; tab := tab s; current := current s; ports := ports s; heard := heard s; next := next s |}.
(* PySwitchUI.js 709-740 *)
Definition show (s : state) (c : option (nat * string)) : state :=
  {| wrapper := wrapper s; listeners := listeners s; queues := queues s; running := running s; tab := match c with Some (n, id) => if lively id then Some (n, id) else None | None => None end; current := current s; ports := ports s; heard := heard s; next := next s |}.
Definition set_current (s : state) (c : option string) : state :=
  {| wrapper := wrapper s; listeners := listeners s; queues := queues s; running := running s; tab := tab s; current := c; ports := ports s; heard := heard s; next := next s |}.
(* VirtualKemperClient.js 79-92: run *)
Definition start (s : state) (n : nat) (id : string) : state :=
  {| wrapper := wrapper s; listeners := listeners s; queues := queues s; running := if lively id then (n, id) :: running s else running s; tab := tab s; current := current s; ports := ports s; heard := heard s; next := S n |}.
(* PythonMidiWrapper.js 13-28: the constructor *)
Definition listen (s : state) (n : nat) (p : string) : state :=
  {| wrapper := wrapper s; listeners := (listeners s ++ [(n, p)])%list; queues := queues s; running := running s; tab := tab s; current := current s; ports := ports s; heard := heard s; next := S n |}.

(* ClientController.js 126-178: #connect. The result is false if it raises *)
Definition connect (s : state) (name : string) : state * bool :=
  let s := set_current (set_wrapper s None) None in
  if String.prefix "virtual" name then
    let id := String.substring 8 (String.length name - 8) name in
    if known id then let n := next s in (show (start (set_wrapper s (Some (n, Simulated id))) n id) (Some (n, id)), true) else (s, false)
  else
    let s := show s None in
    if existsb (String.eqb name) (ports s) then let n := next s in (set_current (set_wrapper (listen s n name) (Some (n, Port name))) (Some name), true) else (s, true).
(* MidiHandler.js 123-127, MidiListener.js 22-26: a message at a port *)
Definition receive (s : state) (p : string) (data : list Z) : state :=
  if existsb (String.eqb p) (heard s) then
    {| wrapper := wrapper s; listeners := listeners s; queues := (queues s ++ flat_map (fun l => if String.eqb p (snd l) then [(fst l, data)] else []) (listeners s))%list; running := running s; tab := tab s; current := current s; ports := ports s; heard := heard s; next := next s |}
  else s.
(* wrap_adafruit_midi.py 4-20: all messages of the wrapper are fetched *)
Definition waiting (s : state) : list (list Z) :=
  match wrapper s with Some (n, _) => map snd (filter (fun q => Nat.eqb (fst q) n) (queues s)) | None => [] end.
Definition read (s : state) : state :=
  match wrapper s with
  | Some (n, _) => {| wrapper := wrapper s; listeners := listeners s; queues := filter (fun q => negb (Nat.eqb (fst q) n)) (queues s); running := running s; tab := tab s; current := current s; ports := ports s; heard := heard s; next := next s |}
  | None => s
  end.

Inductive event := Connect (name : string) | Receive (port : string) (data : list Z) | Read | Plug (l : list string).
Definition step (s : state) (e : event) : state :=
  match e with
  | Connect name => fst (connect s name)
  | Receive p d => receive s p d
  | Read => read s
  | Plug l => {| wrapper := wrapper s; listeners := listeners s; queues := queues s; running := running s; tab := tab s; current := current s; ports := l; heard := heard s; next := next s |}
  end.
Definition run (l : list string) (h : list event) : state := fold_left step h (init l).
