(* Searching for devices on all MIDI ports, and connecting to clients. /repo/web/htdocs/js/midi/MidiHandler.js, js/midi/MidiBridgeHandler.js, js/DeviceController.js, js/ClientController.js.
   Everything a callback of the browser triggers by promises runs before the next callback, so that one answer or one timeout is one step. *)
From Coq Require Import String.
From Verif.Lib Require Import Base.
Open Scope string_scope.
Local Open Scope list_scope.
Local Open Scope nat_scope.

(* MidiHandler.js 150-176 getMatchingPortPairs: a port is given by manufacturer and name; every input with every output which has the same. The result: the names of the pairs *)
Definition port := (string * string)%type.
Definition pairs (inputs outputs : list port) : list string :=
  flat_map (fun i => flat_map (fun o => if String.eqb (fst o) (fst i) && String.eqb (snd o) (snd i) then [snd o] else []) outputs) inputs.

(* What the caller is told: the connection of attempt i (by the name of its port), or that all attempts have failed *)
Inductive result := Found (name : string) | Failed.
(* [c_ports]: the pairs; attempts are numbered like them. [c_map]: attempts (MidiHandler.js 64), by name; [c_open]: attempts whose promise is not settled: they listen to their port and their timer runs;
   [c_success] (65); [c_log]: calls of onSuccess and onFailure *)
Record scan := { c_ports : list string; c_map : list (string * nat); c_open : list nat; c_success : bool; c_log : list result }.
Definition name (s : scan) (i : nat) : string := nth i (c_ports s) "".
(* Maps of JavaScript *)
Definition delete (k : string) (m : list (string * nat)) : list (string * nat) := filter (fun x => negb (String.eqb (fst x) k)) m.
Fixpoint set (k : string) (v : nat) (m : list (string * nat)) : list (string * nat) :=
  match m with [] => [(k, v)] | (k', v') :: m => if String.eqb k' k then (k, v) :: m else (k', v') :: set k v m end.

(* MidiHandler.js 55-94 scan, with the attempts as MidiBridgeHandler.js 116-134 and ClientController.js 117-128 register them *)
Fixpoint register (i : nat) (l : list string) (m : list (string * nat)) : list (string * nat) := match l with [] => m | n :: l => register (S i) l (set n i m) end.
Definition begin (ports : list string) : scan :=
  match ports with
  | [] => {| c_ports := []; c_map := []; c_open := []; c_success := false; c_log := [Failed] |}
  | _ => {| c_ports := ports; c_map := register 0 ports []; c_open := seq 0 (length ports); c_success := false; c_log := [] |}
  end.
(* cleanup (MidiBridgeHandler.js 86-93, ClientController.js 91-101): the attempt is removed, its timer stopped, its listener removed *)
Definition settle (i : nat) (s : scan) : scan :=
  {| c_ports := c_ports s; c_map := delete (name s i) (c_map s); c_open := filter (fun j => negb (Nat.eqb i j)) (c_open s); c_success := c_success s; c_log := c_log s |}.
Definition succeed (s : scan) : scan := {| c_ports := c_ports s; c_map := c_map s; c_open := c_open s; c_success := true; c_log := c_log s |}.
Definition tell (r : result) (s : scan) : scan := {| c_ports := c_ports s; c_map := c_map s; c_open := c_open s; c_success := c_success s; c_log := c_log s ++ [r] |}.
(* MidiHandler.js 78-86: the promise has been rejected *)
Definition rejected (s : scan) : scan := if negb (c_success s) && match c_map s with [] => true | _ => false end then tell Failed s else s.
(* DeviceController.js 40-47, ClientController.js 45-53: reject all others; they are rejected when success is set already, so that rejected does nothing *)
Fixpoint reject_all (l : list (string * nat)) (s : scan) : scan := match l with [] => s | (_, j) :: l => reject_all l (rejected (settle j s)) end.

Inductive event :=
(* The device on the port of attempt i answers *)
| Answer (i : nat)
(* The time of attempt i is over *)
| Timeout (i : nat).
Definition is_open (s : scan) (i : nat) : bool := existsb (Nat.eqb i) (c_open s).
Definition step (s : scan) (e : event) : scan :=
  match e with
  (* doResolve, then MidiHandler.js 71-76 *)
  | Answer i => if is_open s i then let s1 := succeed (settle i s) in tell (Found (name s i)) (reject_all (c_map s1) s1) else s
  (* doReject, then MidiHandler.js 78-86 *)
  | Timeout i => if is_open s i then rejected (settle i s) else s
  end.
Definition run (ports : list string) (l : list event) : scan := fold_left step l (begin ports).

(* ClientController.js 135-185 connect: what PySwitch is connected to *)
Inductive client := Nobody | Virtual (id : string) | Device (name : string).
(* [known]: the clients which have a virtual device, [pairs]: the names of the pairs of ports. None: an exception, as for names of unknown clients (ClientFactory.js 9-16) *)
Definition connect (known : string -> option bool) (ports : list string) (n : string) : option client :=
  if prefix "virtual" n then
    let id := substring 8 (String.length n - 8) n in
    match known id with Some true => Some (Virtual id) | Some false => Some Nobody | None => None end
  else if existsb (String.eqb n) ports then Some (Device n) else Some Nobody.
(* ClientController.js 35-60: what happens with the result of a scan for a configuration of client id; None as above *)
Definition finish (known : string -> option bool) (ports : list string) (id : string) (r : result) : option client :=
  connect known ports match r with Found n => n | Failed => ("virtual-" ++ id)%string end.

(* ClientController.js 20-30 init: a client selected by the user is connected at once, otherwise a search begins. Searches are not awaited (MidiHandler.js 91-93), and nothing stops them.
   [k_scans]: all searches so far, with the client of their configuration; [k_client]: what PySwitch is connected to *)
Record connector := { k_scans : list (string * scan); k_client : client }.
Inductive action := Choose (n : string) | Search (id : string) | On (k : nat) (e : event).
(* connect disconnects first (ClientController.js 136-138), which is what is left after an exception *)
Definition connected (o : option client) : client := match o with Some c => c | None => Nobody end.
Fixpoint results (known : string -> option bool) (ports : list string) (id : string) (l : list result) (c : client) : client :=
  match l with [] => c | r :: l => results known ports id l (connected (finish known ports id r)) end.
Fixpoint replace {A} (n : nat) (x : A) (l : list A) : list A := match l, n with [], _ => [] | _ :: l, O => x :: l | y :: l, S n => y :: replace n x l end.
Definition act (known : string -> option bool) (ports : list string) (s : connector) (a : action) : connector :=
  match a with
  | Choose n => {| k_scans := k_scans s; k_client := connected (connect known ports n) |}
  | Search id => let c := begin ports in {| k_scans := k_scans s ++ [(id, c)]; k_client := results known ports id (c_log c) (k_client s) |}
  | On k e =>
      match nth_error (k_scans s) k with
      | Some (id, c) => let c' := step c e in {| k_scans := replace k (id, c') (k_scans s); k_client := results known ports id (skipn (length (c_log c)) (c_log c')) (k_client s) |}
      | None => s
      end
  end.
Definition acts (known : string -> option bool) (ports : list string) (l : list action) : connector := fold_left (act known ports) l {| k_scans := []; k_client := Nobody |}.
