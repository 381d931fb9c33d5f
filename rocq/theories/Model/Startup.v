(* How the firmware starts: /repo/content/boot.py 22-36 and content/lib/pyswitch/process.py 15-111.
   Left out: what the single steps do (Controller.v, Explore.v, Routing.v, Screens.v); here each of them may fail. The bridge itself is only in the repository as compiled code
   (content/lib/pymidibridge/MidiBridgeWrapper.mpy): that its method error() keeps serving file transfers is not modelled, only that it is called. Interrupts from the console (no Exception) are left out. *)
From Verif.Lib Require Import Base.
Local Open Scope list_scope.

(* The steps of process.py, with their lines *)
Inductive step :=
| Libraries            (* 15-16 *)
| Display              (* 19-20 *)
| ReadConfig           (* 23: config.py *)
| Modules              (* 27-29 *)
| ReadCommunication    (* 32: communication.py *)
| LoadBridge           (* 37 *)
| Routings             (* 39-48: _Communication["midi"]["routings"] *)
| ReadDisplay          (* 52: display.py *)
| ReadInputs           (* 53: inputs.py *)
| MakeController       (* 56-67 *)
| Init                 (* 70 *)
| Tick (n : nat)       (* 73: the n-th round *)
| ExploreModules       (* 85-89 *)
| MakeExplore          (* 96-104 *)
| ExploreInit          (* 107 *)
| ExploreTick (n : nat) (* 110 *).

(* Runs steps until one of them fails: the steps which have been done completely, and the one which failed *)
Fixpoint steps (fails : step -> bool) (l : list step) : list step * option step :=
  match l with
  | [] => ([], None)
  | s :: r => if fails s then ([], Some s) else let (d, f) := steps fails r in (s :: d, f)
  end.

Inductive outcome :=
| Running              (* still in the loop *)
| Stopped (s : step)   (* the program has ended with the error of this step *)
| Reported (s : step)  (* 78: the error of this step is handed to the bridge *).

(* The options of config.py (25, 36, 77) *)
Record config := { explore : bool; bridge : bool }.

(* process.py, observed until n rounds of the loop are done (tick() always returns True: controller.py 157, explore.py 167) *)
Definition process (c : config) (fails : step -> bool) (n : nat) : list step * outcome :=
  match steps fails [Libraries; Display; ReadConfig] with
  | (d, Some s) => (d, Stopped s)
  | (d, None) =>
      if negb (explore c) then
        match steps fails ([Modules; ReadCommunication] ++ (if bridge c then [LoadBridge] else []) ++ [Routings]) with
        | (d2, Some s) => (d ++ d2, Stopped s)
        | (d2, None) =>
            (* 50-80 *)
            match steps fails ([ReadDisplay; ReadInputs; MakeController; Init] ++ map Tick (seq 0 n)) with
            | (d3, Some s) => (d ++ d2 ++ d3, if bridge c then Reported s else Stopped s)
            | (d3, None) => (d ++ d2 ++ d3, Running)
            end
        end
      else
        match steps fails ([ExploreModules; MakeExplore; ExploreInit] ++ map ExploreTick (seq 0 n)) with
        | (d2, Some s) => (d ++ d2, Stopped s)
        | (d2, None) => (d ++ d2, Running)
        end
  end.

(* boot.py: who can write files. By default (CircuitPython) the computer has the drive and the firmware may only read *)
Record drive := { computer : bool; firmware : bool }.
(* 19-20: inverse logic; 33-35 *)
Definition boot (level : bool) : drive :=
  let pressed := Bool.eqb level false in
  if negb pressed then {| computer := false; firmware := true |} else {| computer := true; firmware := false |}.
