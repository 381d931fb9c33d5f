(* The web editor's connection to a controller: /repo/web/htdocs/js/DeviceController.js and /repo/web/htdocs/js/midi/MidiBridgeHandler.js, for one port. The JsMidiBridge it
   uses is in Model/Bridge.v. Promises are numbered in the order of creation. Not modelled: progress and messages in the user interface, the timeout of connect
   (MidiBridgeHandler.js 122-123), scanning all ports (DeviceController.js 30-51), a change of the port. *)
From Coq Require Import String.
From Verif.Lib Require Import Base.
From Verif.Model Require Import Midi Bridge.
Local Open Scope list_scope.

(* MidiBridgeHandler.js 25, 30 *)
Definition CHUNK_REQUEST : Z := 100.
Definition CHUNK_SEND : Z := 65.
(* 71 *)
Definition PING : list Z := unit_codes "/mostlikelynotexistingfolder/ping".

(* The calls: connect (DeviceController.js 56-101), loadFile (121-153), saveFile (158-186), and how their promises are settled *)
Inductive call := CConnect | CLoad (path : list Z) | CSave (path content : list Z).
Inductive outcome := Connected | Loaded (data : list Z) | Saved | Failed (text : list Z).
(* The callbacks of the bridge: nothing for a promise; doResolve of connect (MidiBridgeHandler.js 93-107); resolve and reject of promise k *)
Inductive callback := CbNone | CbPing (k : nat) | CbCall (k : nat).
(* v_on: there is a connection (DeviceController.js 9, 99); v_finish, v_error, v_send: onReceiveFinish, onError, onSendProgress of the bridge *)
Record device := mkDev { v_on : bool; v_calls : list (call * option outcome); v_finish : callback; v_error : callback; v_send : callback }.
Definition device_new : device := mkDev false [] CbNone CbNone CbNone.

(* A promise is settled once *)
Fixpoint settle (k : nat) (o : outcome) (l : list (call * option outcome)) : list (call * option outcome) :=
  match l, k with
  | [], _ => []
  | (c, r) :: l, O => (c, match r with None => Some o | Some _ => r end) :: l
  | x :: l, S k => x :: settle k o l
  end.
Definition settled (k : nat) (o : outcome) (v : device) : device := mkDev (v_on v) (settle k o (v_calls v)) (v_finish v) (v_error v) (v_send v).
(* MidiBridgeHandler.js 93-107 doResolve, then DeviceController.js 74-99: the callbacks which are set there settle nothing *)
Definition pinged (k : nat) (v : device) : device := mkDev true (settle k Connected (v_calls v)) CbNone CbNone (v_send v).

(* What the callbacks do: DeviceController.js 138-141 and 144-146, 169-179, 181-184; MidiBridgeHandler.js 115-117 *)
Definition on_event (v : device) (e : bev) : device :=
  match e with
  | RecvFinish _ _ data _ => match v_finish v with CbNone => v | CbPing k => pinged k v | CbCall k => settled k (Loaded data) v end
  | RecvError text => match v_error v with CbNone => v | CbPing k => pinged k v | CbCall k => settled k (Failed text) v end
  | SendProgress _ chunk amount file =>
      if file && (chunk + 1 =? amount) then match v_send v with CbNone => v | CbPing k => pinged k v | CbCall k => settled k Saved v end else v
  | _ => v
  end.

(* The calls up to the action of the bridge: DeviceController.js 56-65 with MidiBridgeHandler.js 115-121; 122-150; 159-184. Without a connection loadFile and saveFile throw *)
Definition begin (c : call) (v : device) : device :=
  let k := length (v_calls v) in
  match c with
  | CConnect => if v_on v then v else mkDev false (v_calls v ++ [(c, None)]) (CbPing k) (CbPing k) (v_send v)
  | CLoad _ => if v_on v then mkDev true (v_calls v ++ [(c, None)]) (CbCall k) (CbCall k) (v_send v)
               else mkDev false (v_calls v ++ [(c, Some (Failed (unit_codes "No controller connected")))]) (v_finish v) (v_error v) (v_send v)
  | CSave _ _ => if v_on v then mkDev true (v_calls v ++ [(c, None)]) (v_finish v) (CbCall k) (CbCall k)
               else mkDev false (v_calls v ++ [(c, Some (Failed (unit_codes "No controller connected")))]) (v_finish v) (v_error v) (v_send v)
  end.
(* Does the call lead to an action of the bridge? *)
Definition acts (c : call) (v : device) : bool := match c with CConnect => negb (v_on v) | _ => v_on v end.
