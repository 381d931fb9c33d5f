(* C79, C80: the virtual device as a memory that is written and read by messages, and what the firmware makes of its messages. *)
From Coq Require Import String.
From Verif.Lib Require Import Base.
From Verif.Model Require Import Midi Mapping KemperMappings VirtualParams.
Local Open Scope list_scope.

(* ---- histories of the virtual device ---- *)
Definition vd_after (date : list Z) (ops : list vop) : vdev := fst (run vd_step (vdev_new date) ops).
Definition vd_sent (date : list Z) (ops : list vop) : list msg := snd (run vd_step (vdev_new date) ops).
(* What it sends in answer to one message, after a history *)
Definition answers (date : list Z) (ops : list vop) (m : msg) (now : list Z) : list msg := snd (vd_step (vd_after date ops) (VRecv m now)).

(* Messages consist of data bytes; a SysEx message that sets a number carries its two bytes; the user interface uses addresses of two
   bytes and sets values. *)
Definition data_byte (b : Z) : Prop := 0 <= b < 128.
Definition proper_msg (m : msg) : Prop :=
  match m with
  | SysEx man data => Forall data_byte data /\ (firstn 4 data = [2; 127; 1; 0] -> (8 <= length data)%nat)
  | _ => True
  end.
Definition proper_key (k : vkey) : Prop := match k with KNrpn d => length d = 2%nat | KCc _ scale => scale = None | KPc => True end.
Definition proper (o : vop) : Prop :=
  match o with VRecv m _ => proper_msg m | VUi k v _ => proper_key k /\ v <> JNull | VSend k => proper_key k | _ => True end.

(* ---- the memory ---- *)
(* The effect states and the tuner mode can also be set by control changes *)
Definition alias (cc : Z) : option (Z * Z) :=
  match cc with
  | 17 => Some (50, 3) | 18 => Some (51, 3) | 19 => Some (52, 3) | 20 => Some (53, 3) | 22 => Some (56, 3) | 24 => Some (58, 3)
  | 26 | 27 => Some (60, 3) | 28 | 29 => Some (61, 3) | 31 => Some (127, 126)
  | _ => None
  end.
Definition at_addr (p a : Z) (x : Z * Z) : bool := (fst x =? p) && (snd x =? a).
(* The value written to an address, if any *)
Definition written (p a : Z) (o : vop) : option Z :=
  match o with
  | VRecv (SysEx man data) _ =>
      if bytes_eqb man [0; 32; 51] && bytes_eqb (firstn 4 data) [2; 127; 1; 0] then
        match skipn 4 data with p' :: a' :: hi :: lo :: _ => if at_addr p a (p', a') then Some (hi * 128 + lo) else None | _ => None end
      else None
  | VRecv (CC c v) _ => match alias c with Some x => if at_addr p a x then Some v else None | None => None end
  | VUi (KNrpn [p'; a']) (JNum v) _ => if at_addr p a (p', a') then Some v else None
  | _ => None
  end.
(* The values at the start: effect types and states, tuner deviance *)
Definition initially (p a : Z) : Z :=
  match p, a with
  | 60, 0 => 151 | 60, 3 => 1 | 61, 0 => 180 | 61, 3 => 1 | 50, 0 => 8 | 50, 3 => 1 | 51, 0 => 13 | 51, 3 => 1 | 52, 0 => 38 | 53, 0 => 50
  | 53, 3 => 1 | 56, 0 => 115 | 56, 3 => 1 | 58, 0 => 104 | 58, 3 => 1 | 124, 15 => 8191
  | _, _ => 0
  end.
Definition remembered (p a : Z) (ops : list vop) : Z := fold_left (fun x o => match written p a o with Some v => v | None => x end) ops (initially p a).
(* All numbers but the morph state (0, 11) and the tempo (4, 0), which are changed by other things too; texts are at (0, 1), (0, 3), (0, 16) *)
Definition ordinary (p a : Z) : Prop := ~ In (p, a) [(0, 11); (4, 0); (0, 1); (0, 3); (0, 16)].

(* ---- the firmware ---- *)
Definition ask (p a : Z) : msg := nrpn f_request_single p a.
Definition ask_text (a : Z) : msg := nrpn f_request_string 0 a.
(* a parameter's mapping before any answer *)
Definition mapping_of (k : kparam) : mapping :=
  let d := kemper k in mkMapping (k_name d) (k_set d) (k_request d) (k_response d) None (k_type d) None (k_two d) None.
(* the mapping after reading messages *)
Definition hear (m : mapping) (ms : list msg) : mapping := fold_left (fun m x => match parse m x with Ok (m', _) => m' | Raise => m end) ms m.
Definition heard (k : kparam) (ms : list msg) : option value := val (hear (mapping_of k) ms).
(* The message sent for a value *)
Definition told (k : kparam) (v : Z) : option msg := match set_t (fst (set_value (mapping_of k) (One v))) with TOne m => Some m | _ => None end.

(* As long as parameter set x is active *)
Definition stays (x : Z) (o : vop) : Prop := match o with VBeacon y _ => y = x | VOffline => False | _ => True end.

(* The parameters which a connected device sends by itself, with their addresses *)
Definition pushed (k : kparam) : option (Z * Z) :=
  match k with
  | EffectType s => match s with SlotDLY | SlotREV | SlotDLYns | SlotREVns => None | _ => Some (slot_page s, 0) end
  | EffectState s => match s with SlotDLY | SlotREV | SlotDLYns | SlotREVns => None | _ => Some (slot_page s, 3) end
  | TunerMode => Some (127, 126) | TunerNote => Some (125, 84) | TunerDeviance => Some (124, 15) | TempoPulse => Some (124, 0)
  | _ => None
  end.
