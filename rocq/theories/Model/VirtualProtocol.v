(* The bidirectional protocol of the web emulator's virtual Kemper, /repo/web/htdocs/clients/kemper/virtual/VirtualKemperProtocol.js, and
   its closed loop with the firmware's side (clients/kemper/__init__.py:586-735 KemperBidirectionalProtocol, Model/Protocol.v).
   Simplification: Date.now() and the firmware's monotonic() are one clock; only differences of times matter on either side. *)
From Verif.Lib Require Import Base.
From Verif.Model Require Import Midi Period Protocol Codec.

(* VirtualKemperProtocol.js:3-16. v_on: state == STATE_CONNECTED. The lease counter is null before the first connection; it is only used
   when connected, so any period stands for null. *)
Record vproto := mkV { v_on : bool; v_set : option Z; v_lease : period; v_keep : period; v_step : Z }.

(* VirtualKemperProtocol.js:18-25 with js/misc/PeriodCounter.js:8-13: a new counter is reset to the current time *)
Definition v_new (now : Z) : vproto := mkV false None (new_period 0) (mkPeriod 500 now) 0.

(* VirtualKemperProtocol.js:68-72 #sendKeepAlive; the product type is 2 (clients/kemper/KemperClient.js:53) *)
Definition v_alive (cnt : Z) : list Z := [240; 0; 32; 51; 2; 127; 126; 0; 127; cnt; 247].

(* VirtualKemperProtocol.js:46-63 update: the state and the messages queued. PeriodCounter.js:32-39 exceeded() is that of misc.py:125-131
   (Model/Period.v). After the lease is exceeded (49-54) a keep-alive may still be sent in the same call (57). *)
Definition v_update (v : vproto) (now : Z) : vproto * list (list Z) :=
  if v_on v then
    let '(ex, lp) := p_exceeded (v_lease v) now in
    let v1 := if ex then mkV false None lp (v_keep v) 0 else mkV true (v_set v) lp (v_keep v) (v_step v) in
    let '(ex2, kp) := p_exceeded (v_keep v1) now in
    if ex2 then
      (mkV (v_on v1) (v_set v1) (v_lease v1) kp (if 128 <=? v_step v1 + 1 then 0 else v_step v1 + 1), [v_alive (v_step v1)])
    else (mkV (v_on v1) (v_set v1) (v_lease v1) kp (v_step v1), [])
  else (v, []).

(* VirtualKemperProtocol.js:77-112 parse(message): the state, whether the message was used, and whether the parameters of the set are
   sent (103-106). 78-81: the first nine bytes are compared. Simplification: a beacon shorter than 12 bytes does not occur (missing bytes
   would be undefined, here 0). *)
Definition v_beacon_head : list Z := [240; 0; 32; 51; 2; 127; 126; 0; 64].
Definition v_parse (v : vproto) (now : Z) (m : list Z) : vproto * bool * bool :=
  if negb (bytes_eqb (firstn 9 m) v_beacon_head) then (v, false, false)
  else
    (mkV true (Some (nth 9 m 0)) (mkPeriod (nth 11 m 0 * 2000) now) (v_keep v) (v_step v), true,
     negb (Z.land (nth 10 m 0) 1 =? 0)).

(* The loop. to_v: messages on their way to the virtual device (js/clients/VirtualClient.js send(): delivered by setTimeout, in order);
   to_p: its message queue (VirtualKemperClient.js:204-210), read in order by the firmware (C76). Each message carries the time of sending,
   which is only used to state how long it takes. *)
Record loop := mkLoop { l_p : protocol; l_v : vproto; to_v : list (Z * list Z); to_p : list (Z * list Z) }.

(* A message of the firmware's protocol on the wire, and the message the firmware reads (Model/Codec.v) *)
Definition msg_bytes (m : msg) : list Z := match m with SysEx man data => 240 :: man ++ data ++ [247] | _ => [] end.
Definition bytes_msg (bs : list Z) : msg := match sysex_from_bytes bs with WSysEx man data => SysEx man data | _ => UnknownMsg 0 end.

(* LPUpdate: the client's update calls protocol.update(); LPRead: the firmware reads its next message; LVUpdate: the virtual client's
   update; LVParse: the virtual client gets the next message; LPSay and LVSay: the rest of the firmware, resp. of the virtual client
   (requests, parameter changes, the parameter set sent after an initial beacon), sends a message. Simplification: a message read that is
   no SysEx is one too here (its status byte is not looked at), which the protocol ignores in either case because of its manufacturer id. *)
Inductive lop := LPUpdate (t : Z) | LPRead (t : Z) | LVUpdate (t : Z) | LVParse (t : Z) | LPSay (t : Z) (m : list Z) | LVSay (t : Z) (m : list Z).
Definition l_step (s : loop) (o : lop) : loop * list pevent :=
  match o with
  | LPUpdate t =>
      let '(p, evs) := p_update (l_p s) t in
      (mkLoop p (l_v s) (to_v s ++ flat_map (fun e => match e with PSend _ _ m => [(t, msg_bytes m)] | _ => [] end) evs) (to_p s), evs)
  | LPRead t =>
      match to_p s with
      | [] => (s, [])
      | (_, m) :: q => let '(p, evs, _) := p_receive (l_p s) t (bytes_msg m) in (mkLoop p (l_v s) (to_v s) q, evs)
      end
  | LVUpdate t => let '(v, ms) := v_update (l_v s) t in (mkLoop (l_p s) v (to_v s) (to_p s ++ map (pair t) ms), [])
  | LVParse t =>
      match to_v s with
      | [] => (s, [])
      | (_, m) :: q => (mkLoop (l_p s) (fst (fst (v_parse (l_v s) t m))) q (to_p s), [])
      end
  | LPSay t m => (mkLoop (l_p s) (l_v s) (to_v s ++ [(t, m)]) (to_p s), [])
  | LVSay t m => (mkLoop (l_p s) (l_v s) (to_v s) (to_p s ++ [(t, m)]), [])
  end.

(* The start: the firmware's protocol (KemperClient.js:18-24: a lease of 30 s) and the virtual device are created *)
Definition loop_new (lease : Z) (tuner : bool) (t0 : Z) : loop := mkLoop (new_protocol lease tuner t0) (v_new t0) [] [].
