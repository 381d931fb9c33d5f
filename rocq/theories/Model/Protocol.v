(* clients/kemper/__init__.py:586-735  KemperBidirectionalProtocol *)
From Verif.Lib Require Import Base.
From Verif.Model Require Import Midi Period Mapping.

(* clients/kemper/__init__.py:22-36 *)
Definition NRPN_MANUFACTURER_ID : list Z := [0x00; 0x20; 0x33].
Definition NRPN_PRODUCT_TYPE : Z := 0x02.
Definition NRPN_DEVICE_ID_OMNI : Z := 0x7f.
Definition NRPN_INSTANCE : Z := 0x00.

(* clients/kemper/__init__.py:290-310 KemperNRPNExtendedMessage with its default arguments *)
Definition nrpn_extended (function_code : Z) (controller : list Z) : msg :=
  SysEx NRPN_MANUFACTURER_ID ([NRPN_PRODUCT_TYPE; NRPN_DEVICE_ID_OMNI; function_code; NRPN_INSTANCE] ++ controller).

(* 526-535 BIDIRECTIONAL_SENSING().response: manufacturer and data *)
Definition sense_data : list Z := [NRPN_PRODUCT_TYPE; NRPN_DEVICE_ID_OMNI; 0x7e; NRPN_INSTANCE; 0x7f].

(* 591-617. [running] is state == _STATE_RUNNING; the counters that only serve debug output are left out. *)
Record protocol := mkProto {
  running : bool;
  lease_encoded : Z;
  tuner_mode : bool;
  resend_period : period;
  init_period : period;
  sensing_period : period;
  has_been_running : bool;
  init_sent : bool
}.

(* 719-720 __encode_time_lease: int(t / 2). Simplification: the lease is an integer number of seconds. *)
Definition encode_time_lease (t : Z) : Z := Z.quot t 2.

(* 591-617 __init__, at time [now] (sensing_period.reset()); 605: int(t * 1000 * 0.5) *)
Definition new_protocol (lease : Z) (tuner : bool) (now : Z) : protocol :=
  mkProto false (encode_time_lease lease) tuner (new_period (lease * 500)) (new_period 5000)
          (p_reset (new_period 1500) now) false false.

(* 723-731 __get_flags *)
Definition b2z (b : bool) : Z := if b then 1 else 0.
Definition get_flags (init sysex echo nofe noctr tunemode : bool) : Z :=
  Z.lor (Z.lor (Z.lor (Z.lor (Z.lor (Z.lor 0 (Z.shiftl (b2z init) 0)) (Z.shiftl (b2z sysex) 1)) (Z.shiftl (b2z echo) 2))
        (Z.shiftl (b2z nofe) 3)) (Z.shiftl (b2z noctr) 4)) (Z.shiftl (b2z tunemode) 5).

(* 702-716 __send_beacon: the message *)
Definition beacon (p : protocol) (init : bool) : msg :=
  nrpn_extended 0x7e [0x40; 0x02; get_flags init true false false false (tuner_mode p); lease_encoded p].

(* What happens: a message sent, the client told about the lost connection, and (for stating properties) the changes of
   the connection state. *)
Inductive pevent :=
| PSend (t : Z) (init : bool) (m : msg)
| PLost (t : Z)
| POnline (t : Z)
| POffline (t : Z).

Definition with_running p b := mkProto b (lease_encoded p) (tuner_mode p) (resend_period p) (init_period p) (sensing_period p) (has_been_running p) (init_sent p).
Definition with_resend p x := mkProto (running p) (lease_encoded p) (tuner_mode p) x (init_period p) (sensing_period p) (has_been_running p) (init_sent p).
Definition with_initp p x := mkProto (running p) (lease_encoded p) (tuner_mode p) (resend_period p) x (sensing_period p) (has_been_running p) (init_sent p).
Definition with_sensing p x := mkProto (running p) (lease_encoded p) (tuner_mode p) (resend_period p) (init_period p) x (has_been_running p) (init_sent p).
Definition with_been p b := mkProto (running p) (lease_encoded p) (tuner_mode p) (resend_period p) (init_period p) (sensing_period p) b (init_sent p).
Definition with_init_sent p b := mkProto (running p) (lease_encoded p) (tuner_mode p) (resend_period p) (init_period p) (sensing_period p) (has_been_running p) b.

(* 638-661 update. Simplification: one clock reading for both periods. *)
Definition p_update (p : protocol) (now : Z) : protocol * list pevent :=
  if negb (running p) then
    let '(ex, ip) := p_exceeded (init_period p) now in
    let p1 := with_initp p ip in
    if ex then
      (with_init_sent p1 true, (if has_been_running p1 then [PLost now] else []) ++ [PSend now true (beacon p1 true)])
    else (p1, [])
  else
    let '(ex, sp) := p_exceeded (sensing_period p) now in
    let p1 := with_sensing p sp in
    if ex then (with_running p1 false, [POffline now])
    else
      let '(ex2, rp) := p_exceeded (resend_period p1) now in
      let p2 := with_resend p1 rp in
      if ex2 then (p2, [PSend now false (beacon p2 false)]) else (p2, []).

(* 664-699 receive; the boolean tells whether the message was used *)
Definition p_receive (p : protocol) (now : Z) (x : msg) : protocol * list pevent * bool :=
  if negb (init_sent p) then (p, [], false)
  else match x with
  | SysEx man data =>
      if negb (bytes_eqb man NRPN_MANUFACTURER_ID) then (p, [], false)
      else if negb (bytes_eqb (slice data 2 5) (slice sense_data 2 5)) then (p, [], false)
      else
        let '(p1, ev) :=
          if negb (running p) then
            (with_running (with_been (with_resend p (p_reset (resend_period p) now)) true) true, [POnline now])
          else (p, []) in
        (with_sensing p1 (p_reset (sensing_period p1) now), ev, true)
  | _ => (p, [], false)
  end.

Inductive pop := PUpdate (now : Z) | PReceive (now : Z) (x : msg).
Definition pstep (p : protocol) (o : pop) : protocol * list pevent :=
  match o with
  | PUpdate now => p_update p now
  | PReceive now x => let '(p', ev, _) := p_receive p now x in (p', ev)
  end.
