(* C14, C15: the bidirectional protocol. [p_reached lease tuner t0 ops p evs]: a protocol created at time t0 with that lease
   (seconds) and tuner flag, after the updates and received messages [ops], is in state [p] and has emitted [evs]. *)
From Verif.Lib Require Import Base.
From Verif.Model Require Import Midi Period Mapping Protocol.
From Verif.Spec Require Import Protocol.
From Verif.Proofs Require Import Protocol.

(* ---- C14 ---- *)

(* Exactly what an update does, as a function of the past: offline, initial beacons more than 5 s after the previous one,
   preceded by the notification of the loss if there ever was a connection; online, the connection is given up exactly if
   the last sensing message is more than 1.5 s ago, otherwise a keep-alive beacon more than half a lease after the previous
   one or the start of the connection. *)
Theorem C14_update_exact : forall lease tuner t0 ops p evs now, p_reached lease tuner t0 ops p evs ->
  (connected evs = false ->
    snd (p_update p now) =
      if last_time is_init evs + 5000 <? now
      then (if existsb is_online evs then [PLost now] else []) ++ [PSend now true (the_beacon lease tuner true)] else []) /\
  (connected evs = true -> exists t, last_sensed ops t /\
    snd (p_update p now) =
      if t + 1500 <? now then [POffline now]
      else if last_time is_alive evs + 500 * lease <? now then [PSend now false (the_beacon lease tuner false)] else []).
Proof. exact update_exact. Qed.
Print Assumptions C14_update_exact.

(* Exactly what a received message does: it establishes a connection iff it is a sensing message, an initial beacon has
   been sent before and there is no connection; otherwise it emits nothing. *)
Theorem C14_receive_exact : forall lease tuner t0 ops p evs now x, p_reached lease tuner t0 ops p evs ->
  exists p' ev used, p_receive p now x = (p', ev, used) /\
  (used = true <-> sensing x /\ existsb is_init evs = true) /\
  (connected evs = false -> (sensing x /\ existsb is_init evs = true) -> ev = [POnline now]) /\
  (connected evs = true \/ ~ (sensing x /\ existsb is_init evs = true) -> ev = []).
Proof. exact receive_exact. Qed.
Print Assumptions C14_receive_exact.

(* The consequences over whole histories: *)
Theorem C14_initial_beacons_spaced : forall lease tuner t0 ops p evs a b,
  p_reached lease tuner t0 ops p evs -> consecutive is_init evs a b -> p_time a + 5000 < p_time b.
Proof. exact init_spacing. Qed.
Print Assumptions C14_initial_beacons_spaced.

Theorem C14_keepalive_spaced : forall lease tuner t0 ops p evs a b,
  p_reached lease tuner t0 ops p evs -> consecutive is_alive evs a b -> is_keepalive b = true -> p_time a + 500 * lease < p_time b.
Proof. exact keepalive_spacing. Qed.
Print Assumptions C14_keepalive_spaced.

Theorem C14_keepalive_only_connected : forall lease tuner t0 ops p evs e1 t w e2,
  p_reached lease tuner t0 ops p evs -> evs = e1 ++ PSend t false w :: e2 ->
  last_time is_alive e1 + 500 * lease < t /\ connected e1 = true.
Proof. exact keepalive_beacon. Qed.
Print Assumptions C14_keepalive_only_connected.

Theorem C14_initial_only_disconnected : forall lease tuner t0 ops p evs e1 t w e2,
  p_reached lease tuner t0 ops p evs -> evs = e1 ++ PSend t true w :: e2 ->
  last_time is_init e1 + 5000 < t /\ connected e1 = false /\ (existsb is_online e1 = true -> exists e0, e1 = e0 ++ [PLost t]).
Proof. exact init_beacon. Qed.
Print Assumptions C14_initial_only_disconnected.

Theorem C14_lost_never_early : forall lease tuner t0 ops p evs e1 t e2,
  p_reached lease tuner t0 ops p evs -> evs = e1 ++ POffline t :: e2 ->
  connected e1 = true /\ exists ops1 ops2 t9, ops = ops1 ++ PUpdate t :: ops2 /\ last_sensed ops1 t9 /\ t9 + 1500 < t.
Proof. exact offline_exact. Qed.
Print Assumptions C14_lost_never_early.

Theorem C14_established_after_beacon : forall lease tuner t0 ops p evs e1 t e2,
  p_reached lease tuner t0 ops p evs -> evs = e1 ++ POnline t :: e2 ->
  connected e1 = false /\ existsb is_init e1 = true /\ exists ops1 x ops2, ops = ops1 ++ PReceive t x :: ops2 /\ sensing x.
Proof. exact online_exact. Qed.
Print Assumptions C14_established_after_beacon.

Theorem C14_lost_notification : forall lease tuner t0 ops p evs e1 t e2,
  p_reached lease tuner t0 ops p evs -> evs = e1 ++ PLost t :: e2 ->
  existsb is_online e1 = true /\ connected e1 = false /\ exists w e3, e2 = PSend t true w :: e3.
Proof. exact lost_exact. Qed.
Print Assumptions C14_lost_notification.

(* Lease 30 s, created at 100: too early; initial beacon; a foreign message; sensing; nothing; keep-alive; silence; loss;
   told at the next initial beacon, which waits until 5 s after the previous one. *)
Definition sense : msg := SysEx [0; 32; 51] [0; 0; 126; 0; 127; 1; 2].
Definition ex_pops : list pop :=
  [ PUpdate 5000; PReceive 5000 sense; PUpdate 5001; PReceive 5002 (CC 1 2); PReceive 5010 sense; PUpdate 6000;
    PReceive 20000 sense; PUpdate 20010; PUpdate 20011; PUpdate 21500; PUpdate 21501; PUpdate 21502; PUpdate 21503; PUpdate 26503 ].
Definition ex_pevs : list pevent :=
  [ PSend 5001 true (the_beacon 30 true true); POnline 5010; PSend 20011 false (the_beacon 30 true false);
    POffline 21501; PLost 21502; PSend 21502 true (the_beacon 30 true true); PLost 26503; PSend 26503 true (the_beacon 30 true true) ].
Example C14_ex : exists p, p_reached 30 true 100 ex_pops p ex_pevs.
Proof. eexists. vm_compute. reflexivity. Qed.
Example C14_ex_sensing : sensing sense /\ ~ sensing (CC 1 2).
Proof. split; [constructor|]. intros H. inversion H. Qed.
Example C14_ex_consecutive : consecutive is_init ex_pevs (PSend 5001 true (the_beacon 30 true true)) (PSend 21502 true (the_beacon 30 true true)) /\
  consecutive is_alive ex_pevs (POnline 5010) (PSend 20011 false (the_beacon 30 true false)).
Proof.
  split.
  - exists [], [POnline 5010; PSend 20011 false (the_beacon 30 true false); POffline 21501; PLost 21502], [PLost 26503; PSend 26503 true (the_beacon 30 true true)].
    repeat split; repeat constructor.
  - exists [PSend 5001 true (the_beacon 30 true true)], []. eexists. split; [reflexivity|]. repeat split; constructor.
Qed.

(* ---- C15 ---- *)

Theorem C15_beacon_content : forall lease tuner t0 ops p evs t i w, p_reached lease tuner t0 ops p evs -> In (PSend t i w) evs ->
  exists f l, w = SysEx [0; 32; 51] [2; 127; 126; 0; 64; 2; f; l] /\ 0 <= f <= 127 /\
    bit f 0 = i /\ bit f 1 = true /\ bit f 5 = tuner /\ (forall k, k <> 0 -> k <> 1 -> k <> 5 -> bit f k = false) /\
    (0 <= lease <= 255 -> 0 <= l <= 127 /\ 2 * l <= lease < 2 * l + 2).
Proof. exact beacon_content. Qed.
Print Assumptions C15_beacon_content.

Example C15_ex : the_beacon 31 true true = SysEx [0; 32; 51] [2; 127; 126; 0; 64; 2; 35; 15] /\
  the_beacon 255 false false = SysEx [0; 32; 51] [2; 127; 126; 0; 64; 2; 2; 127].
Proof. split; reflexivity. Qed.
