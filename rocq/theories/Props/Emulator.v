(* C76: the MIDI input of the web emulator. *)
From Verif.Lib Require Import Base.
From Verif.Model Require Import Codec Emulator.
From Verif.Spec Require Import Codec Emulator.
From Verif.Proofs Require Import Codec Emulator.

(* The client gets nothing but whole messages that have arrived, each at most once, in their order, as far as they are on the channels
   listened to; and all it gets has been shown by the MIDI monitor before. Messages longer than the buffer are never among them. *)
Theorem C76_ordered : forall limit size chans vs, Forall valid (arrived vs) ->
  exists taken, part_of taken (arrived vs) /\ monitor_got limit size chans vs = map wire taken
  /\ Forall (fun m => (length (wire m) <= size)%nat) taken
  /\ beginning_of (client_got limit size chans vs) (filter (accepted chans) taken).
Proof. exact ordered. Qed.
Print Assumptions C76_ordered.

(* After some more ticks, the client has got all that the monitor shows, and nothing else. *)
Theorem C76_as_monitored : forall limit size chans vs n, (0 < size)%nat -> Forall valid (arrived vs) -> (length (arrived vs) <= n)%nat ->
  exists taken, part_of taken (arrived vs) /\ monitor_got limit size chans (vs ++ repeat Ticks n) = map wire taken
  /\ client_got limit size chans (vs ++ repeat Ticks n) = filter (accepted chans) taken.
Proof. exact all_processed. Qed.
Print Assumptions C76_as_monitored.

(* Exactly what a read loses, whatever is in the queue: it takes messages over until one does not fit the room asked for; that one is lost, what
   is behind it remains queued. *)
Theorem C76_read : forall q n, let '(ms, rest) := emu_read q n in
  Forall (fun m => (length m <= n)%nat) ms /\ ((q = ms /\ rest = []) \/ exists m, q = ms ++ m :: rest /\ (n < length m)%nat).
Proof. exact read_exact. Qed.
Print Assumptions C76_read.

(* No message is lost, and the emulator behaves as a queue of messages: proved as long as each message arriving fits into the buffer beside what
   the last tick has left there. Missing for the full claim: messages arriving while more is waiting (refuted below). *)
Theorem C76_queue_partial : forall limit size chans vs, Forall valid (arrived vs) -> fits (S limit) size chans [] [] vs ->
  client_got limit size chans vs = queue (S limit) chans [] [] vs.
Proof. exact as_queue. Qed.
Print Assumptions C76_queue_partial.

(* In particular, with at most limit + 1 messages per tick, each not longer than the buffer, every message gets to the client in the next
   tick. *)
Theorem C76_paced_partial : forall limit size chans gs, Forall valid (concat gs) ->
  Forall (fun g => (length g <= S limit)%nat /\ Forall (fun m => (length (wire m) <= size)%nat) g) gs ->
  client_got limit size chans (groups gs) = filter (accepted chans) (concat gs).
Proof. exact groups_received. Qed.
Print Assumptions C76_paced_partial.

(* With the settings of the emulator (buffer of 100 bytes, 10 consecutive messages, all channels): 18 messages of 14 bytes arrive at once, then a
   control change before the next tick. It is never received, although every message is far shorter than the buffer. *)
Definition answer : wmsg := WSysEx [0; 0x20; 0x33] [0; 0x7f; 1; 0; 4; 1; 0; 0; 5].
Definition burst : list event := repeat (Arrives answer) 18 ++ [Ticks; Arrives (WCC 0 7 64); Ticks].
Theorem C76_lost_refuted : exists vs m, Forall valid (arrived vs) /\ Forall (fun m => (length (wire m) <= 14)%nat) (arrived vs) /\ In m (arrived vs)
  /\ forall n, ~ In m (client_got 10 100 all_channels (vs ++ repeat Ticks n)).
Proof.
  exists burst, (WCC 0 7 64). split; [|split; [|split]].
  - change (arrived burst) with (repeat answer 18 ++ [WCC 0 7 64]). apply Forall_app. split.
    + apply Forall_forall. intros x Hx. apply repeat_spec in Hx. subst x. split; [right; do 2 eexists; reflexivity|].
      split; repeat constructor; cbn; lia.
    + repeat constructor; cbn; lia.
  - change (arrived burst) with (repeat answer 18 ++ [WCC 0 7 64]). apply Forall_app. split.
    + apply Forall_forall. intros x Hx. apply repeat_spec in Hx. subst x. cbn. lia.
    + repeat constructor; cbn; lia.
  - unfold burst, arrived. rewrite flat_map_app. apply in_or_app. right. cbn. auto.
  - intros n. unfold client_got. rewrite map_app, run_app.
    replace (run (emu_step 11 100 all_channels) emu_new (map op_of burst)) with (mkEmu [] [] (repeat (wire answer) 18), repeat answer 18) by (vm_compute; reflexivity).
    cbn [fst snd]. rewrite ticks_idle by lia. rewrite app_nil_r. intros H. apply repeat_spec in H. discriminate.
Qed.
Print Assumptions C76_lost_refuted.

(* Three messages while seven are still waiting: they fit, so they are received in order *)
Example C76_ex : fits 11 100 all_channels [] [] (repeat (Arrives answer) 15 ++ [Ticks; Arrives (WCC 0 7 64); Arrives (WPC 0 3); Ticks])
  /\ client_got 10 100 all_channels (repeat (Arrives answer) 15 ++ [Ticks; Arrives (WCC 0 7 64); Arrives (WPC 0 3); Ticks]) = repeat answer 15 ++ [WCC 0 7 64; WPC 0 3].
Proof. split; [cbn; repeat split; repeat constructor; cbn; lia|vm_compute; reflexivity]. Qed.

(* Eleven messages per tick *)
Example C76_ex_paced : client_got 10 100 [3] (groups [repeat answer 10 ++ [WCC 3 7 64]; [WPC 0 3; WPC 3 4]]) = repeat answer 10 ++ [WCC 3 7 64; WPC 3 4].
Proof. vm_compute. reflexivity. Qed.
