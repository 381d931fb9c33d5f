(* C49, C50, C51: MIDI encoding, decoding, fragmentation. *)
From Verif.Lib Require Import Base.
From Verif.Model Require Import Midi Codec.
From Verif.Spec Require Import Codec.
From Verif.Proofs Require Import Codec.

(* C49. Each group of messages is sent, then read by one call of receive(); after at least as many further calls as there are messages,
   exactly these messages have been received, in order, with the channel they were sent on. *)
Theorem C49_sent_is_received groups oc bytes n : a_channel oc -> Forall valid (concat groups) ->
  Forall2 (fun g b => Forall2 (fun m w => device_send oc m = Ok w) g b) groups bytes ->
  (length (concat groups) <= n)%nat ->
  received all_channels (map (@concat Z) bytes ++ repeat [] n) = map (on_channel oc) (concat groups).
Proof. exact (send_receive groups oc bytes n). Qed.
Print Assumptions C49_sent_is_received.

Theorem C49_sending_writes_the_wire_format oc m : a_channel oc -> valid m ->
  device_send oc m = Ok (wire (on_channel oc m)) /\ valid (on_channel oc m).
Proof. exact (device_send_wire oc m). Qed.
Print Assumptions C49_sending_writes_the_wire_format.

(* A receiver listening to some channels only gets exactly the messages on these channels (and all system exclusive ones). *)
Theorem C49_channel_filter chans groups n : Forall valid (concat groups) -> (length (concat groups) <= n)%nat ->
  received chans (map wires groups ++ repeat [] n) = filter (accepted chans) (concat groups).
Proof. exact (received_groups chans groups n). Qed.
Print Assumptions C49_channel_filter.

Definition ex_group : list wmsg := [WCC 3 7 100; WSysEx [0; 0x20; 0x33] [2; 0x7f; 1]; WPC 15 127; WSysEx [0x41] []].
Example ex_group_valid : Forall valid (concat [ex_group; [WCC 0 0 0]]).
Proof.
  unfold ex_group. cbn [concat app]. unfold a_channel, seven_bit.
  constructor; [cbn; unfold a_channel, seven_bit; lia|]. constructor; [|constructor; [cbn; unfold a_channel, seven_bit; lia|constructor; [|constructor; [cbn; unfold a_channel, seven_bit; lia|constructor]]]].
  - split; [right; exists 0x20, 0x33; reflexivity|]. split; repeat constructor; unfold seven_bit; lia.
  - split; [left; exists 0x41; split; [reflexivity|lia]|]. split; repeat constructor; unfold seven_bit; lia.
Qed.
Example C49_ex : received all_channels ([wires ex_group; wires [WCC 0 0 0]] ++ repeat [] 5) = ex_group ++ [WCC 0 0 0].
Proof. reflexivity. Qed.
Example C49_ex_filter : received [15] (map wires [ex_group; [WCC 0 0 0]] ++ repeat [] 5)
  = [WSysEx [0; 0x20; 0x33] [2; 0x7f; 1]; WPC 15 127; WSysEx [0x41] []].
Proof. reflexivity. Qed.

(* C50. A returned message stands in the stream as it is returned, only bytes up to its end are removed, and it is on a channel
   listened to. *)
Theorem C50_messages_are_in_the_stream chans buf chunk buf' m : Forall (fun b => 0 <= b) (buf ++ chunk) ->
  receive chans buf chunk = (buf', Some m) ->
  exists before w, buf ++ chunk = before ++ w ++ buf' /\ appears_as w m /\ w <> [] /\ accepted chans m = true.
Proof. exact (receive_message chans buf chunk buf' m). Qed.
Print Assumptions C50_messages_are_in_the_stream.

(* If nothing is returned, what is kept is nothing, or data bytes and the beginning of a message, or what follows a system exclusive
   message cut off by a status byte (which has been thrown away together with that status byte). *)
Theorem C50_nothing_returned chans buf chunk buf' : receive chans buf chunk = (buf', None) ->
  exists before, buf ++ chunk = before ++ buf' /\
  (buf' = [] \/ (exists junk t, buf' = junk ++ t /\ Forall data junk /\ incomplete_tail t)
   \/ (exists a body x, before = a ++ [0xF0] ++ body ++ [x] /\ Forall data body /\ (128 <= x /\ x <> 0xF7))).
Proof. exact (receive_nothing chans buf chunk buf'). Qed.
Print Assumptions C50_nothing_returned.

(* The buffer never grows beyond its size. *)
Theorem C50_buffer_bound size chans chunks : reads_ok size chans [] chunks ->
  (length (fst (receive_all chans [] chunks)) <= size)%nat.
Proof. intros R. exact (buffer_bound size chans chunks [] R (Nat.le_0_l size)). Qed.
Print Assumptions C50_buffer_bound.

(* Not true: that the receiver always goes on. For every buffer size, after reading data bytes without a status byte followed by the
   first byte of a message at the very end of the buffer, it never reads or returns anything again. *)
Theorem C50_always_progress_refuted size chans : (0 < size)%nat ->
  exists chunk, read_ok size [] chunk /\ Forall (fun b => 0 <= b <= 255) chunk /\
  forall later, reads_ok size chans [] (chunk :: later) ->
    received chans (chunk :: later) = [] /\ Forall (fun c => c = []) later.
Proof.
  intros S. exists (repeat 0 (size - 1) ++ [0xB0]).
  assert (L : length (repeat 0 (size - 1) ++ [0xB0]) = size) by (rewrite app_length, repeat_length; cbn; lia).
  assert (F : Forall data (repeat 0 (size - 1))) by (apply Forall_forall; intros x H; apply repeat_spec in H; unfold data; lia).
  split; [unfold read_ok; cbn [length]; lia|]. split.
  - apply Forall_app. split; [apply Forall_forall; intros x H; apply repeat_spec in H; lia|]. constructor; [lia|constructor].
  - intros later [_ R]. assert (E : receive chans [] (repeat 0 (size - 1) ++ [0xB0]) = (repeat 0 (size - 1) ++ [0xB0], None)).
    { unfold receive, decode. cbn [app]. rewrite loop_stuck by (assumption || lia). reflexivity. }
    rewrite E in R. cbn [fst] in R. destruct (stuck size chans _ 0xB0 later F ltac:(lia) L R) as [S1 S2]. split; [|assumption].
    unfold received. cbn [receive_all]. rewrite E, S2. cbn [snd messages]. clear. induction later; [reflexivity|assumption].
Qed.
Print Assumptions C50_always_progress_refuted.

(* Not true: that all returned messages have 7-bit fields. *)
Theorem C50_seven_bit_fields_refuted : exists chans chunk man ds,
  received chans [chunk] = [WSysEx man ds] /\ ~ Forall seven_bit man.
Proof.
  exists [], [0xF0; 0xF7], [0xF7], []. split; [reflexivity|]. intros F. inversion F as [|? ? B]; subst. unfold seven_bit in B. lia.
Qed.
Print Assumptions C50_seven_bit_fields_refuted.

Example C50_ex : receive all_channels [1; 2; 0xB0; 7] [5; 0xC1] = ([0xC1], Some (WCC 0 7 5)).
Proof. reflexivity. Qed.
(* a real-time byte in the middle of a control change destroys it *)
Example C50_ex_bad : receive all_channels [] [0xB0; 0xF8; 7; 5] = ([5], Some (WBad [0xB0; 0xF8; 7])).
Proof. reflexivity. Qed.

(* C51. Any stream of valid messages, cut in any way at positions outside system exclusive messages. *)
Theorem C51_fragments_reassembled_partial chans ms chunks n : Forall valid ms -> concat chunks = wires ms ->
  (forall pre post, chunks = pre ++ post -> outside_sysex ms (length (concat pre))) ->
  (length ms <= n)%nat ->
  received chans (chunks ++ repeat [] n) = filter (accepted chans) ms.
Proof. exact (received_all chans ms chunks n). Qed.
Print Assumptions C51_fragments_reassembled_partial.

(* At any moment what has been received is a beginning of what was sent. *)
Theorem C51_fragments_in_order_partial chans ms chunks : Forall valid ms -> (exists later, concat chunks ++ later = wires ms) ->
  (forall pre post, chunks = pre ++ post -> outside_sysex ms (length (concat pre))) ->
  exists rest, filter (accepted chans) ms = received chans chunks ++ rest.
Proof. exact (received_prefix chans ms chunks). Qed.
Print Assumptions C51_fragments_in_order_partial.

(* In particular control and program change messages may be cut anywhere. *)
Theorem C51_channel_messages chans ms chunks n : Forall valid ms -> existsb is_sysex_msg ms = false -> concat chunks = wires ms ->
  (length ms <= n)%nat ->
  received chans (chunks ++ repeat [] n) = filter (accepted chans) ms.
Proof.
  intros F N E L. apply received_all; try assumption. intros pre post _. apply outside_none. assumption.
Qed.
Print Assumptions C51_channel_messages.

(* Not true for system exclusive messages: every such message, cut anywhere into two reads, is lost; the application gets an unknown
   event for its last byte instead. *)
Theorem C51_sysex_fragments_refuted chans man ds k : valid (WSysEx man ds) -> (0 < k < length (wire (WSysEx man ds)))%nat ->
  received chans [firstn k (wire (WSysEx man ds)); skipn k (wire (WSysEx man ds))] = [WUnknown 0xF7].
Proof. exact (sysex_cut chans man ds k). Qed.
Print Assumptions C51_sysex_fragments_refuted.

(* No message longer than the buffer is ever received. *)
Theorem C51_messages_fit_the_buffer size chans chunks m : Forall (fun b => 0 <= b) (concat chunks) -> reads_ok size chans [] chunks ->
  In m (received chans chunks) -> valid m -> (length (wire m) <= size)%nat.
Proof. intros N R. exact (received_fits size chans chunks m [] N R (Nat.le_0_l size)). Qed.
Print Assumptions C51_messages_fit_the_buffer.

(* Seen from the port: bytes arrive in any portions, none of them ending inside a system exclusive message, and are read as the buffer
   has room. If every message fits into the buffer, each is received, whatever the buffer size. *)
Theorem C51_port_partial size ms arrivals n : Forall valid ms -> Forall (fun m => (length (wire m) <= size)%nat) ms -> (2 <= size)%nat ->
  concat arrivals = wires ms ->
  (forall pre post, arrivals = pre ++ post -> outside_sysex ms (length (concat pre))) ->
  (length ms <= n)%nat ->
  messages (port_all size all_channels [] [] (arrivals ++ repeat [] n)) = ms.
Proof. exact (port_complete size ms arrivals n). Qed.
Print Assumptions C51_port_partial.

(* 50 bytes of buffer, two messages of 33 bytes arriving at once *)
Definition ex_long : wmsg := WSysEx [0x41] (repeat 5 30).
Example C51_ex_port : messages (port_all 50 all_channels [] [] ([wires [ex_long; ex_long]] ++ repeat [] 2)) = [ex_long; ex_long].
Proof. reflexivity. Qed.
(* With a channel filter this fails: the messages filtered out are skipped in the same call, and the cut message behind them is lost. *)
Example C51_finding_filter :
  let stream := wires [WCC 1 7 7; ex_long] in
  accepted [0] ex_long = true /\ (length (wire ex_long) <= 34)%nat /\
  messages (port_all 34 [0] [] [] [stream; []; []; []]) = [WUnknown 0xF7].
Proof. repeat split. vm_compute. lia. Qed.

Example C51_ex : received all_channels ([[0xB0]; [7]; [100; 0xC1]; []; [5]] ++ repeat [] 2) = [WCC 0 7 100; WPC 1 5].
Proof. reflexivity. Qed.
Definition ex_mixed : list wmsg := [WCC 3 7 100; WSysEx [0x41] [1]; WPC 15 127].
Example C51_ex_outside : outside_sysex ex_mixed 2 /\ outside_sysex ex_mixed 8 /\ ~ outside_sysex ex_mixed 5.
Proof.
  split; [|split].
  1-2: intros ms1 man ds ms2 E; destruct ms1 as [|a [|b [|c ms1]]]; cbn in E; try discriminate; injection E as; subst; cbn; try lia;
       try (destruct ms1; discriminate).
  intros O. specialize (O [WCC 3 7 100] [0x41] [1] [WPC 15 127] eq_refl). cbn in O. lia.
Qed.
Example C51_ex_mixed : received all_channels ([firstn 2 (wires ex_mixed); firstn 6 (skipn 2 (wires ex_mixed)); skipn 8 (wires ex_mixed)] ++ repeat [] 3) = ex_mixed.
Proof. reflexivity. Qed.
