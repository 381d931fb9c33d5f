(* C81 - C83: the wire format of the MIDI bridge, its checksum, and transfers between two bridges over an unreliable connection. *)
From Verif.Lib Require Import Base.
From Verif.Model Require Import Midi Bridge.
From Verif.Spec Require Import Bridge.
From Verif.Proofs Require Import BridgeCodec BridgeNet.
Local Open Scope list_scope.

(* ---- C81 ---- *)

(* Bytes are packed into MIDI data bytes without loss, and without waste *)
Theorem C81_packed : forall d, eight d -> seven (pack d) /\ unpack (pack d) = d /\ Z.of_nat (length (pack d)) = (8 * Z.of_nat (length d) + 6) / 7.
Proof. intros d H. split; [apply pack_seven|]. split; [apply unpack_pack, H|apply pack_length]. Qed.
Print Assumptions C81_packed.

(* Numbers below 2^24 take four data bytes and come back *)
Theorem C81_numbers : forall x, 0 <= x < 16777216 -> seven (number2bytes x 3) /\ length (number2bytes x 3) = 4%nat /\ bytes2number (number2bytes x 3) = x.
Proof. intros x H. split; [apply number2bytes_seven|]. split; [apply number3_length|apply number_small, H]. Qed.
Print Assumptions C81_numbers.

(* Texts come back if they are well-formed and do not begin with a byte order mark *)
Theorem C81_texts_partial : forall s, clean s -> seven (string2bytes s) /\ bytes2string (string2bytes s) = s.
Proof. intros s H. split; [apply pack_seven|apply normal_clean, H]. Qed.
Print Assumptions C81_texts_partial.

(* Whatever happens, only MIDI data bytes are sent as long as only such arrive *)
Theorem C81_data_bytes : forall files throws seed ops s m, Forall data_bytes ops -> In (s, Sysex m) (n_log (nrun files throws seed ops)) -> seven m.
Proof. intros files throws seed ops s m H Hi. destruct (sent_seven files throws seed ops H) as [_ L]. rewrite Forall_forall in L. apply (L _ Hi). Qed.
Print Assumptions C81_data_bytes.

(* A byte order mark at the beginning is lost, a lone surrogate is replaced *)
Theorem C81_texts_refuted : (exists s, units s /\ well_formed s /\ bytes2string (string2bytes s) <> s) /\ (exists s, units s /\ no_mark s /\ bytes2string (string2bytes s) <> s).
Proof.
  split.
  - exists [65279; 65]. split; [repeat constructor; lia|]. split; [repeat constructor; right; lia|]. vm_compute. discriminate.
  - exists [55357]. split; [repeat constructor; lia|]. split; [discriminate|]. vm_compute. discriminate.
Qed.
Print Assumptions C81_texts_refuted.

(* "Hé😀" *)
Definition hello : list Z := [72; 233; 55357; 56832].
Example ex_hello : clean hello /\ string2bytes hello = [36; 48; 117; 31; 4; 126; 49; 0] /\ bytes2string (string2bytes hello) = hello.
Proof.
  split; [|split; vm_compute; reflexivity]. split; [repeat constructor; lia|]. split; [|discriminate]. constructor; [lia|]. constructor; [lia|]. constructor; [lia|lia|]. constructor.
Qed.
Example ex_number : number2bytes 1000000 3 = [7; 80; 72; 0] /\ pack [255; 0; 129] = [127; 64; 16; 16].
Proof. vm_compute. auto. Qed.

(* ---- C82 ---- *)

(* A message which has been sent by a bridge and is changed in one byte of the payload, in two neighbours, or in the checksum only, is rejected by
   every bridge in every state. The bridge itself is unchanged, or (without exceptions) only the error text is sent *)
Theorem C82_detected : forall files throws seed ops s m m' fs now b, In (s, Sysex m) (n_log (nrun files throws seed ops)) -> damaged m m' ->
  receive fs true now MANUFACTURER m' b = (b, [], Some BadChecksum) /\ receive fs false now MANUFACTURER m' b = send_string now [] (err_text BadChecksum) 100 1 b.
Proof. intros files throws seed ops s m m' fs now b Hi D. apply all_framed in Hi. destruct Hi as [c [p ->]]. apply (damaged_rejected c p), D. Qed.
Print Assumptions C82_detected.

(* What arrives as it was sent is never rejected for its checksum *)
Theorem C82_intact : forall files throws seed ops s m fs now b, In (s, Sysex m) (n_log (nrun files throws seed ops)) ->
  snd (receive fs true now MANUFACTURER m b) <> Some BadChecksum.
Proof. intros files throws seed ops s m fs now b Hi. apply all_framed in Hi. destruct Hi as [c [p ->]]. apply intact. Qed.
Print Assumptions C82_intact.

Definition no_files : side -> Z -> list Z -> option (list Z) := fun _ _ _ => None.
Definition quiet : side -> Z -> bool := fun _ _ => true.
Definition seeds : side -> Z := fun s => match s with Here => 500 | There => 16777215 end.
(* "a.py" and "Hello" *)
Definition a_py : list Z := [97; 46; 112; 121].
Definition word : list Z := [72; 101; 108; 108; 111].

(* Three neighbours can change without being noticed: a wrong text is accepted *)
Theorem C82_three_refuted : exists m m' h t x y z x' y' z', In (Here, Sysex m) (n_log (nrun no_files quiet seeds [NSend Here 0 a_py word 10])) /\
  m = h ++ [x; y; z] ++ t /\ m' = h ++ [x'; y'; z'] ++ t /\ seven m' /\ m' <> m /\
  exists data, In (RecvFinish (number2bytes 500 3) a_py data 1) (snd (fst (receive (fun _ => None) true 0 MANUFACTURER m'
    (n_br (nrun no_files quiet seeds [NSend Here 0 a_py word 10; NDeliver There 0 0]) There)))) /\ data <> word.
Proof.
  set (m := nth 1 (wire Here (n_log (nrun no_files quiet seeds [NSend Here 0 a_py word 10]))) []).
  exists m, (firstn 12 m ++ [Z.lxor (nth 12 m 0) 2; Z.lxor (nth 13 m 0) 124; Z.lxor (nth 14 m 0) 33] ++ skipn 15 m), (firstn 12 m), (skipn 15 m), (nth 12 m 0), (nth 13 m 0), (nth 14 m 0),
    (Z.lxor (nth 12 m 0) 2), (Z.lxor (nth 13 m 0) 124), (Z.lxor (nth 14 m 0) 33).
  split; [vm_compute; tauto|]. split; [vm_compute; reflexivity|]. split; [reflexivity|]. split; [repeat constructor; vm_compute; try reflexivity; try discriminate|]. split; [vm_compute; discriminate|].
  eexists. split; [vm_compute; right; right; left; reflexivity|]. discriminate.
Qed.
Print Assumptions C82_three_refuted.

(* The command is not covered: a changed command byte turns data into the start of another transmission, without an error *)
Theorem C82_command_refuted : exists c c' m, In (Here, Sysex (c :: m)) (n_log (nrun no_files quiet seeds [NSend Here 0 a_py word 10])) /\ c' <> c /\ 0 <= c' < 128 /\
  exists i path amount, snd (fst (receive (fun _ => None) true 0 MANUFACTURER (c' :: m) (bridge_new 0))) = [RecvStart i path amount] /\
    snd (receive (fun _ => None) true 0 MANUFACTURER (c' :: m) (bridge_new 0)) = None /\ path <> a_py.
Proof.
  set (m := nth 1 (wire Here (n_log (nrun no_files quiet seeds [NSend Here 0 a_py word 10]))) []). exists 3, 2, (tl m).
  split; [vm_compute; tauto|]. split; [lia|]. split; [lia|]. eexists _, _, _. split; [vm_compute; reflexivity|]. split; [vm_compute; reflexivity|]. discriminate.
Qed.
Print Assumptions C82_command_refuted.

(* Damage to a message which has been sent *)
Example ex_damage : exists m m', In (Here, Sysex m) (n_log (nrun no_files quiet seeds [NSend Here 0 a_py word 10])) /\ damaged m m' /\ m' <> m.
Proof.
  set (m := nth 1 (wire Here (n_log (nrun no_files quiet seeds [NSend Here 0 a_py word 10]))) []). exists (firstn 12 m ++ [nth 12 m 0; nth 13 m 0] ++ skipn 14 m), (firstn 12 m ++ [5; 6] ++ skipn 14 m).
  split; [vm_compute; tauto|]. split; [|vm_compute; discriminate]. apply dmg_two; [vm_compute; lia| |]; [|left; vm_compute; discriminate].
  repeat constructor; vm_compute; try reflexivity; try discriminate.
Qed.

(* ---- C83 ---- *)

(* Two bridges, any operations, any loss, delay, doubling and reordering of messages, and noise which the checksum shows: what a side reports as
   received has been offered by the other side, under this path and with this content *)
Theorem C83_received_partial : forall files throws seed ops s i path data amount,
  (forall t, 0 <= seed t < 16777216) -> short_files files -> Forall noise ops -> Forall short_op ops ->
  (forall t, Z.of_nat (started t (n_log (nrun files throws seed ops))) <= 16777216) ->
  In (s, RecvFinish i path data amount) (n_log (nrun files throws seed ops)) ->
  exists path0 msg size, offered files ops (other s) path0 msg size /\ (plain path0 -> path = path0) /\ (plain msg -> data = msg).
Proof. intros files throws seed ops s i path data amount A B C D E. apply received_plain; assumption. Qed.
Print Assumptions C83_received_partial.

(* More precisely: it is enough that the path and each part of the content are well-formed and do not begin with a byte order mark *)
Theorem C83_clean_partial : forall files throws seed ops s i path data amount,
  (forall t, 0 <= seed t < 16777216) -> short_files files -> Forall noise ops -> Forall short_op ops ->
  (forall t, Z.of_nat (started t (n_log (nrun files throws seed ops))) <= 16777216) ->
  In (s, RecvFinish i path data amount) (n_log (nrun files throws seed ops)) ->
  exists path0 msg size, offered files ops (other s) path0 msg size /\ msg <> [] /\ (clean path0 -> path = path0) /\ ((forall k, clean (piece size msg k)) -> data = msg).
Proof. intros files throws seed ops s i path data amount A B C D E. apply received; assumption. Qed.
Print Assumptions C83_clean_partial.

(* When a side is told that a transmission has been acknowledged completely, the other side has reported the whole content (or the error text) before *)
Theorem C83_acknowledged : forall files throws seed ops s i,
  (forall t, 0 <= seed t < 16777216) -> short_files files -> Forall noise ops -> Forall short_op ops ->
  (forall t, Z.of_nat (started t (n_log (nrun files throws seed ops))) <= 16777216) ->
  In (s, AckAll i) (n_log (nrun files throws seed ops)) ->
  exists type path0 msg size,
    In (s, Sysex (framed 2 (i ++ [type] ++ number2bytes ((Z.of_nat (length msg) + size - 1) / size) 3 ++ string2bytes path0))) (n_log (nrun files throws seed ops)) /\
    (type = 0 /\ offered files ops s path0 msg size /\
       (exists path data amount, In (other s, RecvFinish i path data amount) (n_log (nrun files throws seed ops)) /\ (clean path0 -> path = path0) /\ ((forall k, clean (piece size msg k)) -> data = msg))
     \/ type = 1 /\ exists text, In (other s, RecvError text) (n_log (nrun files throws seed ops))).
Proof. intros files throws seed ops s i A B C D E. apply acked; assumption. Qed.
Print Assumptions C83_acknowledged.

(* A well-formed text which is cut within a surrogate pair arrives damaged, without any error *)
Theorem C83_cut_refuted : exists msg data ops i, clean msg /\ ops = NSend Here 0 a_py msg 2 :: tl ops /\ Forall (fun o => exists s k, o = NDeliver s 0 k) (tl ops) /\
  In (There, RecvFinish i a_py data 2) (n_log (nrun no_files quiet seeds ops)) /\ In (Here, AckAll i) (n_log (nrun no_files quiet seeds ops)) /\ data <> msg.
Proof.
  exists [65; 55357; 56832], [65; 65533; 65533], (NSend Here 0 a_py [65; 55357; 56832] 2 :: [NDeliver There 0 0; NDeliver There 0 1; NDeliver Here 0 0; NDeliver There 0 2; NDeliver Here 0 1]), (number2bytes 500 3).
  split; [split; [repeat constructor; lia|split; [|discriminate]]; constructor; [lia|]; constructor; [lia|lia|]; constructor|]. split; [reflexivity|]. split; [cbn [tl]; repeat constructor; eauto|].
  split; [vm_compute; tauto|]. split; [vm_compute; tauto|discriminate].
Qed.
Print Assumptions C83_cut_refuted.

(* The random number for the first id can be 2^24, then the second transmission gets the same id; with messages out of order the content of the
   first is reported under the path of the second *)
Theorem C83_seed_refuted : exists ops path1 msg1 path2 msg2 i a, ops = NSend Here 0 path1 msg1 10 :: NSend Here 0 path2 msg2 10 :: [NDeliver There 0 0; NDeliver There 0 2; NDeliver There 0 1] /\
  plain msg1 /\ plain msg2 /\ path1 <> path2 /\ msg1 <> msg2 /\
  In (There, RecvFinish i path2 msg1 a) (n_log (nrun no_files quiet (fun _ => 16777216) ops)).
Proof.
  exists (NSend Here 0 a_py word 10 :: NSend Here 0 [98; 46; 112; 121] [72; 105] 10 :: [NDeliver There 0 0; NDeliver There 0 2; NDeliver There 0 1]), a_py, word, [98; 46; 112; 121], [72; 105], (number2bytes 0 3), 1.
  split; [reflexivity|]. split; [repeat constructor; lia|]. split; [repeat constructor; lia|]. split; [discriminate|]. split; [discriminate|]. vm_compute. tauto.
Qed.
Print Assumptions C83_seed_refuted.

(* A transfer with loss, doubling and noise: "Hello" in parts of 2, requested by There; the hypotheses hold and the file arrives *)
Definition one_file : side -> Z -> list Z -> option (list Z) := fun s _ p => match s with Here => if bytes_eqb p a_py then Some word else None | There => None end.
Definition journey : list nop :=
  [NRequest There a_py 2; NDeliver Here 1 0; NNoise There 2 MANUFACTURER [3; 0; 0; 0; 1]; NDeliver There 2 0; NDeliver There 3 1; NDeliver Here 4 1; NDeliver There 5 1; NDeliver There 5 2;
   NDeliver Here 6 2; NDeliver There 7 3; NDeliver There 7 2; NDeliver Here 8 3].
Example ex_journey : let n := nrun one_file quiet seeds journey in
  short_files one_file /\ Forall noise journey /\ Forall short_op journey /\ (forall t, Z.of_nat (started t (n_log n)) <= 16777216) /\
  In (There, RecvFinish (number2bytes 500 3) a_py word 3) (n_log n) /\ In (Here, AckAll (number2bytes 500 3)) (n_log n) /\ plain a_py /\ plain word.
Proof.
  intros n. split; [|split; [|split; [|split; [|split; [|split; [|split]]]]]].
  - intros [|] now p msg; unfold one_file; [|discriminate]. destruct (bytes_eqb p a_py); intros E; inversion E. reflexivity.
  - unfold journey. repeat (apply Forall_cons; [first [exact I|right; vm_compute; discriminate]|]). apply Forall_nil.
  - repeat constructor.
  - intros [|]; vm_compute; discriminate.
  - vm_compute. tauto.
  - vm_compute. tauto.
  - repeat constructor; lia.
  - repeat constructor; lia.
Qed.
