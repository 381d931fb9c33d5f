(* C79: the virtual Kemper of the web emulator as seen by the firmware. [vd_after date ops]: the virtual device after a history of received
   messages, changes by its user interface and beacons; [answers date ops m now]: what it sends for message m then; [heard k ms]: the value of
   the firmware's parameter k after reading ms. *)
From Coq Require Import String.
From Verif.Lib Require Import Base.
From Verif.Model Require Import Midi Mapping KemperMappings VirtualParams.
From Verif.Spec Require Import VirtualParams.
From Verif.Proofs Require Import VirtualParams VirtualTempo.
Local Open Scope list_scope.

(* Requested: after any history there is exactly one answer to a request of the firmware, which the firmware reads as the value written last *)
Theorem C79_read_back_partial : forall date ops k p a now, Forall proper ops -> k_request (kemper k) = TOne (ask p a) -> ordinary p a ->
  length (answers date ops (ask p a) now) = 1%nat /\ heard k (answers date ops (ask p a) now) = Some (VNum (remembered p a ops)).
Proof. exact read_once. Qed.
Print Assumptions C79_read_back_partial.

(* A value which the firmware has set is what it reads afterwards *)
Theorem C79_set_read_partial : forall date ops k p a v m d now, Forall proper ops -> k_request (kemper k) = TOne (ask p a) -> ordinary p a ->
  0 <= v < 16384 -> told k v = Some m -> heard k (answers date (ops ++ [VRecv m d]) (ask p a) now) = Some (VNum v).
Proof. exact set_read. Qed.
Print Assumptions C79_set_read_partial.

(* Connected: from the first beacon on, the firmware knows the values of all parameters of the set without asking, at any time *)
Theorem C79_mirror : forall date ops1 ops2 k p a x, pushed k = Some (p, a) -> In x all_sets -> Forall proper (ops1 ++ ops2) -> Forall (stays x) ops2 ->
  heard k (snd (run vd_step (vd_after date ops1) (VBeacon x true :: ops2))) = Some (VNum (remembered p a (ops1 ++ VBeacon x true :: ops2))).
Proof. exact mirror. Qed.
Print Assumptions C79_mirror.

(* Not all parameters: the cabinet name and the rig comment are answered as numbers, whatever has happened, so the firmware never gets a text *)
Theorem C79_texts_refuted : forall date ops now k a, Forall proper ops -> In (k, a) [(CabName, 32); (RigComment, 4)] ->
  k_request (kemper k) = TOne (ask_text a) /\ length (answers date ops (ask_text a) now) = 1%nat /\ heard k (answers date ops (ask_text a) now) = None.
Proof. exact text_refuted. Qed.
Print Assumptions C79_texts_refuted.

(* The tempo is read back rounded to whole beats per minute (64 units each; the maximum is 16383), after any history *)
Theorem C79_tempo_partial : forall date ops v m d now, Forall proper ops -> 0 <= v < 16384 -> told TempoBpm v = Some m ->
  exists w, heard TempoBpm (answers date (ops ++ [VRecv m d]) (ask 4 0) now) = Some (VNum w) /\ Z.abs (w - v) <= 32 /\ (w mod 64 = 0 \/ w = 16383).
Proof. exact tempo_rounded. Qed.
Print Assumptions C79_tempo_partial.

(* Nor is it true of the tempo, which is rounded to whole bpm: 100.5 bpm are read back as 101 *)
Theorem C79_tempo_refuted : exists v m, told TempoBpm v = Some m /\ k_request (kemper TempoBpm) = TOne (ask 4 0) /\
  0 <= v < 16384 /\ heard TempoBpm (answers [] [VRecv m []] (ask 4 0) []) <> Some (VNum v).
Proof.
  exists 6432, (SysEx [0; 32; 51] [2; 127; 1; 0; 4; 0; 50; 32]). split; [vm_compute; reflexivity|]. split; [reflexivity|]. split; [lia|]. vm_compute. discriminate.
Qed.
Print Assumptions C79_tempo_refuted.

(* Witnesses: the DLY slot is switched off by a control change, the gain is set, the user interface changes the gain and the MOD type *)
Definition ex_ops : list vop := [VRecv (CC 27 0) []; VRecv (SysEx [0; 32; 51] [2; 127; 1; 0; 10; 4; 10; 5]) []; VRecv (ask 10 4) [];
  VUi (KNrpn [10; 4]) (JNum 700) []; VUi (KNrpn [58; 0]) (JNum 44) []].
Example ex_proper : Forall proper ex_ops.
Proof. repeat constructor; cbn; unfold data_byte; try lia; try discriminate. Qed.
Example ex_values : map (fun x => remembered (fst x) (snd x) ex_ops) [(60, 3); (10, 4); (58, 0); (61, 3)] = [0; 700; 44; 1].
Proof. reflexivity. Qed.
Example ex_asked : map (fun k => k_request (kemper k)) [EffectState SlotDLY; AmpGain; EffectType SlotMOD] = [TOne (ask 60 3); TOne (ask 10 4); TOne (ask 58 0)].
Proof. reflexivity. Qed.
Example ex_ordinary : ordinary 60 3 /\ ordinary 10 4 /\ ordinary 58 0.
Proof. unfold ordinary. cbn. intuition congruence. Qed.
Example ex_read : heard AmpGain (answers [] ex_ops (ask 10 4) []) = Some (VNum 700) /\ heard (EffectState SlotDLY) (answers [] ex_ops (ask 60 3) []) = Some (VNum 0).
Proof. split; vm_compute; reflexivity. Qed.
Example ex_told : told AmpGain 1285 = Some (SysEx [0; 32; 51] [2; 127; 1; 0; 10; 4; 10; 5]) /\ told (EffectState SlotDLY) 0 = Some (CC 27 0).
Proof. split; reflexivity. Qed.
(* connected, the firmware hears of the changes by the user interface and by the firmware itself; with its own keep-alive beacons in between *)
Definition ex_connected : list vop := [VUi (KNrpn [58; 0]) (JNum 45) []; VBeacon 2 false; VRecv (CC 24 0) []; VUi (KNrpn [127; 126]) (JNum 1) []; VSend (KNrpn [125; 84])].
Example ex_stays : Forall (stays 2) ex_connected /\ Forall proper (ex_ops ++ ex_connected) /\ pushed (EffectType SlotMOD) = Some (58, 0).
Proof. split; [repeat constructor|split; [repeat constructor; cbn; unfold data_byte; try lia; try discriminate|reflexivity]]. Qed.
Example ex_mirror : let ms := snd (run vd_step (vd_after [] ex_ops) (VBeacon 2 true :: ex_connected)) in
  (heard (EffectType SlotMOD) ms, heard (EffectState SlotMOD) ms, heard TunerMode ms, heard TunerDeviance ms) =
  (Some (VNum 45), Some (VNum 0), Some (VNum 1), Some (VNum 8191)).
Proof. vm_compute. reflexivity. Qed.
