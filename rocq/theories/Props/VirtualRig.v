(* C80: the rig of the virtual Kemper of the web emulator. [device_after ops]: the device as documented (the specification of C42 - C45 and C61)
   after the same history; [heard k ms]: the value of the firmware's parameter k after reading ms. *)
From Coq Require Import String.
From Verif.Lib Require Import Base.
From Verif.Model Require Import Midi Mapping KemperMappings Rig VirtualParams.
From Verif.Spec Require Import Rig VirtualParams VirtualRig.
From Verif.Proofs Require Import VirtualParams VirtualRig VirtualTempo.
Local Open Scope list_scope.

(* Connected, the firmware always knows the rig id which the documented device would have now *)
Theorem C80_rig_known_partial : forall date ops1 ops2 x k, In x all_sets -> k_response (kemper k) = TMany [Some (CC 32 0); Some (PC 0)] ->
  Forall proper (ops1 ++ ops2) -> Forall no_rename (ops1 ++ ops2) -> Forall (stays x) ops2 -> orderly None (ops1 ++ ops2) = true ->
  heard k (snd (run vd_step (vd_after date ops1) (VBeacon x true :: ops2))) = Some (VNum (d_id (device_after (ops1 ++ ops2)))).
Proof. exact rig_known. Qed.
Print Assumptions C80_rig_known_partial.

(* The rig name asked for is the name of that rig *)
Theorem C80_name_known_partial : forall date ops now, Forall proper ops -> Forall no_rename ops -> orderly None ops = true ->
  heard RigName (answers date ops (ask_text 1) now) = Some (VStr (rig_name (d_id (device_after ops)))).
Proof. exact name_known. Qed.
Print Assumptions C80_name_known_partial.
(* The names tell the rigs apart, 25 of them in a row: five colours by bank, five sounds by rig *)
Theorem C80_names : forall a b, rig_name a = rig_name b <-> a mod 25 = b mod 25.
Proof. intros a b. split; [apply name_distinct|]. intros E. rewrite (name_period a), (name_period b), E. reflexivity. Qed.
Print Assumptions C80_names.


(* The firmware's rig and bank switches, used one at a time, and the virtual device in a closed loop: the rig id of the firmware and the name told
   by the virtual device are those of the documented device after all messages sent *)
Theorem C80_loop_partial : forall cfg fuel date id0 x ops c now, In x all_sets -> (forall k, good_cb (cfg k)) -> singly None ops = true ->
  closed_run cfg fuel (closed_start cfg date id0 x) ops = Some c ->
  let d := device_of id0 (c_sent c) in
  w_id (c_world c) = Some (d_id d) /\ heard RigName (snd (vd_step (c_dev c) (VRecv (ask_text 1) now))) = Some (VStr (rig_name (d_id d))).
Proof. exact closed_agree. Qed.
Print Assumptions C80_loop_partial.

(* A press of a rig up / down or rig select switch then brings the whole loop to the intended rig *)
Theorem C80_press_partial : forall cfg fuel date id0 x ops c c' k now, In x all_sets -> (forall k, good_cb (cfg k)) -> singly None ops = true ->
  fold_left holding ops None = None -> closed_run cfg fuel (closed_start cfg date id0 x) ops = Some c -> closed_step cfg fuel c (Press k) = Some c' ->
  let d := device_of id0 (c_sent c) in valid_id (d_id d) -> s_pre (w_sh (c_world c)) = d_pending d ->
  (forall id', match cfg k with
               | RigChange up keep => d_pending d = None /\ id' = neighbour up keep (d_id d)
               | RigSelect s => id' = target s (k_rig_off (w_st (c_world c) k)) (k_bank_off (w_st (c_world c) k)) (d_pending d) (d_id d)
               | _ => False
               end ->
     w_id (c_world c') = Some id' /\ heard RigName (snd (vd_step (c_dev c') (VRecv (ask_text 1) now))) = Some (VStr (rig_name id'))).
Proof. exact closed_press. Qed.
Print Assumptions C80_press_partial.

(* Not for two switches at a time: a bank preselected while a rig switch is held is forgotten at its release, the next rig is taken from the old bank.
   Two switches of the firmware send these messages. *)
Definition two_switches (k : nat) : cb :=
  match k with O => RigSelect (mkRsCfg (Some 1) ONone None ONone [] false false) | S O => RigSelect (mkRsCfg (Some 2) ONone None ONone [] false false) | _ => BankSelect (mkBsCfg 8 None true) end.
Theorem C80_held_refuted : exists ops w ev, whistory two_switches 0 (Report (Some 0) :: ops) w ev /\ singly None ops = false /\
  map snd ev = [CC 50 1; CC 47 7; CC 50 0; CC 51 1] /\ d_id (react_all (mkDevice 0 None) (map snd ev)) = 36 /\
  heard RigId (snd (run vd_step (vd_after [] []) (VBeacon 2 true :: delivered (map snd ev)))) = Some (VNum 1).
Proof.
  exists [Press 0; Press 2; Let_go 0; Press 1]. eexists _, _. split; [vm_compute; reflexivity|]. split; [reflexivity|]. split; [reflexivity|]. split; vm_compute; reflexivity.
Qed.
Print Assumptions C80_held_refuted.

(* Nor after a program change from the firmware: the virtual device takes it over (a request for the name would tell), but reports only
   one half of the pair, so the rig id of the firmware stays what it was; and the name stays the old one, too *)
Theorem C80_program_refuted : exists ms, get_rig_id (vd_after [] (delivered ms)) = 7 /\
  heard RigId (snd (run vd_step (vd_after [] []) (VBeacon 2 true :: delivered ms))) = Some (VNum 0) /\
  heard RigName (answers [] (delivered ms) (ask_text 1) []) = Some (VStr (rig_name 0)) /\ rig_name 0 <> rig_name 7.
Proof. exists [PC 7]. split; [vm_compute; reflexivity|]. split; [vm_compute; reflexivity|]. split; [vm_compute; reflexivity|]. vm_compute. discriminate. Qed.
Print Assumptions C80_program_refuted.

(* Witnesses: rig switch 3, bank 7 preselected and rig 2 of it, the bank switches, a rig chosen on the device *)
Definition ex_before : list vop := delivered [CC 52 1; CC 52 0; CC 47 7; CC 51 1; CC 51 0; CC 48 0].
Definition ex_later : list vop := delivered [CC 49 0; CC 49 0; CC 47 124; CC 54 1] ++ [VUi (KNrpn [58; 0]) (JNum 45) []; VBeacon 2 false] ++ delivered [CC 54 0; CC 48 0].
Example ex_orderly : orderly None (ex_before ++ ex_later) = true /\ Forall (stays 2) ex_later /\ Forall proper (ex_before ++ ex_later) /\ Forall no_rename (ex_before ++ ex_later).
Proof. split; [reflexivity|]. split; [repeat constructor|]. split; repeat constructor; cbn; unfold data_byte; try lia; try discriminate. Qed.
Example ex_rig : d_id (device_after ex_before) = 41 /\ d_id (device_after (ex_before ++ ex_later)) = 4 /\ d_id (device_after (ex_before ++ ex_later ++ [VUiRig 333 []])) = 333.
Proof. repeat split. Qed.
Example ex_known : heard RigId (snd (run vd_step (vd_after [] ex_before) (VBeacon 2 true :: ex_later))) = Some (VNum 4) /\ k_response (kemper RigId) = TMany [Some (CC 32 0); Some (PC 0)].
Proof. split; vm_compute; reflexivity. Qed.
(* a loop with a rig select switch, a rig up switch and a bank up switch with preselection *)
Definition loop_cfg (k : nat) : cb :=
  match k with O => RigSelect (mkRsCfg (Some 3) ONone None ONone [] false false) | S O => RigChange true false | _ => BankChange (mkBcCfg true None true) end.
Definition loop_ops : list wop := [Draw 0; Press 1; Let_go 1; Draw 0; Press 2; Let_go 2; Press 0; Draw 1; Let_go 0; Press 1; Let_go 1].
Example ex_loop : (forall k, good_cb (loop_cfg k)) /\ singly None loop_ops = true /\ fold_left holding loop_ops None = None /\
  exists c, closed_run loop_cfg 200 (closed_start loop_cfg [] 624 2) loop_ops = Some c /\ c_sent c = [CC 47 0; CC 50 1; CC 50 0; CC 47 1; CC 52 1; CC 52 0; CC 53 1; CC 53 0] /\
    device_of 624 (c_sent c) = mkDevice 8 None /\ w_id (c_world c) = Some 8 /\ s_pre (w_sh (c_world c)) = None.
Proof.
  split; [intros [|[|k]]; cbn; unfold good_rs; cbn; lia|]. split; [reflexivity|]. split; [reflexivity|].
  destruct (closed_run loop_cfg 200 (closed_start loop_cfg [] 624 2) loop_ops) as [c|] eqn:E; [|vm_compute in E; discriminate].
  exists c. split; [reflexivity|]. assert (c_sent c = [CC 47 0; CC 50 1; CC 50 0; CC 47 1; CC 52 1; CC 52 0; CC 53 1; CC 53 0] /\ w_id (c_world c) = Some 8 /\ s_pre (w_sh (c_world c)) = None) as (H1 & H2 & H3).
  { assert (option_map (fun c => (c_sent c, w_id (c_world c), s_pre (w_sh (c_world c)))) (Some c) = Some ([CC 47 0; CC 50 1; CC 50 0; CC 47 1; CC 52 1; CC 52 0; CC 53 1; CC 53 0], Some 8, None)) as H by (rewrite <- E; vm_compute; reflexivity).
    cbn in H. injection H as H1 H2 H3. auto. }
  rewrite H1. split; [reflexivity|]. split; [reflexivity|]. split; assumption.
Qed.
