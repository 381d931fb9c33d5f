(* C80: the rig of the virtual Kemper, compared with the device as documented (Spec/Rig.v). *)
From Verif.Lib Require Import Base.
From Verif.Model Require Import Midi Mapping KemperMappings Rig VirtualParams.
From Verif.Spec Require Import Rig VirtualParams.

(* The documented device, with the bank switches (CC 48 and 49, at their release) and rigs chosen on the device itself *)
Definition device_step (d : device) (o : vop) : device :=
  match o with
  | VRecv (CC 48 0) _ => mkDevice ((d_id d + 5) mod 625) (d_pending d)
  | VRecv (CC 49 0) _ => mkDevice ((d_id d - 5) mod 625) (d_pending d)
  | VRecv m _ => react d m
  | VUiRig id _ => mkDevice id (d_pending d)
  | _ => d
  end.
Definition device_after (ops : list vop) : device := fold_left device_step ops (mkDevice 0 None).

Definition rig_switch (c : Z) : bool := (50 <=? c) && (c <=? 54).
(* Controls which take part in rig selection *)
Definition rig_control (c : Z) : bool := (c =? 32) || ((47 <=? c) && (c <=? 54)).
(* Rig switches are pressed (value 1) and released (value 0) one after the other, no bank is preselected while one is held, and the rig is
   not changed behind the device's back (program changes, CC 32, direct writes). [held]: the switch held now *)
Fixpoint orderly (held : option Z) (ops : list vop) : bool :=
  match ops with
  | [] => true
  | VRecv (CC c v) _ :: r =>
      if rig_switch c then
        match held with
        | None => if v =? 1 then orderly (Some c) r else (v =? 0) && orderly None r
        | Some h => (c =? h) && (v =? 0) && orderly None r
        end
      else if c =? 47 then match held with None => orderly None r | Some _ => false end
      else negb (c =? 32) && orderly held r
  | VRecv (PC _) _ :: _ => false
  | VUi (KCc c _) _ _ :: r => negb (rig_control c) && orderly held r
  | VUi KPc _ _ :: _ => false
  | VSend (KNrpn _) :: r => orderly held r
  | VSend _ :: _ => false
  | _ :: r => orderly held r
  end.
(* Nobody renames the rig *)
Definition no_rename (o : vop) : Prop :=
  match o with
  | VRecv (SysEx _ data) _ => firstn 6 data <> [2; 127; 3; 0; 0; 1]
  | VUi (KNrpn d) _ _ => d <> [0; 1]
  | _ => True
  end.

(* ---- the firmware's rig and bank switches (Model/Rig.v) and the virtual device in a closed loop ---- *)
Definition delivered (ms : list msg) : list vop := map (fun m => VRecv m []) ms.
(* The documented device after the messages of the firmware, starting with rig id0 *)
Definition device_of (id0 : Z) (ms : list msg) : device := fold_left device_step (delivered ms) (mkDevice id0 None).
(* The switches, the virtual device, the firmware's mapping of the rig id, and all messages sent so far *)
Record closed := mkClosed { c_world : world; c_dev : vdev; c_map : mapping; c_sent : list msg }.
Definition reported (m : mapping) : option Z := match val m with Some (VNum n) => Some n | _ => None end.
(* The virtual device gets messages of the firmware; the firmware reads what it sends and passes the rig id on to the switches *)
Definition exchange (c : closed) (w : world) (ms : list msg) : closed :=
  let r := run vd_step (c_dev c) (delivered ms) in
  let m := hear (c_map c) (snd r) in
  mkClosed (mkWorld (reported m) (w_sh w) (w_st w)) (fst r) m (c_sent c ++ ms).
Definition closed_step (cfg : nat -> cb) (fuel : nat) (c : closed) (o : wop) : option closed :=
  match wstep cfg fuel (c_world c) o with None => None | Some (w, ev) => Some (exchange c w (map snd ev)) end.
Fixpoint closed_run (cfg : nat -> cb) (fuel : nat) (c : closed) (ops : list wop) : option closed :=
  match ops with [] => Some c | o :: r => match closed_step cfg fuel c o with None => None | Some c' => closed_run cfg fuel c' r end end.
(* Rig id0 is chosen on the device, then it is connected with parameter set x *)
Definition closed_start (cfg : nat -> cb) (date : list Z) (id0 x : Z) : closed :=
  let r := vd_step (vd_after date [VUiRig id0 date]) (VBeacon x true) in
  let m := hear (mapping_of RigId) (snd r) in
  mkClosed (mkWorld (reported m) (w_sh (new_world cfg)) (w_st (new_world cfg))) (fst r) m [].
(* One switch is used at a time *)
Definition allowed (held : option nat) (o : wop) : bool :=
  match o, held with Press _, None => true | Let_go k, Some k' => (k =? k')%nat | Draw _, _ => true | _, _ => false end.
Definition holding (held : option nat) (o : wop) : option nat := match o with Press k => Some k | Let_go _ => None | _ => held end.
Fixpoint singly (held : option nat) (ops : list wop) : bool := match ops with [] => true | o :: r => allowed held o && singly (holding held o) r end.
