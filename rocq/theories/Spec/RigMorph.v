(* C70: the morph state of the device and the remembered one. *)
From Verif.Lib Require Import Base.
From Verif.Model Require Import Midi Rig.
From Verif.Spec Require Import Rig.

(* The device with its rig buttons set to morph: current rig, waiting bank and morph state (0 to 16383). Selecting another rig
   resets the morph state. Selecting the current rig again morphs: as long as the button is held ([momentary]), or until the
   next time. *)
Definition mdevice := (device * Z)%type.
Definition is_rig_cc (c : Z) : bool := (50 <=? c) && (c <=? 54).
Definition mreact (momentary : bool) (s : mdevice) (m : msg) : mdevice :=
  let d' := react (fst s) m in
  (d', match m with
       | CC c 1 => if is_rig_cc c
                   then if d_id d' =? d_id (fst s) then (if momentary then 16383 else if 0 <? snd s then 0 else 16383) else 0
                   else snd s
       | CC c 0 => if is_rig_cc c && momentary then 0 else snd s
       | _ => snd s
       end).
Definition mreact_all (momentary : bool) (s : mdevice) (ms : list msg) : mdevice := fold_left (mreact momentary) ms s.

(* Switches that follow it: rig selection without off rigs, set up like the device, and rig up / down *)
Definition follows (momentary : bool) (b : cb) : Prop :=
  match b with
  | RigSelect c => good_rs c /\ rs_rig c <> None /\ rs_rig_off c = ONone /\ rs_bank_off c = ONone /\ rs_btn_morph c = true /\ rs_momentary c = momentary
  | RigChange _ _ => True
  | _ => False
  end.

(* Switches and device together, from a rig that is not morphed. Reports tell the current rig; a switch is pressed when the current rig
   has been reported and no other one is held ([held]); only the held one can be let go. *)
Inductive together (cfg : nat -> cb) (momentary : bool) (id0 : Z) : world -> mdevice -> option nat -> Prop :=
| tg_start : together cfg momentary id0 (new_world cfg) (mkDevice id0 None, 0) None
| tg_report w d h : together cfg momentary id0 w d h ->
    together cfg momentary id0 (mkWorld (Some (d_id (fst d))) (w_sh w) (w_st w)) d h
| tg_draw w d h fuel k w' ev : together cfg momentary id0 w d h -> wstep cfg fuel w (Draw k) = Some (w', ev) ->
    together cfg momentary id0 w' d h
| tg_press w d fuel k w' ev : together cfg momentary id0 w d None -> w_id w = Some (d_id (fst d)) -> wstep cfg fuel w (Press k) = Some (w', ev) ->
    together cfg momentary id0 w' (mreact_all momentary d (map snd ev)) (Some k)
| tg_release w d fuel k w' ev : together cfg momentary id0 w d (Some k) -> wstep cfg fuel w (Let_go k) = Some (w', ev) ->
    together cfg momentary id0 w' (mreact_all momentary d (map snd ev)) None.

(* The morph state the displays use (morph.py: missing counts as not morphed) *)
Definition shown_morph (w : world) : Z := match s_morph (w_sh w) with Some m => m | None => 0 end.
