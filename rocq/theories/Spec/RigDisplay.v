(* C74: labels and LEDs of the rig and bank switches. *)
From Verif.Lib Require Import Base.
From Verif.Model Require Import Midi Rig RigDisplay.
From Verif.Spec Require Import Rig.

Definition plain_text (l : looks) : Prop := lk_text l = None /\ lk_tcb l = None.
Definition plain_color (l : looks) : Prop := lk_color l = None /\ lk_ccb l = None.
(* The text names rig n (bank n/5, rig n mod 5), in the form configured *)
Definition names_rig (l : looks) (t : ltext) (n : Z) : Prop :=
  (plain_text l -> t = LRig (n / 5 + 1) (n mod 5 + 1)) /\ (forall f, lk_tcb l = Some f -> t = LCustom (f (n / 5) (n mod 5))).
(* The default colours are those of the bank *)
Definition bank_colored (l : looks) (d : shown) (bank : Z) : Prop := plain_color l -> d_led d = CBank (bank mod 5) /\ d_back d = CBank (bank mod 5).
(* With an off bank there is an off rig *)
Definition whole_off (c : rs_cfg) : Prop := rs_bank c <> None -> rs_bank_off c <> ONone -> rs_rig_off c <> ONone.

(* the rig is not known first, then it always is *)
Definition unknown_yet (o : bdop) : Prop := match o with BDraw v _ _ => v = None | BRenew => True end.
Definition known (o : bdop) : Prop := match o with BDraw v _ _ => v <> None | BRenew => True end.
Definition last_shown (ev : list shown) : option shown := hd_error (rev ev).
(* configured texts and colours are used: a fixed colour, or what the callback says for the current rig; a fixed text if there is no callback *)
Definition as_configured (l : looks) (d : shown) (id : Z) : Prop :=
  (forall x, lk_color l = Some x -> d_led d = CCustom x /\ d_back d = CCustom x) /\
  (forall f, lk_color l = None -> lk_ccb l = Some f -> d_led d = CCustom (f (id / 5) (id mod 5)) /\ d_back d = CCustom (f (id / 5) (id mod 5))) /\
  (forall t, lk_tcb l = None -> lk_text l = Some t -> d_text d = LCustom t).
(* an unlit switch without text *)
Definition blank (d : shown) : Prop := d_text d = LEmpty /\ d_led d = CWhite.
