(* C33 - C35: rotary encoders. *)
From Verif.Lib Require Import Base.
From Verif.Model Require Import Midi Encoder.
From Verif.Spec Require Import Encoder.
From Verif.Proofs Require Import Encoder.

Definition direct : econf := mkEconf 0 127 1 1 false false false false.
Definition presel : econf := mkEconf 0 127 1 1 true true false false.
Definition banks : econf := mkEconf 0 124 1 2 false true false true.

(* ---- C33 ---- *)

(* A poll sends at most one value. It is the current value moved by the turn since the last poll, kept within the limits, and
   becomes the current value. *)
Theorem C33_sends : forall c ops x p x' e, e_pre c = false -> e_min c <= e_max c -> reached c ops x -> process c x p = Ok (x', e) ->
  sets e = [] \/
  exists prev w v, last_turn ops = Some prev /\ scaled c prev <> scaled c p /\ current c x = Some w /\
    v = nearest (e_min c) (e_max c) (w + (scaled c p - scaled c prev)) /\ sets e = [v] /\ current c x' = Some v.
Proof. exact C33_main. Qed.
Print Assumptions C33_sends.

(* The first poll and a poll without movement send nothing and leave the value alone. *)
Theorem C33_still_silent : forall c ops x p x' e, e_pre c = false -> reached c ops x -> process c x p = Ok (x', e) ->
  (last_turn ops = None \/ exists prev, last_turn ops = Some prev /\ scaled c prev = scaled c p) -> e = [] /\ x_val x' = x_val x.
Proof. exact C33_still. Qed.
Print Assumptions C33_still_silent.

(* A bank encoder announces exactly the banks it sends to the application, other encoders none. *)
Theorem C33_bank_announced : forall c x p x' e, e_pre c = false -> process c x p = Ok (x', e) -> announced e = if e_bank c then sets e else [].
Proof. exact bank_announced. Qed.
Print Assumptions C33_bank_announced.

(* Polling never raises (a bank encoder needs a known value). *)
Theorem C33_never_raises : forall c x p, e_pre c = false -> (e_bank c = true -> x_val x <> None) -> process c x p <> Raise.
Proof. exact direct_total. Qed.
Print Assumptions C33_never_raises.

(* Finding: a bank encoder that is turned before the device has reported a rig raises (None / 5). *)
Theorem C33_bank_unknown_refuted : exists c ops, e_bank c = true /\ e_pre c = false /\ erun c new_enc ops = Raise /\ ops = [Turn 0; Turn 2].
Proof. exists banks, [Turn 0; Turn 2]. repeat split. Qed.
Print Assumptions C33_bank_unknown_refuted.

Example C33_ex : erun direct new_enc [Turn 3; Value (Some 120); Turn 5; Turn 5; Turn 15; Turn 2; Value None; Turn 6]
  = Ok (mkEnc 6 (Some 4) false None (Some 4) None, [ESet 122; ESet 127; ESet 114; ESet 4]).
Proof. reflexivity. Qed.
Example C33_ex_bank : erun banks new_enc [Turn 0; Value (Some 23); Turn 1; Turn 2; Turn 7]
  = Ok (mkEnc 3 (Some 7) false None (Some 35) None, [ESet 5; EUnshow false; EShared 5; EShow 5; ESet 7; EUnshow false; EShared 7; EShow 7]).
Proof. reflexivity. Qed.

(* ---- C34 ---- *)

(* With preselection, nothing but accepting sends. *)
Theorem C34_only_accept_sends : forall c ops x x' e, e_pre c = true -> (forall o, In o ops -> o <> Accept) -> erun c x ops = Ok (x', e) -> sets e = [].
Proof. intros c ops. exact (pre_silent c ops). Qed.
Print Assumptions C34_only_accept_sends.

(* Accepting sends at most one value, within the limits, which becomes the current value. *)
Theorem C34_accept_in_range : forall c ops x x' e, e_pre c = true -> e_min c <= e_max c -> reached c ops x -> accept c x = Ok (x', e) ->
  sets e = [] \/ exists v, sets e = [v] /\ e_min c <= v <= e_max c /\ current c x' = Some v.
Proof. exact pre_accept_range. Qed.
Print Assumptions C34_accept_in_range.

(* After accepting or cancelling, accepting sends nothing until the encoder is turned again. *)
Theorem C34_accept_once : forall c ops ops2 o x, e_pre c = true -> 0 <= e_min c -> e_min c <= e_max c -> (o = Accept \/ o = Cancel) ->
  (forall q, In q ops2 -> is_turn q = false) -> reached c (ops ++ o :: ops2) x -> forall x' e, accept c x = Ok (x', e) -> sets e = [].
Proof. exact pre_once. Qed.
Print Assumptions C34_accept_once.

(* After cancelling (or an accept that sent) with a known value, the preselection starts from that value and follows the turns;
   accepting sends the result, if the turns ever changed it. *)
Theorem C34_accept_value : forall c ops o x0 x1 e1 p v ps x2 e2 x3 e3, e_pre c = true -> e_watch c = false -> 0 <= e_min c -> e_min c <= e_max c ->
  reached c ops x0 -> (o = Accept \/ o = Cancel) -> estep c x0 o = Ok (x1, e1) -> current c x1 = Some v -> x_val x1 <> None -> (o = Accept -> sets e1 <> []) ->
  last_turn ops = Some p -> (forall q, In q (p :: ps) -> scaled c q <> -1) ->
  erun c x1 (map Turn ps) = Ok (x2, e2) -> accept c x2 = Ok (x3, e3) -> 0 <= v ->
  sets e3 = (if ever_moved c p v ps then [preselected c p v ps] else []).
Proof. exact pre_accept_value. Qed.
Print Assumptions C34_accept_value.

(* Buttons: with one mode for all its encoders, pushing triggers exactly that on each of them, once and in order. *)
Theorem C34_button : forall regs m, regs <> [] -> (forall r, In r regs -> snd r = m) ->
  button_push (fold_left (fun b r => register_encoder b (fst r) (snd r)) regs new_ebutton) = regs.
Proof. exact button_push_spec. Qed.
Print Assumptions C34_button.

(* Finding: one button as accept action of encoder 1 and cancel action of encoder 2 cancels both. *)
Theorem C34_button_shared_refuted : exists regs, regs = [(1%nat, false); (2%nat, true)] /\
  button_push (fold_left (fun b r => register_encoder b (fst r) (snd r)) regs new_ebutton) = [(1%nat, true); (2%nat, true)].
Proof. exists [(1%nat, false); (2%nat, true)]. split; reflexivity. Qed.
Print Assumptions C34_button_shared_refuted.

(* Finding: cancelling while the value is unknown makes the next turn raise (None + int). *)
Theorem C34_cancel_unknown_refuted : exists c ops, e_pre c = true /\ e_bank c = false /\ ops = [Turn 5; Cancel; Turn 6] /\ erun c new_enc ops = Raise.
Proof. exists presel, [Turn 5; Cancel; Turn 6]. repeat split. Qed.
Print Assumptions C34_cancel_unknown_refuted.

Example C34_ex : erun presel new_enc [Turn 3; Value (Some 64); Cancel; Turn 5; Turn 9; Turn 8; Accept; Accept; Turn 9; Cancel; Accept]
  = Ok (mkEnc 9 (Some 69) false None (Some 69) None, [EUnshow true; EShow 66; EShow 70; EShow 69; ESet 69; EUnshow false; EShow 70; EUnshow true]).
Proof. reflexivity. Qed.
Example C34_ex_value : exists x0 x1 e1, reached presel [Turn 3; Value (Some 64)] x0 /\ estep presel x0 Cancel = Ok (x1, e1) /\ current presel x1 = Some 64 /\ x_val x1 <> None /\
  last_turn [Turn 3; Value (Some 64)] = Some 3 /\ ever_moved presel 3 64 [5; 9; 8] = true /\ preselected presel 3 64 [5; 9; 8] = 69.
Proof. eexists _, _, _. split; [eexists; reflexivity|]. split; [reflexivity|]. repeat split; discriminate. Qed.

(* ---- C35 ---- *)

(* A directly sending encoder with non-negative limits sends exactly the step, if it was not at position -1 and the device did not
   report a value since the encoder last sent one. Missing for the full claim: those two cases and preselection (refuted below). *)
Theorem C35_step_counts_partial : forall c ops x p prev w x' e, e_pre c = false -> 0 <= e_min c -> e_min c <= e_max c -> reached c ops x -> settled c ops ->
  last_turn ops = Some prev -> scaled c prev <> -1 -> current c x = Some w ->
  e_min c <= w + (scaled c p - scaled c prev) <= e_max c -> scaled c p <> scaled c prev ->
  process c x p = Ok (x', e) ->
  sets e = [w + (scaled c p - scaled c prev)] /\ current c x' = Some (w + (scaled c p - scaled c prev)).
Proof. exact C35_main. Qed.
Print Assumptions C35_step_counts_partial.

Example C35_ex : exists x, reached direct [Value (Some 64); Turn 3; Turn 4] x /\ settled direct [Value (Some 64); Turn 3; Turn 4] /\ current direct x = Some 65.
Proof.
  eexists. split; [eexists; reflexivity|]. split; [|reflexivity]. left. exists [Value (Some 64); Turn 3], (Turn 4), [].
  eexists _, _, _. split; [reflexivity|]. split; [eexists; reflexivity|]. split; [reflexivity|]. split; [right; discriminate|intros q []].
Qed.

(* Finding: position -1 is taken for "no position yet": the step away from it is lost. *)
Theorem C35_minus_one_refuted : exists ops x e, ops = [Value (Some 64); Turn 0; Turn (-1)] /\
  erun direct new_enc (ops ++ [Turn 0]) = Ok (x, e) /\ sets e = [63] /\ x_val x = Some 63.
Proof. eexists _, _, _. split; [reflexivity|]. vm_compute. auto. Qed.
Print Assumptions C35_minus_one_refuted.

(* Finding: after the encoder has sent 65 and the device has gone back to 64, the next step up is swallowed. *)
Theorem C35_device_change_refuted : exists ops x e, ops = [Value (Some 64); Turn 3; Turn 4; Value (Some 64)] /\
  erun direct new_enc (ops ++ [Turn 5]) = Ok (x, e) /\ sets e = [65] /\ x_val x = Some 64.
Proof. eexists _, _, _. split; [reflexivity|]. vm_compute. auto. Qed.
Print Assumptions C35_device_change_refuted.

(* Finding: the first preselection does not start from the value of the device but from -1. *)
Theorem C35_first_preselection_refuted : exists ops x e, ops = [Value (Some 64); Turn 3; Turn 4; Accept] /\
  erun presel new_enc ops = Ok (x, e) /\ sets e = [0].
Proof. eexists _, _, _. split; [reflexivity|]. vm_compute. auto. Qed.
Print Assumptions C35_first_preselection_refuted.

(* Finding: with negative limits the value -1 is never sent. *)
Theorem C35_value_minus_one_refuted : exists c ops x e, c = mkEconf (-12) 12 1 1 false false false false /\ ops = [Value (Some 0); Turn 5; Turn 4] /\
  erun c new_enc ops = Ok (x, e) /\ sets e = [] /\ x_val x = Some 0.
Proof. eexists _, _, _, _. split; [reflexivity|]. split; [reflexivity|]. vm_compute. auto. Qed.
Print Assumptions C35_value_minus_one_refuted.
