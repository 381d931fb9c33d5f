(* C75: the bank encoder among rig and bank switches. *)
From Verif.Lib Require Import Base.
From Verif.Model Require Import Midi Encoder Rig BankEncoder.
From Verif.Spec Require Import Encoder Rig BankEncoder.
From Verif.Proofs Require Import BankEncoder.

(* Exactly what turning does, in every history: the target is the bank last reported (or sent by the encoder itself since) moved by the
   steps turned, kept within 0-124. It is sent and shown as preselected, except when it is the bank the encoder has sent last. *)
Theorem C75_turn : forall num den preview cfg fuel t w p prev b, let c := bank_encoder num den preview in
  happened cfg fuel c t w -> log_valid t -> last_position t = Some prev -> scaled c prev <> -1 -> scaled c p <> scaled c prev -> counts_from t = Some b ->
  let target := nearest 0 124 (b + (scaled c p - scaled c prev)) in
  exists w', bstep cfg fuel c w (BTurn p) = Some (w', if match last_bank_sent t with Some x => x =? target | None => false end then [] else [(None, CC 47 target)]) /\
    s_pre (w_sh (bw_sw w')) = if match last_bank_sent t with Some x => x =? target | None => false end then s_pre (w_sh (bw_sw w)) else Some target.
Proof. exact turn_exact. Qed.
Print Assumptions C75_turn.

(* Nothing but bank messages within the limits ever comes from the encoder, at most one per poll. *)
Theorem C75_only_banks : forall num den preview cfg fuel t w p e, let c := bank_encoder num den preview in
  happened cfg fuel c t w -> In (BTurn p, e) t -> e = [] \/ exists b, e = [(None, CC 47 b)] /\ 0 <= b <= 124.
Proof. exact enc_messages. Qed.
Print Assumptions C75_only_banks.

(* What is shown as preselected is what the device waits for, whoever preselected it (without rig up/down, see C61). *)
Theorem C75_shown : forall num den preview cfg fuel d t w b, let c := bank_encoder num den preview in
  (forall k, preselects (cfg k)) -> happened cfg fuel c t w -> s_pre (w_sh (bw_sw w)) = Some b -> d_pending (react_all d (sent t)) = Some b.
Proof. intros num den preview cfg fuel d t w b c Hp H. exact (proj2 (shown_pending num den preview cfg fuel d Hp t w H) b). Qed.
Print Assumptions C75_shown.

(* The next rig switch loads its rig in that bank and ends the preselection. *)
Theorem C75_rig_press : forall num den preview cfg fuel t w d b k cf r, let c := bank_encoder num den preview in
  (forall k, preselects (cfg k)) -> happened cfg fuel c t w -> s_pre (w_sh (bw_sw w)) = Some b -> cfg k = RigSelect cf -> rs_rig cf = Some r ->
  exists w' e, bstep cfg fuel c w (BSwitch (Press k)) = Some (w', e) /\ s_pre (w_sh (bw_sw w')) = None /\
    react_all d (sent (t ++ [(BSwitch (Press k), e)])) = mkDevice (rig_id b (r - 1)) None.
Proof. exact rig_press_loads. Qed.
Print Assumptions C75_rig_press.

(* The bank counted from is the one shown: proved when nothing but turning happened since the last report. Missing for the full claim: banks
   preselected by switches (refuted below). *)
Theorem C75_counts_shown_partial : forall num den preview cfg fuel t w id, let c := bank_encoder num den preview in
  log_valid t -> happened cfg fuel c t w -> only_turned cfg fuel c t id -> bank_shown w = counts_from t /\ counts_from t <> None.
Proof. exact counts_shown. Qed.
Print Assumptions C75_counts_shown_partial.

(* A bank switch keeps the rig number: proved when the encoder has sent nothing since the device reported its rig. Missing: after turning
   the encoder (refuted below). *)
Theorem C75_keep_rig_partial : forall num den preview cfg fuel t w d k cf id w' e, let c := bank_encoder num den preview in
  happened cfg fuel c t w -> undisturbed t id -> 0 <= id -> cfg k = BankSelect cf -> bs_pre cf = false ->
  bstep cfg fuel c w (BSwitch (Press k)) = Some (w', e) ->
  react_all d (map snd e) = mkDevice (rig_id (match bs_bank_off cf with Some bo => if id / 5 =? bs_bank cf - 1 then bo - 1 else bs_bank cf - 1 | None => bs_bank cf - 1 end) (id mod 5)) None.
Proof. exact bank_press_keeps. Qed.
Print Assumptions C75_keep_rig_partial.

(* One step per two positions (the default), no preview; switches: bank up with preselection, bank 9 preselecting, bank 4, rig 2 *)
Definition enc1 : econf := bank_encoder 1 2 false.
Definition set3 (k : nat) : cb :=
  match k with
  | 0%nat => BankChange (mkBcCfg true None true)
  | 1%nat => BankSelect (mkBsCfg 9 None true)
  | 2%nat => BankSelect (mkBsCfg 4 None false)
  | _ => RigSelect (mkRsCfg (Some 2) ONone None ONone [] false false)
  end.

Definition log1 : log := [(BTurn 0, []); (BSwitch (Report (Some 23)), []); (BTurn 2, [(None, CC 47 5)]); (BTurn 3, []); (BTurn 8, [(None, CC 47 8)])].
Example C75_ex : exists w, happened set3 200 enc1 log1 w /\ log_valid log1 /\ sent log1 = [CC 47 5; CC 47 8] /\
  last_position log1 = Some 8 /\ counts_from log1 = Some 8 /\ last_bank_sent log1 = Some 8 /\ s_pre (w_sh (bw_sw w)) = Some 8 /\
  bank_shown w = Some 8 /\ only_turned set3 200 enc1 log1 23 /\ (forall k, preselects (set3 k)).
Proof.
  eexists. split; [vm_compute; reflexivity|]. split.
  - intros x id [<-|[<-|[<-|[<-|[<-|[]]]]]] H; try discriminate. injection H as <-. unfold valid_id. lia.
  - do 6 (split; [vm_compute; reflexivity|]). split.
    + exists [(BTurn 0, [])]. eexists _, _, [_; _; _]. split; [vm_compute; reflexivity|]. split; [vm_compute; reflexivity|]. split; [vm_compute; reflexivity|]. intros x [<-|[<-|[<-|[]]]]; discriminate.
    + intros k. do 3 (destruct k as [|k]; [cbn; auto|]). cbn. repeat split; lia.
Qed.
Example C75_ex_turn : exists w w', happened set3 200 enc1 log1 w /\ bstep set3 200 enc1 w (BTurn 500) = Some (w', [(None, CC 47 124)]) /\ bank_shown w' = Some 124.
Proof. eexists _, _. split; [vm_compute; reflexivity|]. split; vm_compute; reflexivity. Qed.
Example C75_ex_rig : exists w w' e, happened set3 200 enc1 log1 w /\ bstep set3 200 enc1 w (BSwitch (Press 3)) = Some (w', e) /\
  react_all (mkDevice 23 None) (sent (log1 ++ [(BSwitch (Press 3), e)])) = mkDevice 41 None.
Proof. eexists _, _, _. split; [vm_compute; reflexivity|]. split; vm_compute; reflexivity. Qed.
Example C75_ex_keep : let t := [(BTurn 0, []); (BTurn 1, []); (BSwitch (Report (Some 23)), []); (BSwitch (Draw 2), [])] in
  exists w w' e, happened set3 200 enc1 t w /\ undisturbed t 23 /\ bstep set3 200 enc1 w (BSwitch (Press 2)) = Some (w', e) /\ react_all (mkDevice 23 None) (map snd e) = mkDevice 18 None.
Proof.
  eexists _, _, _. split; [vm_compute; reflexivity|]. split.
  - exists [(BTurn 0, []); (BTurn 1, [])], [], [(BSwitch (Draw 2), [])]. split; [vm_compute; reflexivity|]. intros x [<-|[]]; split; vm_compute; reflexivity.
  - split; vm_compute; reflexivity.
Qed.

(* Finding: a bank preselected with a switch (here bank 6, shown so) is not what the encoder counts from: one step on goes to bank 5. *)
Theorem C75_counts_shown_refuted : let t := [(BTurn 0, []); (BSwitch (Report (Some 23)), []); (BSwitch (Press 0), [(Some 0%nat, CC 47 5)]); (BSwitch (Press 0), [(Some 0%nat, CC 47 6)])] in
  exists w w', happened set3 200 enc1 t w /\ bank_shown w = Some 6 /\ scaled enc1 2 - scaled enc1 0 = 1 /\
    bstep set3 200 enc1 w (BTurn 2) = Some (w', [(None, CC 47 5)]) /\ bank_shown w' = Some 5.
Proof. eexists _, _. split; [vm_compute; reflexivity|]. split; [vm_compute; reflexivity|]. split; [vm_compute; reflexivity|]. split; vm_compute; reflexivity. Qed.
Print Assumptions C75_counts_shown_refuted.

(* Finding: after one step of the encoder, with rig 4 of bank 5 (id 23) current, the switch for bank 4 selects rig 1 there (id 15), not rig 4. *)
Theorem C75_keep_rig_refuted : let t := [(BTurn 0, []); (BSwitch (Report (Some 23)), []); (BTurn 2, [(None, CC 47 5)])] in
  exists w w' e, happened set3 200 enc1 t w /\ w_id (bw_sw w) = Some 23 /\ bstep set3 200 enc1 w (BSwitch (Press 2)) = Some (w', e) /\
    react_all (mkDevice 23 None) (sent t ++ map snd e) = mkDevice 15 None.
Proof. eexists _, _, _. split; [vm_compute; reflexivity|]. split; [vm_compute; reflexivity|]. split; vm_compute; reflexivity. Qed.
Print Assumptions C75_keep_rig_refuted.

(* Finding: the encoder went to bank 6, a rig there was loaded, and the device was then set to bank 5 (id 22) again. One step on does nothing:
   bank 6 is the one the encoder has sent last. *)
Theorem C75_silent_refuted : let t := [(BTurn 0, []); (BSwitch (Report (Some 23)), []); (BTurn 2, [(None, CC 47 5)]); (BSwitch (Press 3), [(Some 3%nat, CC 51 1)]);
                                       (BSwitch (Report (Some 26)), []); (BSwitch (Report (Some 22)), [])] in
  exists w w', happened set3 200 enc1 t w /\ bank_shown w = Some 4 /\ scaled enc1 4 - scaled enc1 2 = 1 /\
    bstep set3 200 enc1 w (BTurn 4) = Some (w', []) /\ bank_shown w' = Some 4.
Proof. eexists _, _. split; [vm_compute; reflexivity|]. split; [vm_compute; reflexivity|]. split; [vm_compute; reflexivity|]. split; vm_compute; reflexivity. Qed.
Print Assumptions C75_silent_refuted.
