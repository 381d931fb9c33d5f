(* C74: labels and LEDs of rig and bank switches announce what the next press selects. *)
From Verif.Lib Require Import Base.
From Verif.Model Require Import Midi Rig RigDisplay.
From Verif.Spec Require Import Rig RigDisplay.
From Verif.Proofs Require Rig RigDisplay.

(* A rig select switch in target mode: after its redraw, in whatever history, the rig on its label is the one the device goes to when the
   switch is pressed now, and both colours are those of that rig's bank. *)
Theorem C74_rig_select : forall cfg fuel ops w ev k c l id blink, cfg k = RigSelect c -> good_rs c -> rs_valid c = true -> lk_target l = true ->
  whistory cfg fuel (ops ++ [Draw k]) w ev -> reports_valid ops -> w_id w = Some id ->
  let d := rs_show c l (Some id) (w_st w k) (w_sh w) blink in
  exists n w' m, wstep cfg fuel w (Press k) = Some (w', map (pair k) m) /\ react_all (mkDevice id (s_pre (w_sh w))) m = mkDevice n None /\
    (whole_off c -> names_rig l (d_text d) n) /\ bank_colored l d (n / 5).
Proof. exact RigDisplay.rs_announced. Qed.
Print Assumptions C74_rig_select.
(* It is lit exactly if its rig is the current one; while a bank is preselected it blinks. *)
Theorem C74_lit : forall c l id s sh blink, 0 <= id -> lk_target l = true -> s_pre sh = None ->
  let d := rs_show c l (Some id) s sh blink in d_bright d = already_there c id /\ d_dim d = negb (already_there c id).
Proof. exact RigDisplay.rs_lit. Qed.
Print Assumptions C74_lit.
Theorem C74_blinks : forall c l id s sh b p, s_pre sh = Some p -> let d := rs_show c l (Some id) s sh (Some b) in d_bright d = negb b /\ d_dim d = true.
Proof. exact RigDisplay.rs_preselected. Qed.
Print Assumptions C74_blinks.
(* In current mode it names the current rig. *)
Theorem C74_current : forall c l id s sh blink, 0 <= id -> lk_target l = false ->
  let d := rs_show c l (Some id) s sh blink in names_rig l (d_text d) id /\ bank_colored l d (id / 5).
Proof. exact RigDisplay.rs_current_mode. Qed.
Print Assumptions C74_current.

(* Rig up / down: the rig the device goes to, or the current one. *)
Theorem C74_rig_up_down : forall up keep l id sent sh x sh' m, valid_id id -> rig_change_push up keep (Some id) sent sh = (x, sh', m) ->
  let d := rc_show up keep l (Some id) in
  exists n, react_all (mkDevice id None) m = mkDevice n None /\
    (if lk_target l then names_rig l (d_text d) n /\ bank_colored l d (n / 5) else names_rig l (d_text d) id /\ bank_colored l d (id / 5)).
Proof. exact RigDisplay.rc_announced. Qed.
Print Assumptions C74_rig_up_down.

(* Bank up / down with preselection: the bank it preselects next. *)
Theorem C74_bank_up_down : forall fuel c l label dim id sh own blink sh' m, bc_pre c = true -> lk_target l = true -> dim <> DimOn ->
  bank_change_push fuel c (Some id) sh = Some (sh', m) -> 0 <= id ->
  exists b d, bc_show fuel c l label dim (Some id) sh own blink = Some (Ok d) /\ m = [CC 47 b] /\ s_pre sh' = Some b /\
    (forall f, lk_tcb l = Some f -> d_text d = LCustom (f b (id mod 5))) /\ bank_colored l d b /\
    d_bright d = match s_pre sh with Some _ => if own then negb blink else true | None => true end.
Proof. exact RigDisplay.bc_announced. Qed.
Print Assumptions C74_bank_up_down.

(* Bank select: redraws are skipped when nothing changed, but what was shown last is always what a redraw would show now. *)
Theorem C74_bank_drawn : forall c l a b id sh blink, Forall unknown_yet a -> Forall known b ->
  last_shown (snd (run (bdstep c l) bs_new (a ++ b ++ [BDraw (Some id) sh blink]))) = Some (bs_show c l id (bs_current c id sh blink)).
Proof. exact RigDisplay.bs_drawn. Qed.
Print Assumptions C74_bank_drawn.
(* And this names the bank the press addresses. *)
Theorem C74_bank_select : forall c l id sent sh blink sent' sh' ms, 0 <= id -> lk_target l = true -> bs_push c (Some id) sent sh = (sent', sh', ms) ->
  let d := bs_show c l id (bs_current c id sh blink) in
  exists b, (forall p, react_all (mkDevice id p) ms = if bs_pre c then mkDevice id (Some b) else mkDevice (rig_id b (id mod 5)) None) /\
    (plain_text l -> d_text d = LBank (b + 1)) /\ (lk_text l = None -> forall f, lk_tcb l = Some f -> d_text d = LCustom (f b (id mod 5))) /\ bank_colored l d b.
Proof. exact RigDisplay.bs_announced. Qed.
Print Assumptions C74_bank_select.
Theorem C74_bank_lit : forall c l id sh blink, 0 <= id -> lk_target l = true -> let d := bs_show c l id (bs_current c id sh blink) in
  d_bright d = (if bs_pre c && match s_pre sh with Some p => p =? bs_bank c - 1 | None => false end then blink else id / 5 =? bs_bank c - 1) /\ d_dim d = negb (d_bright d).
Proof. exact RigDisplay.bs_lit. Qed.
Print Assumptions C74_bank_lit.

(* Configured texts and colours *)
Theorem C74_configured : forall l id, 0 <= id ->
  (forall c s sh blink, as_configured l (rs_show c l (Some id) s sh blink) id) /\ (forall up keep, as_configured l (rc_show up keep l (Some id)) id) /\
  (forall c cur, as_configured l (bs_show c l id cur) id).
Proof. exact RigDisplay.configured. Qed.
Print Assumptions C74_configured.
(* As long as the rig is not known, nothing is announced. *)
Theorem C74_unknown : forall l, (forall c s sh blink, blank (rs_show c l None s sh blink)) /\ (forall up keep, blank (rc_show up keep l None)) /\
  (forall c s sh blink, Forall blank (snd (bdstep c l s (BDraw None sh blink)))).
Proof. exact RigDisplay.unknown. Qed.
Print Assumptions C74_unknown.

Definition names : looks := mkLooks true None None None None.
Definition back_only : rs_cfg := mkRsCfg (Some 2) ONone (Some 4) (ONum 1) [] false false.
Definition one_switch (c : cb) (_ : nat) : cb := c.
(* Not so: without an off rig the label is right, too. Rig 2 of bank 4 with off bank 1: the label still says 4-2 there, but the press goes to 1-2. *)
Theorem C74_bank_off_refuted : ~ (forall cfg fuel ops w ev k c id n w' m, cfg k = RigSelect c -> good_rs c -> rs_valid c = true ->
  whistory cfg fuel (ops ++ [Draw k]) w ev -> reports_valid ops -> w_id w = Some id ->
  wstep cfg fuel w (Press k) = Some (w', map (pair k) m) -> react_all (mkDevice id (s_pre (w_sh w))) m = mkDevice n None ->
  names_rig names (d_text (rs_show c names (Some id) (w_st w k) (w_sh w) None)) n).
Proof.
  intros H. specialize (H (one_switch (RigSelect back_only)) 9%nat [Report (Some 16)]). cbn [app] in H.
  refine (_ (H _ _ 0%nat back_only 16 1 _ [CC 47 0; CC 51 1] eq_refl _ eq_refl eq_refl _ eq_refl eq_refl eq_refl)).
  - clear H. intros (H & _). specialize (H (conj eq_refl eq_refl)). vm_compute in H. discriminate H.
  - cbn. repeat split; lia.
  - intros x Hx. destruct Hx as [Hx|[]]. injection Hx as <-. unfold valid_id. lia.
Qed.
Print Assumptions C74_bank_off_refuted.
(* Not so: bank up / down switches with a label can always be drawn. The documented dim factor "on" raises. *)
Theorem C74_dim_on_refuted : ~ (forall c l v sh own blink, exists d, bc_show 200 c l true DimOn v sh own blink = Some (Ok d)).
Proof. intros H. destruct (H (mkBcCfg true None true) names (Some 3) no_shared false false) as (d & E). vm_compute in E. discriminate E. Qed.
Print Assumptions C74_dim_on_refuted.
(* Not so: a text callback replaces the text, as documented. For bank select switches the text wins. *)
Theorem C74_text_callback_refuted : ~ (forall c l id cur f, lk_target l = true -> lk_tcb l = Some f -> exists b, d_text (bs_show c l id cur) = LCustom (f b (id mod 5))).
Proof.
  intros H. destruct (H (mkBsCfg 3 None false) (mkLooks true (Some 1) (Some (fun b r => 2)) None None) 0 false _ eq_refl eq_refl) as (b & E). vm_compute in E. discriminate E.
Qed.
Print Assumptions C74_text_callback_refuted.

Example C74_ex : let ops := [Report (Some 7); Draw 1%nat; Report (Some 8)] in
  let cfg := one_switch (RigSelect (mkRsCfg (Some 3) (ONum 1) (Some 2) (ONum 4) [] false false)) in
  exists w ev, whistory cfg 9 (ops ++ [Draw 1%nat]) w ev /\ reports_valid ops /\ w_id w = Some 8 /\
    (forall k, k = 1%nat -> good_cb (cfg k)) /\ rs_show (mkRsCfg (Some 3) (ONum 1) (Some 2) (ONum 4) [] false false) names (Some 8) (w_st w 1%nat) (w_sh w) None = mkShown (LRig 2 3) (CBank 1) true (CBank 1) false.
Proof.
  eexists _, _. split; [reflexivity|]. split; [intros x Hx; cbn in Hx; destruct Hx as [Hx|[Hx|[Hx|[]]]]; try discriminate Hx; injection Hx as <-; unfold valid_id; lia|].
  split; [reflexivity|]. split; [intros k ->; cbn; repeat split; lia|reflexivity].
Qed.
Example C74_ex_there : exists w ev, whistory (one_switch (RigSelect (mkRsCfg (Some 3) (ONum 1) (Some 2) (ONum 4) [] false false))) 9 [Report (Some 7); Draw 0%nat] w ev /\
    rs_show (mkRsCfg (Some 3) (ONum 1) (Some 2) (ONum 4) [] false false) names (Some 7) (w_st w 0%nat) (w_sh w) None = mkShown (LRig 4 1) (CBank 3) false (CBank 3) true.
Proof. eexists _, _. split; reflexivity. Qed.
Example C74_ex_up : rc_show true false names (Some 4) = mkShown (LRig 2 1) (CBank 1) false (CBank 1) true.
Proof. reflexivity. Qed.
Example C74_ex_bank_up : exists sh, bank_change_push 200 (mkBcCfg true (Some 10) true) (Some 48) no_shared = Some (sh, [CC 47 0]) /\
  exists d, bc_show 200 (mkBcCfg true (Some 10) true) (mkLooks true None (Some (fun b r => b * 100 + r)) None None) true DimOff (Some 48) no_shared false false = Some (Ok d) /\ d_text d = LCustom 3.
Proof. eexists. split; [reflexivity|]. eexists. split; reflexivity. Qed.
Example C74_ex_bank : snd (run (bdstep (mkBsCfg 7 (Some 2) false) names) bs_new [BDraw None no_shared false; BDraw (Some 3) no_shared false; BDraw (Some 3) no_shared false; BDraw (Some 33) no_shared false])
  = [mkShown LEmpty CWhite true CWhite false; bs_show (mkBsCfg 7 (Some 2) false) names 3 false; bs_show (mkBsCfg 7 (Some 2) false) names 33 true] /\
  d_text (bs_show (mkBsCfg 7 (Some 2) false) names 3 false) = LBank 7 /\ d_text (bs_show (mkBsCfg 7 (Some 2) false) names 33 true) = LBank 2.
Proof. repeat split; reflexivity. Qed.
