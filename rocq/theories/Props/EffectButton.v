(* C73: effect buttons toggle on every press and start with off in every rig. *)
From Verif.Lib Require Import Base.
From Verif.Model Require Import BinaryCb EffectButton.
From Verif.Spec Require Import EffectButton.
From Verif.Proofs Require EffectButton.

(* From the moment the button gets visible (it is off then): whatever happens while it is, it is on exactly after an odd number of presses
   since the last rig change, every press sends what it says, and the display shows it (if the internal state is displayed at all). *)
Theorem C73_follows : forall internal ops0 ops, hidden_before ops0 -> Forall stays ops ->
  let '(s0, ev0) := run (xstep internal) (x_init internal) (ops0 ++ [XEnable true; XTick]) in
  let '(s, ev) := run (xstep internal) s0 ops in
  is_on s0 = false /\ is_on s = counted false ops /\ sent ev = presses false ops /\ lit_now (ev0 ++ ev) = Some (counted false ops && internal).
Proof. exact EffectButton.follows. Qed.
Print Assumptions C73_follows.
(* In no state anything but a press sends something. *)
Theorem C73_only_presses : forall internal s o, o <> XPush -> sent (snd (xstep internal s o)) = [].
Proof. exact EffectButton.sends_only_presses. Qed.
Print Assumptions C73_only_presses.
(* Resetting switches off, also while hidden; a hidden button does nothing at all, except when it is on and the rig changes (see below). *)
Theorem C73_reset : forall internal s, is_on (fst (xstep internal s XReset)) = false.
Proof. exact EffectButton.reset_off. Qed.
Print Assumptions C73_reset.
Theorem C73_hidden : forall internal s o, x_enabled s = false -> (o = XRig -> is_on s = false) -> snd (xstep internal s o) = [].
Proof. exact EffectButton.hidden_quiet. Qed.
Print Assumptions C73_hidden.
Example C73_ex_hidden : let s := fst (run (xstep true) (x_init true) [XTick; XPush; XEnable false; XTick]) in
  x_enabled s = false /\ is_on s = true /\ snd (xstep true s XPush) = [] /\ snd (xstep true s XRig) <> [].
Proof. vm_compute. repeat split. discriminate. Qed.

(* Not so: the button keeps its state while hidden, without a rig change. It is off when visible again, and the next press sends on again. *)
Theorem C73_page_refuted : ~ (forall ops, let s := fst (run (xstep true) (x_init true) ops) in
  is_on (fst (run (xstep true) s [XEnable false; XTick; XEnable true; XTick])) = is_on s).
Proof. intros H. specialize (H [XTick; XPush]). discriminate H. Qed.
Print Assumptions C73_page_refuted.
(* Not so: a hidden button draws nothing. A rig change draws it on its label if it was on when it got hidden. *)
Theorem C73_hidden_refuted : ~ (forall ops, Forall (fun x => match x with XE enabled (EShow _ _ _) => enabled = true | _ => True end) (snd (run (xstep true) (x_init true) ops))).
Proof.
  intros H. specialize (H [XTick; XPush; XEnable false; XTick; XRig]).
  assert (E : In (XE false (EShow 0 false TextNormal)) (snd (run (xstep true) (x_init true) [XTick; XPush; XEnable false; XTick; XRig]))) by (vm_compute; tauto).
  rewrite Forall_forall in H. apply H in E. discriminate E.
Qed.
Print Assumptions C73_hidden_refuted.

Definition ex_before : list xop := [XTick; XPush; XRig; XEnable false; XTick].
Definition ex_ops : list xop := [XPush; XTick; XPush; XPush; XRig; XPush].
Example C73_ex : hidden_before ex_before /\ Forall stays ex_ops /\ counted false ex_ops = true /\ presses false ex_ops = [1; 0; 1; 1].
Proof. split; [right; exists [XTick; XPush; XRig]; reflexivity|]. split; [repeat constructor|]. split; reflexivity. Qed.
Example C73_ex_run : let '(s, ev) := run (xstep true) (x_init true) (ex_before ++ [XEnable true; XTick] ++ ex_ops) in is_on s = true /\ sent ev = [1; 1; 0; 1; 1] /\ lit_now ev = Some true.
Proof. vm_compute. auto. Qed.
