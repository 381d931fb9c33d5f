(* C56: switches, actions, callbacks and client together *)
From Coq Require Import String.
From Verif.Lib Require Import Base.
From Verif.Model Require Import Midi Period Mapping Client Switch PushButton BinaryCb System.
From Verif.Spec Require Import Mapping Client ClientSafe BinaryCb System.
From Verif.Proofs Require System.
Open Scope Z_scope.

(* In every powered state, the next operation sends a set message for the parameter of an action exactly if the user
   wishes something by it, and the message carries the value of the wish. The wish depends on the button mode, on what
   the switch shows, and on presses and releases only. *)
Theorem C56_wire : forall g maps0 lt ops s evs o s' e j a x0 on off,
  powered g maps0 lt ops s evs -> ystep g s o = Ok (s', e) ->
  only_on g j a -> own_parameter g a -> bc_live (a_cb (y_action g a)) = true ->
  bc_enable (a_cb (y_action g a)) = SOne on -> bc_disable (a_cb (y_action g a)) = OOne (Some off) ->
  set_t (maps0 (a_map (y_action g a))) = TOne x0 ->
  sent (a_map (y_action g a)) e =
    match wish (y_action g a) j ops (lit_after a false (concat evs)) o with
    | Some b => [[carrying x0 (if b then on else off)]]
    | None => []
    end.
Proof. exact System.c56_step. Qed.
Print Assumptions C56_wire.

(* So the whole sequence of messages is the sequence of wishes. *)
Theorem C56_history : forall g maps0 lt ops s evs j a x0 on off,
  powered g maps0 lt ops s evs ->
  only_on g j a -> own_parameter g a -> bc_live (a_cb (y_action g a)) = true ->
  bc_enable (a_cb (y_action g a)) = SOne on -> bc_disable (a_cb (y_action g a)) = OOne (Some off) ->
  set_t (maps0 (a_map (y_action g a))) = TOne x0 ->
  sent (a_map (y_action g a)) (concat evs) =
    wished (y_action g a) j a (carrying x0 on) (carrying x0 off) [] false (List.combine ops evs).
Proof. exact (fun g maps0 lt ops s evs j a x0 on off Hp Hj Ho Hl Hon Hoff Hx => System.c56_history g maps0 lt a j x0 on off Hj Ho Hl Hon Hoff Hx ops s evs Hp). Qed.
Print Assumptions C56_history.

(* What is shown: the wish; after a redraw what the stored value means; after a message from the device what the stored value
   means, or the same as before if the stored value is the same as before. *)
Theorem C56_display : forall g maps0 lt ops s evs o s' e j a,
  powered g maps0 lt ops s evs -> ystep g s o = Ok (s', e) ->
  let cb := a_cb (y_action g a) in
  let m := a_map (y_action g a) in
  only_on g j a -> own_parameter g a -> (forall k, depends (maps0 k) <> Some m) -> bc_live cb = true -> bc_mode cb <> NO_STATE_CHANGE ->
  (y_bi g m = true -> exists on off, bc_enable cb = SOne on /\ bc_disable cb = OOne (Some off) /\
     compares (bc_mode cb) on (bc_ref cb) /\ ~ compares (bc_mode cb) off (bc_ref cb)) ->
  In (YRedraw a) ops ->
  let lit := lit_after a false (concat evs) in
  let lit' := lit_after a lit e in
  match o with
  | YPoll _ _ _ => lit' = shown_after_poll (y_action g a) j ops lit o
  | YRedraw k => if (k =? a)%nat then lit' = true <-> means_on cb (known s' m) else lit' = lit
  | YReceive _ _ => (known s' m = known s m /\ lit' = lit) \/ (lit' = true <-> means_on cb (known s' m))
  | YInit _ _ | YUpdate _ _ => lit' = lit
  end.
Proof.
  exact (fun g maps0 lt ops s evs o s' e j a Hp H Hj Ho Hd Hl Hm Hbi Hr =>
    System.c56_display g maps0 lt a Hm Ho Hd Hbi j Hj ops s evs o s' e Hp H Hl Hr).
Qed.
Print Assumptions C56_display.

(* The stored value is what the device reports, for a parameter that is registered. *)
Theorem C56_report : forall g maps0 lt ops s evs a t now x s' e r,
  powered g maps0 lt ops s evs -> ystep g s (YReceive now (Some x)) = Ok (s', e) ->
  let m := a_map (y_action g a) in
  In (YInit a t) ops -> request_t (maps0 m) = TNone -> response_t (maps0 m) = TOne r -> proper_template r -> two_part (maps0 m) = false ->
  typ (maps0 m) = Numeric -> depends (maps0 m) = None -> addressed x r ->
  exists z, carries Numeric x (VNum z) /\ known s' m = Some z.
Proof. exact System.c56_report. Qed.
Print Assumptions C56_report.

(* Nothing a user or the device does makes it raise. *)
Theorem C56_never_raises : forall g maps0 lt ops,
  no_self_dependency maps0 -> (forall k, sound (maps0 k)) -> told_apart maps0 -> (forall k, y_bi g k = false) -> (forall k, sendable g maps0 k) ->
  exists s evs, powered g maps0 lt ops s evs.
Proof. exact (fun g maps0 lt ops Hn Hs Ha Hb Hf => System.c56_total g maps0 lt Hn Hs Ha Hb Hf ops). Qed.
Print Assumptions C56_never_raises.

(* A device with an effect switch (0, latching), a switch with two actions (1: momentary on a controller, 2: hold momentary), and
   an effect slot handled by the protocol on switch 2. *)
Definition k_sysex (f a : Z) (tail : list Z) : msg := SysEx [0;32;51] ([0;0;f;0;a;3] ++ tail).
Definition k_maps (m : mid) : mapping :=
  match m with
  | 0%nat => mkMapping "Slot A" (TOne (k_sysex 1 50 [])) (TOne (k_sysex 65 50 [])) (TOne (k_sysex 1 50 [])) None Numeric None false None
  | 1%nat => mkMapping "Freeze" (TOne (CC 30 0)) TNone (TOne (CC 30 0)) None Numeric None false None
  | 2%nat => mkMapping "Boost" (TOne (CC 31 0)) TNone TNone None Numeric None false None
  | 3%nat => mkMapping "Slot B" (TOne (k_sysex 1 51 [])) (TOne (k_sysex 65 51 [])) (TOne (k_sysex 1 51 [])) None Numeric None false None
  | _ => mkMapping "Unused" TNone TNone TNone None Numeric None false None
  end.
Definition k_cb (on : Z) : bcfg := mkBcfg GREATER_EQUAL 1 (SOne on) (OOne (Some 0)) false true true false.
Definition k_action (a : nat) : acfg :=
  match a with
  | 0%nat => mkAcfg LATCH 600 (k_cb 1) 0%nat 100
  | 1%nat => mkAcfg MOMENTARY 600 (k_cb 127) 1%nat 101
  | 2%nat => mkAcfg HOLD_MOMENTARY 600 (k_cb 127) 2%nat 102
  | 3%nat => mkAcfg LATCH 600 (k_cb 1) 3%nat 103
  | n => mkAcfg LATCH 600 (k_cb 1) n 104
  end.
Definition k_cfg (bi : bool) : ycfg := mkYcfg
  (fun j => match j with 0%nat => mkSwitchCfg [0] [] false | 1%nat => mkSwitchCfg [1; 2] [] false | 2%nat => mkSwitchCfg [3] [] false | _ => mkSwitchCfg [] [] false end)
  (fun _ => 600) k_action (fun m => bi && (m =? 3)%nat).

Example C56_example_config : forall bi,
  only_on (k_cfg bi) 0 0 /\ only_on (k_cfg bi) 1 1 /\ only_on (k_cfg bi) 1 2 /\ only_on (k_cfg bi) 2 3 /\
  (forall a, own_parameter (k_cfg bi) a) /\ no_self_dependency k_maps /\ (forall k, sound (k_maps k)) /\ told_apart k_maps /\
  (forall k m, depends (k_maps k) <> Some m) /\ (forall k, y_bi (k_cfg false) k = false) /\ (forall k, sendable (k_cfg bi) k_maps k).
Proof.
  intros bi.
  assert (Hoo : forall j a, (j, a) = (0, 0)%nat \/ (j, a) = (1, 1)%nat \/ (j, a) = (1, 2)%nat \/ (j, a) = (2, 3)%nat -> only_on (k_cfg bi) j a).
  { intros j a [H|[H|[H|H]]]; injection H as -> ->; (split; [reflexivity|split; [reflexivity|]]); intros [|[|[|k]]] Hk; try reflexivity; congruence. }
  split; [apply Hoo; auto|]. split; [apply Hoo; auto|]. split; [apply Hoo; auto|]. split; [apply Hoo; auto|].
  split; [intros [|[|[|[|a]]]] [|[|[|[|k]]]] Hk; cbn; congruence|].
  split; [intros [|[|[|[|k]]]]; discriminate|].
  split; [intros [|[|[|[|k]]]]; apply sound_plain; try reflexivity; repeat constructor; cbn; lia|].
  split; [intros [|[|[|[|d]]]] p x Hd; discriminate|].
  split; [intros [|[|[|[|d]]]] m Hd; discriminate|].
  split; [intros k; reflexivity|].
  intros [|[|[|[|k]]]]; (split; [|exists (SOne 0); split; [reflexivity|]]); cbn; repeat split; try lia; repeat constructor; lia.
Qed.

(* Press and release, device confirms; the device changes the state; a long and a short press. *)
Definition k_ops : list yop :=
  [YInit 0 0; YInit 1 0; YInit 2 0; YRedraw 0; YRedraw 1; YRedraw 2;
   YPoll 0 true 10; YPoll 0 true 11; YReceive 12 (Some (k_sysex 1 50 [0;1])); YPoll 0 false 13;
   YReceive 14 (Some (CC 30 127)); YPoll 0 true 20; YPoll 0 false 21;
   YPoll 1 true 30; YPoll 1 false 700; YPoll 1 true 800; YPoll 1 false 900].
Example C56_example_run : exists s, powered (k_cfg false) k_maps 2000 k_ops s
  [[]; []; []; [YShow 0 100 false]; [YShow 1 101 false]; [YShow 2 102 false];
   [YSet 0%nat (One 1) [k_sysex 1 50 [0;1]]; YReq 0%nat [k_sysex 65 50 []]; YShow 0 100 true]; []; []; [];
   [YShow 1 101 true]; [YSet 0%nat (One 0) [k_sysex 1 50 [0;0]]; YReq 0%nat [k_sysex 65 50 []]; YShow 0 100 false]; [];
   [YSet 2%nat (One 127) [CC 31 127]; YShow 2 102 true]; [YSet 1%nat (One 0) [CC 30 0]; YShow 1 101 false; YSet 2%nat (One 0) [CC 31 0]; YShow 2 102 false];
   [YSet 1%nat (One 127) [CC 30 127]; YShow 1 101 true; YSet 2%nat (One 127) [CC 31 127]; YShow 2 102 true]; [YSet 1%nat (One 0) [CC 30 0]; YShow 1 101 false]] /\
  known s 0%nat = Some 1 /\ lit_after 0 false (concat (match yrun (k_cfg false) (yinit (k_cfg false) k_maps 2000) k_ops with Ok (_, e) => e | Raise => [] end)) = false.
Proof. eexists. split; [split; [apply (C56_example_config false)|vm_compute; reflexivity]|]. vm_compute. auto. Qed.

(* With the protocol the value is stored and shown at once. *)
Example C56_example_bi : exists s, powered (k_cfg true) k_maps 2000 [YInit 3 0; YRedraw 3; YPoll 2 true 10] s
  [[]; [YShow 3 103 false]; [YSet 3%nat (One 1) [k_sysex 1 51 [0;1]]; YShow 3 103 true]] /\ known s 3%nat = Some 1.
Proof. eexists. split; [split; [apply (C56_example_config true)|vm_compute; reflexivity]|]. reflexivity. Qed.

(* The condition that the action has been drawn is needed: pressed before the first display update, the switch commands "on"
   and shows "off". Found by the proof. *)
Example C56_finding_press_before_display : exists s, powered (k_cfg false) k_maps 2000 [YInit 0 0; YPoll 0 true 10] s
  [[]; [YSet 0%nat (One 1) [k_sysex 1 50 [0;1]]; YReq 0%nat [k_sysex 65 50 []]; YShow 0 100 false]].
Proof. eexists. split; [apply (C56_example_config false)|vm_compute; reflexivity]. Qed.
(* A redraw while the command is not confirmed shows the old value again. *)
Example C56_finding_redraw : exists s, powered (k_cfg false) k_maps 2000
    [YInit 0 0; YRedraw 0; YReceive 5 (Some (k_sysex 1 50 [0;0])); YPoll 0 true 10; YRedraw 0] s
  [[]; [YShow 0 100 false]; []; [YSet 0%nat (One 1) [k_sysex 1 50 [0;1]]; YReq 0%nat [k_sysex 65 50 []]; YShow 0 100 true]; [YShow 0 100 false]].
Proof. eexists. split; [apply (C56_example_config false)|vm_compute; reflexivity]. Qed.
