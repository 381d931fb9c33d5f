(* C65: the client and its bidirectional protocol together *)
From Coq Require Import String.
From Verif.Lib Require Import Base.
From Verif.Model Require Import Midi Period Mapping Client Protocol KemperMappings BiClient.
From Verif.Spec Require Import Mapping Client ClientSafe Protocol KemperMappings BiClient.
From Verif.Proofs Require BiClient.
Open Scope Z_scope.

(* The protocol behaves as if all messages and updates went to it alone, although the client hands it only the messages nobody else
   used: C14 and C15 hold for the device as a whole. *)
Theorem C65_protocol : forall bi maps0 lt lease tuner t0 ops s evs,
  (forall m, sound (maps0 m)) -> told_apart maps0 -> sensing_free maps0 -> bd_reached bi maps0 lt lease tuner t0 ops s evs ->
  p_reached lease tuner t0 (proto_ops ops) (bd_proto s) (proto_evs (concat evs)).
Proof. exact (fun bi maps0 lt lease tuner t0 ops s evs Hs Ha Hf => BiClient.c65_protocol bi maps0 lt lease tuner t0 Hs Ha ops Hf s evs). Qed.
Print Assumptions C65_protocol.

(* The client behaves as if it got the calls alone, and was told about the loss of the connection exactly when the protocol reported one:
   C05 to C13 and C58 hold for the device as a whole. *)
Theorem C65_client : forall bi maps0 lt lease tuner t0 ops s evs, bd_reached bi maps0 lt lease tuner t0 ops s evs ->
  exists cevs, reached bi maps0 lt (client_ops ops evs) (bd_client s) cevs /\ concat cevs = client_evs (concat evs).
Proof. exact BiClient.c65_client_gen. Qed.
Print Assumptions C65_client.

(* A loss is reported exactly if the connection was established before, is not now, and the last opening beacon is over 5 seconds old. *)
Theorem C65_lost_when : forall bi maps0 lt lease tuner t0 ops s evs now s' ev,
  (forall m, sound (maps0 m)) -> told_apart maps0 -> sensing_free maps0 -> bd_reached bi maps0 lt lease tuner t0 ops s evs ->
  bdstep bi s (BUpdate now) = Ok (s', ev) ->
  (reports_loss ev = true <-> connected (proto_evs (concat evs)) = false /\ existsb is_online (proto_evs (concat evs)) = true /\
     last_time is_init (proto_evs (concat evs)) + 5000 < now).
Proof. exact (fun bi maps0 lt lease tuner t0 ops s evs now s' ev Hs Ha => BiClient.c65_when bi maps0 lt lease tuner t0 Hs Ha ops s evs now s' ev). Qed.
Print Assumptions C65_lost_when.

(* When a loss is reported, every listener of every parameter handled by the protocol is told exactly once, and nobody else, before the
   new opening beacon is sent; all registrations stay; the values of which a display callback is told are forgotten. Other updates do not
   touch the client. *)
Theorem C65_lost_told : forall bi maps0 lt lease tuner t0 ops s evs now s' ev,
  bd_reached bi maps0 lt lease tuner t0 ops s evs -> bdstep bi s (BUpdate now) = Ok (s', ev) ->
  (reports_loss ev = true -> exists tev w, ev = OfProto (PLost now) :: map OfClient tev ++ [OfProto (PSend now true w)] /\
     Forall (fun e => exists l m, e = EvTerminated l m) tev /\
     (forall l m, count (is_terminated l m) tev = if bi m && existsb (listener_eqb l) (enlisted (bd_client s) m) then 1%nat else 0%nat) /\
     reqs (bd_client s') = reqs (bd_client s) /\
     (forall m i, bi m = true -> In (LExt (mkExt i true)) (enlisted (bd_client s) m) -> val (maps (bd_client s') m) = None)) /\
  (reports_loss ev = false -> bd_client s' = bd_client s /\ client_evs ev = []).
Proof. exact BiClient.c65_lost. Qed.
Print Assumptions C65_lost_told.

(* If the device falls silent, the loss is reported: by the first update that is 5 seconds after the last opening beacon and comes after
   one that is 1.5 seconds after the last sign of life. *)
Theorem C65_silence : forall bi maps0 lt lease tuner t0 ops s evs t a u1 b u2 s' evs',
  (forall m, sound (maps0 m)) -> told_apart maps0 -> sensing_free maps0 -> bd_reached bi maps0 lt lease tuner t0 ops s evs ->
  connected (proto_evs (concat evs)) = true -> last_sensed (proto_ops ops) t ->
  silent a -> silent b -> t + 1500 < u1 -> last_time is_init (proto_evs (concat evs)) + 5000 < u2 ->
  bdrun bi s (a ++ BUpdate u1 :: b ++ [BUpdate u2]) = Ok (s', evs') -> exists u, In (OfProto (PLost u)) (concat evs').
Proof.
  exact (fun bi maps0 lt lease tuner t0 ops s evs t a u1 b u2 s' evs' Hs Ha =>
    BiClient.c65_silence bi maps0 lt lease tuner t0 Hs Ha ops s evs t a u1 b u2 s' evs').
Qed.
Print Assumptions C65_silence.

(* No exception, whatever arrives and whenever the connection breaks. *)
Theorem C65_never_raises : forall bi maps0 lt lease tuner t0 ops,
  no_self_dependency maps0 -> (forall m, sound (maps0 m)) -> told_apart maps0 -> orderly bi maps0 (calls ops) ->
  exists s evs, bd_reached bi maps0 lt lease tuner t0 ops s evs.
Proof. exact (fun bi maps0 lt lease tuner t0 ops Hn Hs Ha => BiClient.c65_history bi maps0 lt lease tuner t0 Hs Ha ops Hn). Qed.
Print Assumptions C65_never_raises.

(* For the parameters of the device the conditions hold, if nobody asks the client for the sensing message itself. *)
Theorem C65_kemper : forall ps r is bi lt lease tuner t0 ops, kgets [] ps = Ok (r, is) -> ~ In Sense ps -> orderly bi (objects r) (calls ops) ->
  sensing_free (objects r) /\ exists s evs, bd_reached bi (objects r) lt lease tuner t0 ops s evs.
Proof. exact BiClient.c65_kemper. Qed.
Print Assumptions C65_kemper.

(* The protocol handles exactly the parameters the device reports by itself. *)
Theorem C65_handled : forall ps r is, kgets [] ps = Ok (r, is) ->
  (forall p i, In (p, i) is -> (is_bidirectional r i = true <-> reported p)) /\ (forall i, nth_error r i = None -> is_bidirectional r i = false).
Proof. intros ps r is H. split; [intros p i; exact (BiClient.handled ps r is p i H)|apply BiClient.not_handled]. Qed.
Print Assumptions C65_handled.

(* The set-up: a handled parameter (0), a display and a watching listener; connection, value, silence, loss, connection, value. *)
Definition b_ps : list kparam := [EffectState SlotA; RigId; AmpGain].
Definition b_reg : registry := match kgets [] b_ps with Ok (r, _) => r | Raise => [] end.
Definition b_sense : msg := SysEx [0; 32; 51] [0; 127; 126; 0; 127; 3].
Definition b_value (v : Z) : msg := SysEx [0; 32; 51] [0; 0; 1; 0; 50; 3; 0; v].
Definition b_show : ext := mkExt 0 true.
Definition b_watch : ext := mkExt 1 false.
Definition b_ops : list bdop :=
  [BRegister 1 0%nat (Some b_show); BRegister 2 0%nat (Some b_watch); BRequest 3 2%nat (Some b_show); BUpdate 5001; BReceive 5100 (Some b_sense);
   BReceive 5101 (Some (b_value 1)); BReceive 5600 (Some b_sense); BSet 5601 0%nat (One 0)].
Definition b_after : list bdop := [BReceive 7000 (Some (CC 32 0)); BUpdate 7101; BReceive 8000 None; BUpdate 10002].

Example C65_example_set : kgets [] b_ps = Ok (b_reg, [(EffectState SlotA, 0%nat); (RigId, 1%nat); (AmpGain, 2%nat)]) /\ ~ In Sense b_ps /\
  map (is_bidirectional b_reg) [0; 1; 2; 3]%nat = [true; false; false; false].
Proof. split; [reflexivity|]. split; [|reflexivity]. intros [H|[H|[H|[]]]]; discriminate H. Qed.
Example C65_example_orderly : orderly (is_bidirectional b_reg) (objects b_reg) (calls (b_ops ++ b_after)).
Proof.
  split.
  - intros now m a Hi. cbn in Hi. repeat (destruct Hi as [Hi|Hi]; try discriminate Hi); try contradiction. injection Hi as <- <- <-.
    split; [cbn; auto|]. intros _. split; [reflexivity|eauto].
  - intros pre o post m E Hb (n & a & Hs) Hu. cbn in Hs. repeat (destruct Hs as [Hs|Hs]; try discriminate Hs); try contradiction.
    injection Hs as <- <- <-. cbn in E. destruct pre as [|o1 pre]; [injection E as <- _; destruct Hu|].
    injection E as <- _. exists 1, (Some b_show). left. reflexivity.
Qed.
Example C65_example_before : exists s evs, bd_reached (is_bidirectional b_reg) (objects b_reg) 2000 30 true 0 b_ops s evs /\
  connected (proto_evs (concat evs)) = true /\ last_sensed (proto_ops b_ops) 5600 /\ last_time is_init (proto_evs (concat evs)) = 5001 /\
  val (maps (bd_client s) 0%nat) = Some (VNum 0).
Proof.
  eexists _, _. split; [split; [|vm_compute; reflexivity]|].
  - intros [|[|[|[|m]]]]; discriminate.
  - split; [reflexivity|]. split; [|split; reflexivity].
    exists [PUpdate 5001; PReceive 5100 b_sense; PReceive 5101 (b_value 1)], b_sense, []. split; [reflexivity|]. split; [constructor|constructor].
Qed.
Example C65_example_silent : silent b_after /\ b_after = [BReceive 7000 (Some (CC 32 0))] ++ BUpdate 7101 :: [BReceive 8000 None] ++ [BUpdate 10002].
Proof. split; [|reflexivity]. intros n x [H|[H|[H|[H|[]]]]]; try discriminate H. injection H as <- <-. intros Hx. inversion Hx. Qed.
Example C65_example_lost : exists s evs, bdrun (is_bidirectional b_reg) (bdinit (objects b_reg) 2000 30 true 0) (b_ops ++ b_after) = Ok (s, evs) /\
  nth 9 evs [] = [OfProto (POffline 7101)] /\
  nth 11 evs [] = [OfProto (PLost 10002); OfClient (EvTerminated (LExt b_show) 0%nat); OfClient (EvTerminated (LExt b_watch) 0%nat);
                   OfProto (PSend 10002 true (the_beacon 30 true true))] /\
  val (maps (bd_client s) 0%nat) = None /\ enlisted (bd_client s) 0%nat = [LExt b_show; LExt b_watch].
Proof. eexists _, _. split; [vm_compute; reflexivity|]. vm_compute. auto. Qed.

(* If a parameter did listen to the sensing message, the protocol would never hear of the device: the condition is needed. *)
Theorem C65_sensing_free_needed_refuted : ~ forall bi maps0 lt lease tuner t0 ops s evs,
  (forall m, sound (maps0 m)) -> told_apart maps0 -> bd_reached bi maps0 lt lease tuner t0 ops s evs ->
  p_reached lease tuner t0 (proto_ops ops) (bd_proto s) (proto_evs (concat evs)).
Proof.
  intros H. pose (mp := fun m : mid => match m with 0%nat => mkMapping "Sense" TNone TNone (TOne b_sense) None Numeric None false None | _ => unused end).
  assert (Hs : forall m, sound (mp m)).
  { intros [|m]; (apply sound_plain; [reflexivity|repeat constructor|reflexivity]); cbn; lia. }
  assert (Ha : told_apart mp) by (intros [|d] p x Hd; discriminate Hd).
  destruct (bdrun (fun _ => true) (bdinit mp 2000 30 true 0) [BRegister 1 0%nat (Some b_show); BUpdate 5001; BReceive 5002 (Some b_sense)]) as [[s evs]|] eqn:E;
    [|vm_compute in E; discriminate E].
  assert (Hn : no_self_dependency mp) by (intros [|d]; discriminate).
  specialize (H _ _ _ _ _ _ _ _ _ Hs Ha (conj Hn E)). unfold p_reached in H. apply (f_equal snd) in H.
  vm_compute in E. injection E as <- <-. vm_compute in H. discriminate H.
Qed.
Print Assumptions C65_sensing_free_needed_refuted.
