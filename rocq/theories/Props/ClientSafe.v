(* C58: the client raises no exception *)
From Coq Require Import String.
From Verif.Lib Require Import Base.
From Verif.Model Require Import Midi Period Mapping Client.
From Verif.Spec Require Import Mapping Client ClientSafe.
From Verif.Proofs Require ClientSafe.
Open Scope Z_scope.

(* In every reached state every allowed call succeeds, whatever message arrives. *)
Theorem C58_never_raises : forall bi maps0 lt ops c evs o,
  (forall m, sound (maps0 m)) -> told_apart maps0 -> reached bi maps0 lt ops c evs -> allowed bi maps0 c o ->
  exists c' ev, cstep bi c o = Ok (c', ev).
Proof.
  exact (fun bi maps0 lt ops c evs o Hs Ha Hr => ClientSafe.c58_step bi maps0 lt (proj1 Hr) Hs Ha ops c evs o Hr).
Qed.
Print Assumptions C58_never_raises.

(* Every orderly history runs to its end. *)
Theorem C58_history : forall bi maps0 lt ops,
  no_self_dependency maps0 -> (forall m, sound (maps0 m)) -> told_apart maps0 -> orderly bi maps0 ops ->
  exists c evs, reached bi maps0 lt ops c evs.
Proof.
  exact (fun bi maps0 lt ops Hn Hs Ha Ho => match ClientSafe.c58_history bi maps0 lt Hn Hs Ha ops Ho with
    ex_intro _ c (ex_intro _ evs H) => ex_intro _ c (ex_intro _ evs (conj Hn H)) end).
Qed.
Print Assumptions C58_history.

(* Without a bidirectional protocol only the set values matter. *)
Theorem C58_plain_client : forall maps0 lt ops,
  no_self_dependency maps0 -> (forall m, sound (maps0 m)) -> told_apart maps0 ->
  (forall now m a, In (Set_ now m a) ops -> fits (maps0 m) a) ->
  exists c evs, reached (fun _ => false) maps0 lt ops c evs.
Proof.
  intros maps0 lt ops Hn Hs Ha Hf. apply C58_history; auto. split; [|intros; discriminate].
  intros now m a Hi. split; [eauto|discriminate].
Qed.
Print Assumptions C58_plain_client.

(* A set-up with a string parameter (0), a parameter depending on it (1), a rig number in two parts (2) and a parameter
   handled by the protocol (3). *)
Definition s_sysex (f a : Z) (tail : list Z) : msg := SysEx [0;32;51] ([2;127;f;0;a;1] ++ tail).
Definition s_maps (m : mid) : mapping :=
  match m with
  | 0%nat => mkMapping "Rig name" TNone (TOne (s_sysex 67 0 [])) (TOne (s_sysex 3 0 [])) None Str None false None
  | 1%nat => mkMapping "Effect type" TNone (TOne (s_sysex 65 50 [])) (TOne (s_sysex 1 50 [])) None Numeric (Some 0%nat) false None
  | 2%nat => mkMapping "Rig" (TMany [Some (CC 32 0); Some (PC 0)]) TNone (TMany [Some (CC 32 0); Some (PC 0)]) None Numeric None true None
  | 3%nat => mkMapping "State" (TOne (s_sysex 1 51 [0;0])) (TOne (s_sysex 65 51 [])) (TOne (s_sysex 1 51 [])) None Numeric None false None
  | _ => mkMapping "Unused" TNone TNone TNone None Numeric None false None
  end.
Definition s_bi (m : mid) : bool := (m =? 3)%nat.
Definition s_ext : ext := mkExt 0 true.
Definition s_ops : list op :=
  [Register 1 3%nat (Some s_ext); Register 2 2%nat (Some s_ext); Request 3 1%nat (Some s_ext); Receive 4 (Some (s_sysex 3 0 [65; 0]));
   Receive 5 (Some (CC 32 1)); Set_ 6 2%nat (Many [0; 3]); Set_ 7 3%nat (One 1); Receive 8 (Some (PC 4)); Lost;
   Receive 9 (Some (SysEx [0;32;51] [])); Receive 10 (Some (s_sysex 1 50 [3; 4]))].

Example C58_example_maps : no_self_dependency s_maps /\ (forall m, sound (s_maps m)) /\ told_apart s_maps.
Proof.
  split; [intros [|[|[|[|m]]]]; discriminate|]. split.
  - intros [|[|[|[|m]]]]; try (apply sound_plain; [reflexivity|repeat constructor|reflexivity]; cbn; lia).
    eapply sound_two; try reflexivity. repeat constructor.
  - intros [|[|[|[|d]]]] p x Hd; try discriminate. injection Hd as <-. intros (r & Hr & Ha) (r' & Hr' & Ha'). cbn in Hr, Hr'.
    destruct Hr as [<-|[]]. destruct Hr' as [<-|[]]. inv Ha. inv Ha'.
    match goal with H1 : ?a = _, H2 : ?a = _ |- _ => rewrite H1 in H2; discriminate H2 end.
Qed.
Example C58_example : orderly s_bi s_maps s_ops.
Proof.
  split.
  - intros now m a Hi. cbn in Hi. repeat (destruct Hi as [Hi|Hi]; [try discriminate Hi; injection Hi as <- <- <-|]); try contradiction.
    + split; [|discriminate]. cbn. repeat split; try lia. intros [|[|[|i]]] x v Hx; cbn in Hx; try discriminate; injection Hx as <-; intros _; exact I.
    + split; [|intros _; split; [reflexivity|eauto]]. cbn. repeat split; try lia. repeat constructor; lia.
  - intros pre o post m E Hb _ Hu. unfold s_bi in Hb. apply Nat.eqb_eq in Hb. subst m.
    destruct pre as [|o1 pre]; cbn in E; injection E as <- E; [destruct Hu|]. exists 1, (Some s_ext). left. reflexivity.
Qed.
Example C58_example_runs : exists c, reached s_bi s_maps 2000 s_ops c
  [[EvOpened 3%nat 1; EvJoined (LExt s_ext) 3%nat]; [EvOpened 2%nat 2; EvJoined (LExt s_ext) 2%nat];
   [EvOpened 0%nat 3; EvJoined (LDep 1%nat) 0%nat; EvReqSent 0%nat [s_sysex 67 0 []]];
   [EvChanged (LDep 1%nat) 0%nat (Some (VStr [65])); EvOpened 1%nat 4; EvJoined (LExt s_ext) 1%nat; EvReqSent 1%nat [s_sysex 65 50 []]; EvAnswered 0%nat 4];
   [EvUnused (CC 32 1)]; [EvSet 2%nat [CC 32 0; PC 3]];
   [EvSet 3%nat [s_sysex 1 51 [0; 1]]; EvChanged (LExt s_ext) 3%nat (Some (VNum 1))];
   [EvChanged (LExt s_ext) 2%nat (Some (VNum 132))]; [EvTerminated (LExt s_ext) 3%nat]; [EvUnused (SysEx [0;32;51] [])];
   [EvChanged (LExt s_ext) 1%nat (Some (VNum 388)); EvAnswered 1%nat 10]].
Proof. eexists. split; [apply C58_example_maps|vm_compute; reflexivity]. Qed.

(* The condition that a message is never addressed to a parameter and to the one it depends on cannot be dropped: the
   dependent parameter can be answered, and asked for again by the same message, while the list is being worked on. *)
Definition u_maps (m : mid) : mapping :=
  match m with
  | 0%nat => mkMapping "Program" TNone (TOne (CC 1 0)) (TOne (PC 0)) None Numeric None false None
  | 1%nat => mkMapping "Rig" TNone (TOne (CC 2 0)) (TMany [Some (CC 32 0); Some (PC 0)]) None Numeric (Some 0%nat) true None
  | _ => mkMapping "Unused" TNone TNone TNone None Numeric None false None
  end.
Theorem C58_told_apart_needed_refuted : exists ops c evs x,
  (forall m, sound (u_maps m)) /\ reached (fun _ => false) u_maps 2000 ops c evs /\
  cstep (fun _ => false) c (Receive 9 (Some x)) = Raise.
Proof.
  eexists [Request 1 1%nat (Some s_ext); Receive 2 (Some (PC 5)); Request 3 1%nat (Some s_ext); Receive 4 (Some (CC 32 1))], _, _, (PC 7).
  split; [|split; [split; [intros [|[|m]]; discriminate|vm_compute; reflexivity]|vm_compute; reflexivity]].
  intros [|[|m]]; try (apply sound_plain; [reflexivity|repeat constructor|reflexivity]).
  eapply sound_two; try reflexivity. repeat constructor.
Qed.
Print Assumptions C58_told_apart_needed_refuted.
