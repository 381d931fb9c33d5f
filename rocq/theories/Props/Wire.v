(* C62: the client sends nothing but its configured messages *)
From Coq Require Import String.
From Verif.Lib Require Import Base.
From Verif.Model Require Import Midi Period Mapping Client.
From Verif.Spec Require Import Mapping Client System Wire.
From Verif.Proofs Require Wire.
Open Scope Z_scope.

(* A set call sends the set messages of the parameter as configured at start, all of them and in order, each with its value filled
   in, whatever has been set before; and once. *)
Theorem C62_set : forall bi maps0 lt ops c evs now m a c' ev,
  reached bi maps0 lt ops c evs -> cstep bi c (Set_ now m a) = Ok (c', ev) ->
  filter is_set ev = (if truthy (set_t (maps0 m)) then [EvSet m (filled (set_t (maps0 m)) a)] else []).
Proof. exact Wire.c62_set. Qed.
Print Assumptions C62_set.

(* A request for a parameter consists of its request messages. *)
Theorem C62_request : forall bi maps0 lt ops c evs o c' ev m w,
  reached bi maps0 lt ops c evs -> cstep bi c o = Ok (c', ev) -> In (EvReqSent m w) ev -> w = messages (request_t (maps0 m)).
Proof. exact Wire.c62_request. Qed.
Print Assumptions C62_request.

(* There is nothing else. *)
Theorem C62_nothing_else : forall bi maps0 lt ops c evs o c' ev x,
  reached bi maps0 lt ops c evs -> cstep bi c o = Ok (c', ev) -> In x (sends ev) ->
  (exists m, In x (messages (request_t (maps0 m)))) \/ (exists now m a, o = Set_ now m a /\ In x (filled (set_t (maps0 m)) a)).
Proof. exact Wire.c62_everything. Qed.
Print Assumptions C62_nothing_else.

(* Two parameters: a rig in two messages, and an effect slot with a short template. *)
Definition w_maps (m : mid) : mapping :=
  match m with
  | 0%nat => mkMapping "Rig" (TMany [Some (CC 32 0); None; Some (PC 0)]) (TMany [None; Some (CC 3 1); Some (CC 4 1)]) (TMany [Some (CC 32 0); Some (PC 0)]) None Numeric None true None
  | 1%nat => mkMapping "Slot" (TOne (SysEx [0;32;51] [0;0;1;0;50])) (TOne (SysEx [0;32;51] [0;0;65;0;50;3])) (TOne (SysEx [0;32;51] [0;0;1;0;50;3])) None Numeric None false None
  | _ => mkMapping "Unused" TNone TNone TNone None Numeric None false None
  end.
Example C62_example : exists c, reached (fun _ => false) w_maps 2000
    [Set_ 1 0%nat (Many [3; 9; 4]); Set_ 2 1%nat (One 300); Set_ 3 0%nat (Many [1; 9; 2; 5]); Set_ 4 1%nat (One 2); Request 5 0%nat None; Request 6 1%nat None] c
  [[EvSet 0%nat [CC 32 3; PC 4]]; [EvSet 1%nat [SysEx [0;32;51] [0;0;1;0;50;0;2;44]]]; [EvSet 0%nat [CC 32 1; PC 2]];
   [EvSet 1%nat [SysEx [0;32;51] [0;0;1;0;50;0;0;2]]]; [EvOpened 0%nat 5; EvReqSent 0%nat [CC 3 1; CC 4 1]];
   [EvOpened 1%nat 6; EvReqSent 1%nat [SysEx [0;32;51] [0;0;65;0;50;3]]]].
Proof. eexists. split; [intros [|[|m]]; discriminate|vm_compute; reflexivity]. Qed.
