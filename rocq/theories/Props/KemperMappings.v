(* C63: the parameters of the device are never confused *)
From Coq Require Import String.
From Verif.Lib Require Import Base.
From Verif.Model Require Import Midi Period Mapping Client KemperMappings.
From Verif.Spec Require Import Mapping Client ClientSafe Wire KemperMappings.
From Verif.Proofs Require KemperMappings.
Open Scope Z_scope.

(* A message that reports one parameter reports exactly those that stand for the same quantity of the device. *)
Theorem C63_reports : forall p q d e x,
  hears x (kmapping p d) -> (hears x (kmapping q e) <-> reports p = reports q).
Proof. exact KemperMappings.c63_reports. Qed.
Print Assumptions C63_reports.

(* Setting a parameter addresses another one exactly if both change the same quantity. *)
Theorem C63_commands : forall p q d e x y,
  In x (messages (set_t (kmapping p d))) -> In y (messages (set_t (kmapping q e))) -> (addressed x y <-> changes p = changes q).
Proof. exact KemperMappings.c63_commands. Qed.
Print Assumptions C63_commands.

(* The answer of the device to the request of a parameter gives that parameter the value answered, whatever happened to the
   mapping before. *)
Theorem C63_answer : forall p d m q v x,
  name m = name (kmapping p d) -> request_t m = request_t (kmapping p d) -> response_t m = response_t (kmapping p d) ->
  typ m = typ (kmapping p d) -> two_part m = two_part (kmapping p d) ->
  request_t m = TOne q -> answers q v x -> parse m x = Ok (with_val m (Some v), true).
Proof. exact KemperMappings.c63_answer. Qed.
Print Assumptions C63_answer.

(* Asking for mappings in any order, any number of times, never fails; the same parameter is the same object, different
   parameters are different objects, and the names of rig parts depend on the one object of the rig date. *)
Theorem C63_objects : forall ps, exists r is, kgets [] ps = Ok (r, is) /\ map fst is = ps /\
  (forall p i, In (p, i) is -> exists d, nth_error r i = Some (kmapping p d) /\
     (k_dep (kemper p) = true -> nth_error r d = Some (kmapping RigDate 0))) /\
  (forall p i q j, In (p, i) is -> In (q, j) is -> (i = j <-> p = q)).
Proof. exact KemperMappings.c63_objects. Qed.
Print Assumptions C63_objects.

(* A client working with mappings of the device runs every orderly history to its end, whatever messages arrive. *)
Theorem C63_client : forall ps r is bi lt ops, kgets [] ps = Ok (r, is) -> orderly bi (objects r) ops ->
  exists c evs, reached bi (objects r) lt ops c evs.
Proof. exact KemperMappings.c63_client. Qed.
Print Assumptions C63_client.

(* Both delay parameters hear the same message, and nobody else; the commands with and without spillover differ. *)
Definition dly_on : msg := SysEx [0; 32; 51] [0; 0; 1; 0; 60; 3; 0; 1].
Example C63_example_reports : hears dly_on (kmapping (EffectState SlotDLY) 0) /\ hears dly_on (kmapping (EffectState SlotDLYns) 0) /\
  ~ hears dly_on (kmapping (EffectState SlotREV) 0) /\ ~ hears dly_on (kmapping (EffectType SlotDLY) 0).
Proof.
  assert (H : hears dly_on (kmapping (EffectState SlotDLY) 0)) by (eexists; split; [left; reflexivity|constructor; reflexivity]).
  split; [exact H|]. repeat split; try (rewrite (C63_reports _ _ _ 0%nat _ H); discriminate). apply (C63_reports _ _ _ 0%nat _ H). reflexivity.
Qed.
Example C63_example_commands : ~ addressed (CC 27 0) (CC 26 0).
Proof. rewrite (C63_commands (EffectState SlotDLY) (EffectState SlotDLYns) 0 0); [discriminate|left; reflexivity|left; reflexivity]. Qed.
Example C63_example_answer : exists q, request_t (kmapping RigName 4) = TOne q /\
  answers q (VStr [72; 105]) (SysEx [0; 32; 51] [0; 0; 3; 0; 0; 1; 72; 105; 0]).
Proof. eexists. split; [reflexivity|]. exact (answers_string _ 2 127 0 0 1 0 0 [72; 105]). Qed.

Definition k_list : list kparam := [EffectState SlotA; RigName; AmpName; RigName; SelectRig Rig2; EffectState SlotA; RigDate].
Example C63_example_objects : exists r, kgets [] k_list =
  Ok (r, [(EffectState SlotA, 0); (RigName, 2); (AmpName, 3); (RigName, 2); (SelectRig Rig2, 4); (EffectState SlotA, 0); (RigDate, 1)]%nat).
Proof. eexists. vm_compute. reflexivity. Qed.

(* A client with these mappings asks for the rig name, sets the effect, selects rig 2 and hears the rig number. *)
Definition k_ops : list op :=
  [Register 1 0%nat None; Request 2 2%nat (Some (mkExt 7 true)); Receive 3 (Some (SysEx [0; 32; 51] [0; 0; 3; 0; 0; 3; 65; 0]));
   Set_ 4 0%nat (One 1); Set_ 5 4%nat (One 1); Receive 6 (Some (CC 32 0)); Receive 7 (Some (PC 1))].
Definition k_objects : mid -> mapping :=
  match kgets [] k_list with Ok (r, _) => objects r | Raise => objects [] end.
Example C63_example_client : orderly (fun m => (m =? 0)%nat) k_objects k_ops.
Proof.
  split.
  - intros now m a Hi. cbn in Hi. repeat (destruct Hi as [Hi|Hi]; [try discriminate Hi; injection Hi as <- <- <-|]); try contradiction.
    + split; [split; [reflexivity|exact I]|]. intros _. split; [reflexivity|eauto].
    + split; [split; [reflexivity|exact I]|discriminate].
  - intros pre o post m E Hb _ Hu. apply Nat.eqb_eq in Hb. subst m.
    destruct pre as [|o1 pre]; cbn in E; injection E as <- E; [destruct Hu|]. exists 1, None. left. reflexivity.
Qed.
