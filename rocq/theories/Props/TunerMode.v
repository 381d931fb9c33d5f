(* C64: the switches in tuner mode. *)
From Verif.Lib Require Import Base.
From Verif.Model Require Import Period Switch TunerMode.
From Verif.Spec Require Import Switch TunerMode.
From Verif.Proofs Require Import TunerMode.

(* After any history, the command that leaves tuner mode is given exactly when a switch is released in tuner mode after some switch was
   pressed in tuner mode (and not yet released there), and only once. *)
Theorem C64_leave : forall c h o, calm c h ->
  (In TOff (outputs c h o) <-> tuner_release c h o /\ armed c h) /\ (length (filter is_off (outputs c h o)) <= 1)%nat.
Proof. exact off_iff. Qed.
Print Assumptions C64_leave.

(* The release of the switch that enabled the tuner does not disable it: as long as no switch has been pressed in tuner mode, none of the
   operations gives the command. *)
Theorem C64_enabling_partial : forall c h1 h2 o, calm c (h1 ++ h2) -> ~ armed c h1 ->
  (forall k1 x k2, h2 = k1 ++ x :: k2 -> ~ tuner_press c (h1 ++ k1) x) -> ~ In TOff (outputs c (h1 ++ h2) o).
Proof. exact enabling. Qed.
Print Assumptions C64_enabling_partial.

(* In tuner mode no action of any switch is pushed or released, unless this is configured. *)
Theorem C64_no_actions : forall c h o e, calm c h -> tm_process c = false -> in_tuner h -> In e (outputs c h o) -> is_act e = false.
Proof. exact no_actions. Qed.
Print Assumptions C64_no_actions.

(* If it is configured, the actions of a switch without hold actions are pushed when it goes down, and released when it goes up if the
   release also leaves tuner mode. *)
Theorem C64_processed : forall c h j now en, calm c h -> tm_process c = true -> in_tuner h -> (j < tm_n c)%nat -> plain c j ->
  outputs c h (TPoll j true now en) = (if foot j h false then [] else pushes c j en) /\
  (down j h -> armed c h -> outputs c h (TPoll j false now en) = TOff :: releases c j en) /\
  (~ down j h \/ ~ armed c h -> outputs c h (TPoll j false now en) = []).
Proof. exact processed. Qed.
Print Assumptions C64_processed.

(* Outside tuner mode a switch without hold actions works as if there was no tuner. *)
Theorem C64_outside : forall c h j p now en, calm c h -> ~ in_tuner h -> (j < tm_n c)%nat -> plain c j ->
  outputs c h (TPoll j p now en) =
  match foot j h false, p with false, true => pushes c j en | true, false => releases c j en | _, _ => [] end.
Proof. exact outside. Qed.
Print Assumptions C64_outside.

(* The display is switched to the tuner when tuner mode begins and back when it ends, and at no other time. *)
Theorem C64_display : forall c h o b, In (TShow b) (outputs c h o) <->
  (b = true /\ ~ in_tuner h /\ in_tuner (h ++ [o])) \/ (b = false /\ in_tuner h /\ ~ in_tuner (h ++ [o])).
Proof. exact display. Qed.
Print Assumptions C64_display.

(* At the beginning all switches get dark (unless their actions are processed); at the end the actions of all switches are reset. *)
Theorem C64_lights : forall c h j,
  (In (TDark j) (outputs c h (TValue (Some 1))) <-> tm_process c = false /\ (j < tm_n c)%nat) /\
  (forall v, v <> Some 1 -> (In (TReset j) (outputs c h (TValue v)) <-> (j < tm_n c)%nat)).
Proof. exact lights. Qed.
Print Assumptions C64_lights.

Definition yes64 : Z -> bool := fun _ => true.
Definition cfg64 : tmcfg := mkTmcfg 2 (fun j => if (j =? 0)%nat then mkSwitchCfg [1] [] false else mkSwitchCfg [2] [3] false) (fun _ => 600) false.
Definition D (j : nat) (t : Z) : tmop := TPoll j true t yes64.
Definition U (j : nat) (t : Z) : tmop := TPoll j false t yes64.

(* Switch 0 enables the tuner and is released; then switch 1 is pressed and released. *)
Definition hist64 : list tmop := [D 0 10; TValue (Some 1); U 0 20; D 1 30; D 1 40].
Example C64_ex_calm : calm cfg64 hist64.
Proof.
  intros j Hj. cbn in Hj. destruct j as [|[|j]]; [left; reflexivity| |lia]. right. split; [reflexivity|]. split; [reflexivity|].
  intros h1 h2 E _. do 6 (destruct h1 as [|? h1]; [try discriminate E; unfold down; cbn; try discriminate | try (injection E as <- E)]).
  all: try (destruct h1; discriminate E). all: intros X; try discriminate X.
Qed.
Example C64_ex :
  outputs cfg64 [D 0 10; TValue (Some 1)] (U 0 20) = [] /\
  outputs cfg64 hist64 (U 1 50) = [TOff] /\
  outputs cfg64 (hist64 ++ [U 1 50]) (TValue (Some 0)) = [TShow false; TReset 0; TReset 1] /\
  outputs cfg64 [] (D 0 10) = [TAct 0 (Push 1)] /\
  outputs cfg64 [D 0 10] (TValue (Some 1)) = [TShow true; TDark 0; TDark 1].
Proof. repeat split; reflexivity. Qed.
Example C64_ex_armed : armed cfg64 hist64 /\ tuner_release cfg64 hist64 (U 1 50) /\ ~ armed cfg64 [D 0 10; TValue (Some 1)].
Proof.
  assert (in_tuner [D 0 10; TValue (Some 1); U 0 20]) by reflexivity.
  split; [|split].
  - exists [D 0 10; TValue (Some 1); U 0 20], (D 1 30), [D 1 40]. split; [reflexivity|]. split.
    + split; [reflexivity|]. exists 1%nat, 30, yes64. repeat split; cbn; auto; try lia. discriminate.
    + intros k1 o' k2 E [_ [j [n [e [_ [-> _]]]]]]. destruct k1 as [|x k1]; [discriminate E|]. injection E as _ E. destruct k1; discriminate E.
  - split; [reflexivity|]. exists 1%nat, 50, yes64. repeat split; cbn; auto; lia.
  - intros [h1 [o [h2 [E [[Ht [j [n [e [_ [-> _]]]]]] _]]]]].
    destruct h1 as [|a h1]; [discriminate Ht|]. injection E as <- E. destruct h1 as [|b h1]; [discriminate E|]. injection E as <- E. destruct h1; discriminate E.
Qed.

(* Finding: the flag set by a press in tuner mode survives the end of tuner mode. If tuner mode was ended at the device while a switch was
   down, the next switch that enables the tuner disables it again when it is released, although no switch was pressed in tuner mode. *)
Theorem C64_enabling_refuted : exists c h1 h2 o,
  calm c (h1 ++ h2) /\ ~ in_tuner h1 /\ h2 = [D 0 100; TValue (Some 1)] /\ o = U 0 110 /\ ~ down 0 h1 /\ In TOff (outputs c (h1 ++ h2) o).
Proof.
  exists (mkTmcfg 1 (fun _ => mkSwitchCfg [1] [] false) (fun _ => 600) false).
  exists [TValue (Some 1); D 0 10; TValue (Some 0); U 0 20], [D 0 100; TValue (Some 1)], (U 0 110).
  split; [intros j _; left; reflexivity|]. unfold in_tuner, down. cbn. repeat split; try discriminate. left. reflexivity.
Qed.
Print Assumptions C64_enabling_refuted.

(* Finding: a switch pressed in tuner mode and released after its end gives its actions a release without a push; one that is down when
   tuner mode begins gives them a push without a release. *)
Theorem C64_paired_refuted : exists c, plain c 0 /\
  (exists h o, outputs c h o = [TAct 0 (Release 1)] /\ forall h1 x h2, h = h1 ++ x :: h2 -> ~ In (TAct 0 (Push 1)) (outputs c h1 x)) /\
  (exists h o, outputs c h o = [TAct 0 (Push 1)] /\ outputs c (h ++ [o]) (TValue (Some 1)) <> [] /\
     outputs c (h ++ [o; TValue (Some 1)]) (U 0 30) = [] /\ outputs c (h ++ [o; TValue (Some 1); U 0 30]) (TValue (Some 0)) = [TShow false; TReset 0]).
Proof.
  exists (mkTmcfg 1 (fun _ => mkSwitchCfg [1] [] false) (fun _ => 600) false). split; [reflexivity|]. split.
  - exists [TValue (Some 1); D 0 10; TValue (Some 0)], (U 0 20). split; [reflexivity|].
    intros h1 x h2 E. destruct h1 as [|a h1]; [injection E as <- _; vm_compute; intros X; repeat destruct X as [X|X]; try discriminate X; try contradiction|]. injection E as <- E.
    destruct h1 as [|b h1]; [injection E as <- _; vm_compute; intros X; repeat destruct X as [X|X]; try discriminate X; try contradiction|]. injection E as <- E.
    destruct h1 as [|d h1]; [injection E as <- _; vm_compute; intros X; repeat destruct X as [X|X]; try discriminate X; try contradiction|]. injection E as <- E. destruct h1; discriminate E.
  - exists [], (D 0 10). split; [reflexivity|]. split; [discriminate|]. split; reflexivity.
Qed.
Print Assumptions C64_paired_refuted.

(* Finding: without the condition on hold actions the claim fails. A switch with hold actions that is down when tuner mode begins keeps
   its hold time running: in tuner mode its hold actions are still triggered. *)
Theorem C64_hold_refuted : exists c h o, tm_process c = false /\ in_tuner h /\ outputs c h o = [TAct 1 (Push 3); TAct 1 (Release 3)].
Proof. exists cfg64, [D 1 10; TValue (Some 1)], (D 1 700). repeat split; reflexivity. Qed.
Print Assumptions C64_hold_refuted.
