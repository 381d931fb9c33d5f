(* C125: devices and their inputs. *)
From Coq Require Import String.
From Verif.Lib Require Import Base.
From Verif.Model Require Import Label Hardware.
From Verif.Spec Require Import Hardware.
Local Open Scope list_scope.
Local Open Scope string_scope.

Lemma prefix_spec p : forall s, String.prefix p s = true <-> exists b, s = p ++ b.
Proof.
  induction p as [|c p IH]; intros s.
  - split; [intros _; exists s; reflexivity|]. intros _. destruct s; reflexivity.
  - destruct s as [|d s]; cbn; [split; [discriminate|intros [b B]; discriminate]|]. destruct (Ascii.ascii_dec c d) as [->|N].
    + rewrite IH. split; intros [b B]; exists b; congruence.
    + split; [discriminate|]. intros [b B]. congruence.
Qed.
Lemma includes_spec p s : includes p s = true <-> within p s.
Proof.
  induction s as [|c s IH]; unfold within in *; cbn [includes]; rewrite orb_true_iff, prefix_spec.
  - split; [intros [[b B]|B]; [exists "", b; exact B|discriminate]|]. intros ([|c a] & b & E); [left; exists b; exact E|discriminate].
  - rewrite IH. split.
    + intros [[b B]|(a & b & E)]; [exists "", b; exact B|]. exists (String c a), b. cbn. congruence.
    + intros ([|d a] & b & E); [left; exists b; exact E|]. right. cbn in E. injection E as -> E. exists a, b. exact E.
Qed.

(* A configuration which names the module of one device, and of no other, is for that device. *)
Theorem C125_device_partial : forall s d, within (python_module d) s -> (forall d', within (python_module d') s -> d' = d) -> device_of s = d.
Proof.
  assert (P : forall d, python_module d = import_path d) by (intros []; reflexivity). intros s d. rewrite P. intros I U. assert (U2 : forall d', within (import_path d') s -> d' = d) by (intros d'; rewrite <- P; apply U). clear U. rename U2 into U. unfold device_of. destruct (includes (import_path Nano4) s) eqn:N; [apply U, includes_spec; exact N|].
  destruct (includes (import_path Mini6) s) eqn:M; [apply U, includes_spec; exact M|]. apply includes_spec in I. destruct d; [congruence|congruence|]. destruct (includes _ s); reflexivity.
Qed.
Print Assumptions C125_device_partial.

(* If it names several, in a comment for example, the smallest device is assumed, whichever is imported. *)
Theorem C125_comment_refuted : forall a b, device_of (a ++ python_module Nano4 ++ b) = Nano4.
Proof. intros a b. change (python_module Nano4) with (import_path Nano4). unfold device_of. replace (includes (import_path Nano4) (a ++ import_path Nano4 ++ b)) with true; [reflexivity|]. symmetry. apply includes_spec. exists a, b. reflexivity. Qed.
Print Assumptions C125_comment_refuted.

(* All inputs of the module are listed, each once, in their order, and nothing else; with the kind and the port of the model, and the name. *)
Theorem C125_listed : forall l,
  map (fun i => (i_assign i, i_class i, i_name i)) (hardware l) = map (fun e => (fst (fst e), class (snd (fst e)), snd e)) (inputs_of l) /\
  (forall i p, In i (hardware l) -> i_port i = Some p -> exists m, In (i_assign i, m, i_name i) (inputs_of l) /\ has_port m p) /\
  (forall i n, In i (hardware l) -> i_name i = Some n -> exists m, In (i_assign i, m, Some n) (inputs_of l) /\ class m = i_class i /\
     ((forall c p, m = OtherModel c p -> c <> "AdafruitSwitch" /\ c <> "AdafruitPotentiometer" /\ c <> "AdafruitEncoder") -> i_display i = Some (called m n))).
Proof.
  intros l. assert (E : forall i, In i (hardware l) -> exists m, In (i_assign i, m, i_name i) (inputs_of l) /\ i_class i = class m /\ i_port i = first_port m /\ i_display i = display_name m (i_name i)).
  { induction l as [|[n [m k|]] l IH]; cbn; intros i I; [destruct I| |].
    - destruct I as [<-|I]; [exists m; cbn; auto|]. destruct (IH i I) as (m2 & A & B). exists m2. auto.
    - destruct (IH i I) as (m2 & A & B). exists m2. auto. }
  split; [|split].
  - clear E. induction l as [|[n [m k|]] l IH]; cbn; [reflexivity| |exact IH]. f_equal. exact IH.
  - intros i p I P. destruct (E i I) as (m & A & _ & B & _). exists m. split; [exact A|]. rewrite P in B. unfold has_port. destruct m as [q|q|q r|c [q|]]; cbn in B; inversion B; subst; eauto 6.
  - intros i n I P. destruct (E i I) as (m & A & B & _ & D). rewrite P in *. exists m. split; [exact A|]. split; [auto|]. intros O. rewrite D. destruct m as [q|q|q r|c q]; cbn; try reflexivity.
    destruct (O c q eq_refl) as (X & Y & Z). apply String.eqb_neq in X. apply String.eqb_neq in Y. apply String.eqb_neq in Z. rewrite X, Y, Z. reflexivity.
Qed.
Print Assumptions C125_listed.

(* Without a name, the port is told. *)
Theorem C125_unnamed : forall p, display_name (Switch p) None = Some ("Switch GP" ++ dec p) /\ display_name (Pedal p) None = Some ("GP" ++ dec p ++ " (Pedal)").
Proof. intros p. split; reflexivity. Qed.
Print Assumptions C125_unnamed.

(* If all names are different, each input is found by its name. *)
Theorem C125_found : forall l i n, named l -> In i (hardware l) -> i_name i = Some n -> find_input n (hardware l) = Some i.
Proof.
  intros l i n [U _] I N. replace (map snd (inputs_of l)) with (map i_name (hardware l)) in U.
  - revert U I. generalize (hardware l) as h. induction h as [|x h IH]; intros U I; [destruct I|]. cbn in *. inversion U as [|? ? X U2]; subst. destruct I as [->|I].
    + rewrite N, String.eqb_refl. reflexivity.
    + destruct (i_name x) as [m|] eqn:M; [|auto]. destruct (String.eqb_spec m n) as [->|]; [|auto]. exfalso. apply X. rewrite <- N. apply in_map. exact I.
  - clear. induction l as [|[k [m q|]] l IH]; cbn; [reflexivity| |exact IH]. f_equal. exact IH.
Qed.
Print Assumptions C125_found.

(* This holds for all devices of PySwitch, which have different names on the screen, too. *)
Theorem C125_devices : forall d, named (module_of d) /\ NoDup (map i_display (hardware (module_of d))) /\ hardware (module_of d) <> [] /\
  forall i j, In i (hardware (module_of d)) -> In j (hardware (module_of d)) -> i_port i = i_port j -> i_class i = i_class j -> i = j.
Proof.
  intros d. split; [|split; [|split]].
  - split; destruct d; cbn; [repeat constructor; cbn; intuition discriminate|repeat constructor; cbn; intuition discriminate|repeat constructor; cbn; intuition discriminate| | |]; intuition discriminate.
  - destruct d; vm_compute; repeat constructor; cbn; intuition discriminate.
  - destruct d; vm_compute; discriminate.
  - intros i j I J P C. destruct d; vm_compute in I, J; repeat (destruct I as [<-|I]); try (destruct I); repeat (destruct J as [<-|J]); try (destruct J); first [reflexivity|discriminate P|discriminate C].
Qed.
Print Assumptions C125_devices.

(* Ports alone do not tell the inputs: pedals and switches share them. *)
Theorem C125_port_refuted : exists i j, In i (hardware captain10) /\ In j (hardware captain10) /\ i_port i = i_port j /\ i_port i <> None /\ i_assign i <> i_assign j.
Proof. exists (nth 0 (hardware captain10) (mkInfo "" "" None None None)), (nth 2 (hardware captain10) (mkInfo "" "" None None None)). vm_compute. repeat split; auto; discriminate. Qed.
Print Assumptions C125_port_refuted.

Example ex_hardware :
  let s := "from pyswitch.hardware.devices.pa_midicaptain_mini_6 import *" in
  within (python_module Mini6) s /\ (forall d, within (python_module d) s -> d = Mini6) /\ device_of s = Mini6 /\ device_of "from pyswitch.hardware.devices.pa_midicaptain_10 import *" = Captain10 /\
  hardware [("X", Other); ("W", Input (Wheel 2 3) (Some "Wheel")); ("S", Input (Switch 5) None)] =
    [mkInfo "W" "AdafruitEncoder" (Some 2%Z) (Some "Wheel") (Some "Wheel (Encoder)"); mkInfo "S" "AdafruitSwitch" (Some 5%Z) None (Some "Switch GP5")] /\
  option_map i_assign (find_input "A" (hardware mini6)) = Some "PA_MIDICAPTAIN_MINI_SWITCH_A".
Proof. cbn zeta. split; [exists "from ", " import *"; reflexivity|]. split; [intros d H; destruct d; apply includes_spec in H; first [reflexivity|vm_compute in H; discriminate]|]. repeat split; vm_compute; reflexivity. Qed.
