(* C71: screens. Every element is drawn once, in the first screen that has it; the visible screen is the last one shown and it alone is updated. *)
From Verif.Lib Require Import Base.
From Verif.Model Require Import Screens.
From Verif.Spec Require Import Screens.
From Verif.Proofs Require Screens.

(* An element is drawn exactly once, on the first screen it belongs to, however often screens are switched ... *)
Theorem C71_drawn_once : forall ops x before r later, objects (roots ops) -> roots ops = before ++ r :: later ->
  In x (ids r) -> (forall r', In r' before -> ~ In x (ids r')) -> drawn_in x (snd (run ustep sc_init ops)) = [eid r].
Proof. exact Screens.drawn_once. Qed.
Print Assumptions C71_drawn_once.
(* ... and never when no screen with it was shown. *)
Theorem C71_drawn_never : forall ops x, objects (roots ops) -> (forall r, In r (roots ops) -> ~ In x (ids r)) -> drawn_in x (snd (run ustep sc_init ops)) = [].
Proof. exact Screens.drawn_never. Qed.
Print Assumptions C71_drawn_never.
(* A new screen is drawn completely before it is shown, its elements in the order they are listed (later ones on top). *)
Theorem C71_new_screen : forall ops r, objects (roots ops ++ [r]) -> NoDup (ids r) -> (forall x, In x (ids r) -> forall r', In r' (roots ops) -> ~ In x (ids r')) ->
  snd (ustep (fst (run ustep sc_init ops)) (UShow r)) = map (fun i => UInit i (eid r)) (ids r) ++ [UScreen (eid r)].
Proof. exact Screens.new_screen. Qed.
Print Assumptions C71_new_screen.
(* The display changes exactly when another screen is asked for, and then to that screen. *)
Theorem C71_shown : forall ops, objects (roots ops) -> shown (snd (run ustep sc_init ops)) = changes (map eid (roots ops)).
Proof. exact Screens.shown_changes. Qed.
Print Assumptions C71_shown.
(* An update reaches every updateable part of the screen shown last, at any depth, and nothing else. *)
Theorem C71_updated : forall ops rs r, objects (roots ops) -> roots ops = rs ++ [r] ->
  snd (ustep (fst (run ustep sc_init ops)) UUpdate) = map UUpd (map eid (filter is_updateable (parts r))).
Proof. exact Screens.update_visible. Qed.
Print Assumptions C71_updated.
Theorem C71_updated_nothing : forall ops, roots ops = [] -> snd (ustep (fst (run ustep sc_init ops)) UUpdate) = [].
Proof. exact Screens.update_nothing. Qed.
Print Assumptions C71_updated_nothing.

(* Not so: a screen contains all its elements. One that belongs to an earlier screen too is not drawn on the later one. *)
Theorem C71_shared_refuted : ~ (forall ops rs r x, objects (roots ops) -> roots ops = rs ++ [r] -> In x (ids r) ->
  In (eid r) (drawn_in x (snd (run ustep sc_init ops)))).
Proof.
  intros H. specialize (H [UShow (Elem 0 false [Some (Elem 2 true [])]); UShow (Elem 1 false [Some (Elem 2 true [])])]
    [Elem 0 false [Some (Elem 2 true [])]] (Elem 1 false [Some (Elem 2 true [])]) 2%nat).
  destruct H as [H|[]]; [|reflexivity|cbn; auto|discriminate H].
  intros a b Ha Hb. cbn in Ha, Hb. intuition (subst; cbn in *; try discriminate; reflexivity).
Qed.
Print Assumptions C71_shared_refuted.

(* The rig screen with a label container and the tuner screen; the tuner is shown and left again. *)
Definition ex_rig : elem := Elem 0 false [Some (Elem 1 true []); None; Some (Elem 2 false [Some (Elem 3 true []); Some (Elem 4 true [])])].
Definition ex_tuner : elem := Elem 5 true [Some (Elem 6 false [])].
Definition ex_ops : list uop := [UShow ex_rig; UUpdate; UShow ex_rig; UShow ex_tuner; UUpdate; UShow ex_rig].
Example C71_ex_objects : objects (roots ex_ops ++ [ex_tuner]).
Proof. intros a b Ha Hb. cbn in Ha, Hb. unfold ex_rig, ex_tuner in *. intuition (subst; cbn in *; try discriminate; reflexivity). Qed.
Example C71_ex_events : snd (run ustep sc_init ex_ops) =
  [UInit 0 0; UInit 1 0; UInit 2 0; UInit 3 0; UInit 4 0; UScreen 0; UUpd 1; UUpd 3; UUpd 4; UInit 5 5; UInit 6 5; UScreen 5; UUpd 5; UScreen 0].
Proof. reflexivity. Qed.
Example C71_ex_once : roots ex_ops = [ex_rig; ex_rig] ++ ex_tuner :: [ex_rig] /\ In 6%nat (ids ex_tuner) /\ (forall r', In r' [ex_rig; ex_rig] -> ~ In 6%nat (ids r')).
Proof. split; [reflexivity|]. split; [cbn; auto|]. intros r' [<-|[<-|[]]]; cbn; intuition discriminate. Qed.
Example C71_ex_new : NoDup (ids ex_tuner) /\ (forall x, In x (ids ex_tuner) -> forall r', In r' (roots [UShow ex_rig; UUpdate]) -> ~ In x (ids r')).
Proof. split; [repeat constructor; cbn; intuition discriminate|]. intros x Hx r' [<-|[]]. cbn in Hx. destruct Hx as [<-|[<-|[]]]; cbn; intuition discriminate. Qed.
