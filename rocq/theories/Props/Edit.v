(* C91: changing the actions of the inputs with the web editor. *)
From Verif.Lib Require Import Base.
From Verif.Model Require Import Editor Edit.
From Verif.Spec Require Import Editor Edit.
From Verif.Proofs Require Import Editor Edit.
From Coq Require Import String.
Open Scope string_scope.
Local Open Scope list_scope.

(* Adding, removing, replacing or dragging actions gives every input the actions the user sees, and changes nothing else in the file. *)
Theorem C91_edited_partial : forall m e, editable m e -> (exists m', saved_as m e m') /\ forall m', saved_as m e m' -> changed m e m'.
Proof. exact edited. Qed.
Print Assumptions C91_edited_partial.

(* ---- examples ---- *)
Definition ex_pager : expr := ECall (EName "PagerAction") [(false, Some "pages", EList [(false, EDict [(KText "id", EOther "1")]); (false, EDict [(KText "id", EOther "2"); (KText "text", EOther "'B'")])])].
Definition ex_rig : expr := ECall (EName "RIG_SELECT") [(false, Some "rig", EOther "1"); (false, Some "enable_callback", EOther "_pager.enable_callback")].
Definition ex_tuner : expr := ECall (EName "TUNER_MODE") [].
Definition ex_inputs : expr := EList [
  (false, EDict [(KText "assignment", EName "SWITCH_1"); (KText "holdTimeMillis", EOther "600"); (KText "actions", EList [(false, EName "_pager"); (false, EName "None"); (false, ex_rig)])]);
  (false, EDict [(KText "assignment", EName "SWITCH_2"); (KText "actions", EList []); (KText "actionsHold", EList [(false, ex_tuner)])])].
Definition ex_file : module := [SLine (MOther "from a import *") []; line "_pager" ex_pager; SBlock "def f(): pass"; line "Inputs" ex_inputs].

Lemma ex_lookup x e : lookup ex_file x = Some e -> (x = "_pager" /\ e = ex_pager) \/ (x = "Inputs" /\ e = ex_inputs).
Proof.
  unfold ex_file, line. cbn [lookup existsb is_target]. rewrite !orb_false_r.
  destruct (String.eqb_spec "_pager" x); [intros [= <-]; auto|]. destruct (String.eqb_spec "Inputs" x); [intros [= <-]; auto|]. discriminate.
Qed.
Lemma ex_simple : simple ex_file.
Proof. intros a r H. cbn in H. destruct H as [[= <- <-]|[[= <- <-]|[H|[[= <- <-]|[]]]]]; try discriminate; (split; [reflexivity|]); intros ts e [=]; subst; eauto. Qed.
Lemma ex_tidy : tidy inputs_known ex_file "Inputs".
Proof.
  intros x e _ H. destruct (ex_lookup x e H) as [[-> ->]|[-> ->]]; (split; [apply Editor.once_count; vm_compute; repeat constructor|]); split.
  - cbn. repeat split; eauto; try (intros []; reflexivity).
  - split; [discriminate|]. intros _. discriminate.
  - cbn. repeat split; eauto; try (intros []; reflexivity).
  - split; [discriminate|]. intros Hc. congruence.
Qed.
Lemma ex_acyclic : acyclic ex_file.
Proof.
  exists (fun x => if String.eqb x "Inputs" then 1%nat else 0%nat). intros x e y H Hy Hl.
  destruct (ex_lookup x e H) as [[-> ->]|[-> ->]]; cbn in Hy; [destruct Hy|].
  repeat (destruct Hy as [<-|Hy]; [cbn in *; try lia; congruence|]). destruct Hy.
Qed.
Lemma ex_editable e : (forall k, concerns e k = true -> In k ["SWITCH_1"; "SWITCH_2"; "SWITCH_9"]) -> Forall (fun a => In a [EName "_pager"; ex_rig; ex_tuner]) (rewrites ex_file e) ->
  Forall (valid_item ex_file e) (items_of e) -> (forall n h i d, e = Replace n h i d -> (i < List.length (listed ex_file n h))%nat) -> (forall n k g g', e = Move n k g g' -> n <> k) ->
  (forall d x, entered e = Some d -> d_assign d = Some x -> x <> "Inputs" /\ x <> "None" /\ (~ assigned ex_file x \/ own_variable ex_file e x)) -> editable ex_file e.
Proof.
  intros H1 H2 H3 H4 H5 H6. split; auto using ex_simple, ex_tidy, ex_acyclic.
  - eexists. reflexivity.
  - intros x Hx. cbn in Hx. destruct Hx as [<-|[<-|[]]]; eexists; reflexivity.
  - intros k Hk. destruct (H1 k Hk) as [<-|[<-|[<-|[]]]]; reflexivity.
  - intros k h v Hk. destruct (H1 k Hk) as [<-|[<-|[<-|[]]]], h; cbn; intros [= <-]; eexists; reflexivity.
  - apply Forall_forall. intros a Ha. rewrite Forall_forall in H2. destruct (H2 a Ha) as [<-|[<-|[<-|[]]]].
    + right. exists "_pager", ex_pager. split; [reflexivity|]. split; [reflexivity|]. eexists _, _. split; [reflexivity|]. intros _ s v Hv. cbn in Hv. destruct Hv as [[= <- <-]|[]].
      eexists. split; [reflexivity|]. constructor; [|constructor; [|constructor]]; [exists (EOther "1"), None, None|exists (EOther "2"), None, (Some (EOther "'B'"))]; reflexivity.
    + left. eexists _, _. split; [reflexivity|]. discriminate.
    + left. eexists _, _. split; [reflexivity|]. discriminate.
Qed.

(* a new action for an input which had none, with a new variable *)
Definition ex_new : definition := {| d_name := EName "PagerAction"; d_assign := Some "_other"; d_args := [("pages", VPages [(EOther "7", None, None)]); ("mappings", VCode (EOther "None"))] |}.
Example C91_ex_add : editable ex_file (Add "SWITCH_9" true ex_new) /\ wanted (Add "SWITCH_9" true ex_new) (listed ex_file) "SWITCH_9" true = [EName "_other"] /\
  wanted (Add "SWITCH_9" true ex_new) (listed ex_file) "SWITCH_1" false = [EName "_pager"; ex_rig].
Proof.
  split; [|split; reflexivity]. apply ex_editable; try discriminate.
  - intros k Hk. apply String.eqb_eq in Hk. subst k. cbn. auto.
  - constructor.
  - constructor.
  - intros d x [= <-] [= <-]. split; [discriminate|]. split; [discriminate|]. left. intros A. apply assigned_lookup in A; [|exact ex_simple]. apply A. reflexivity.
Qed.
(* the pager is changed and keeps its variable *)
Definition ex_change : definition := {| d_name := EName "PagerAction"; d_assign := Some "_pager"; d_args := [("pages", VPages [(EOther "7", Some (EOther "RED"), None)])] |}.
Example C91_ex_replace : editable ex_file (Replace "SWITCH_1" false 0 ex_change) /\ wanted (Replace "SWITCH_1" false 0 ex_change) (listed ex_file) "SWITCH_1" false = [EName "_pager"; ex_rig] /\
  call ex_change <> ex_pager.
Proof.
  split; [|split; [reflexivity|discriminate]]. apply ex_editable; try discriminate.
  - intros k Hk. apply String.eqb_eq in Hk. subst k. cbn. auto.
  - cbn. repeat apply Forall_cons; try apply Forall_nil; cbn; auto.
  - constructor.
  - intros n h i d [= <- <- <- <-]. cbn. lia.
  - intros d x [= <-] [= <-]. split; [discriminate|]. split; [discriminate|]. right. split; reflexivity.
Qed.
(* it is dragged to the other input *)
Definition ex_move : edit := Move "SWITCH_1" "SWITCH_2" [("SWITCH_1", false, 1%nat)] [("SWITCH_1", false, 0%nat); ("SWITCH_2", true, 0%nat)].
Example C91_ex_move : editable ex_file ex_move /\ wanted ex_move (listed ex_file) "SWITCH_1" false = [ex_rig] /\
  wanted ex_move (listed ex_file) "SWITCH_2" false = [EName "_pager"] /\ wanted ex_move (listed ex_file) "SWITCH_2" true = [ex_tuner].
Proof.
  split; [|repeat split; reflexivity]. apply ex_editable; try discriminate.
  - intros k Hk. apply orb_true_iff in Hk. destruct Hk as [Hk|Hk]; apply String.eqb_eq in Hk; subst k; cbn; auto.
  - cbn. repeat apply Forall_cons; try apply Forall_nil; cbn; auto.
  - repeat constructor.
  - intros n k g g' [= <- <- _ _]. discriminate.
Qed.

(* ---- findings ---- *)
Lemma loads_same m n n' a b : load inputs_known n m "Inputs" = Some (Some a) -> load inputs_known n' m "Inputs" = Some (Some b) -> a = b.
Proof.
  unfold load. destruct (lookup m "Inputs") as [e|]; [|discriminate]. destruct (parse inputs_known n m e) as [d|] eqn:E1; [|discriminate]. destruct (parse inputs_known n' m e) as [d'|] eqn:E2; [|discriminate].
  intros [= <-] [= <-]. apply (parse_mono _ _ n (n + n')) in E1; [|lia]. apply (parse_mono _ _ n' (n + n')) in E2; [|lia]. rewrite E1 in E2. injection E2 as ->. reflexivity.
Qed.
Definition one_input (l : list expr) : stmt := line "Inputs" (EList [(false, EDict [(KText "assignment", EName "SWITCH_1"); (KText "actions", EList (map (pair false) l))])]).
Definition tuner : definition := {| d_name := EName "TUNER_MODE"; d_assign := None; d_args := [] |}.

(* If the input has an action which is not written as a call, like an element of another list, no action can be added or removed. *)
Theorem C91_no_call_refuted : exists m, listed m "SWITCH_1" false = [EOther "myActions[0]"] /\ simple m /\ tidy inputs_known m "Inputs" /\ acyclic m /\
  forall m', ~ saved_as m (Add "SWITCH_1" false tuner) m'.
Proof.
  exists [one_input [EOther "myActions[0]"]]. set (m := [one_input [EOther "myActions[0]"]]).
  assert (L : forall x e, lookup m x = Some e -> x = "Inputs" /\ e = EList [(false, EDict [(KText "assignment", EName "SWITCH_1"); (KText "actions", EList [(false, EOther "myActions[0]")])])]).
  { intros x e. unfold m, one_input, line. cbn [lookup existsb is_target]. rewrite orb_false_r. destruct (String.eqb_spec "Inputs" x); [intros [= <-]; auto|discriminate]. }
  split; [reflexivity|]. split; [|split; [|split]].
  - intros a r [H|[]]. injection H as <- <-. split; [reflexivity|]. intros ts e [=]. subst. eauto.
  - intros x e _ H. destruct (L x e H) as (-> & ->). split; [apply Editor.once_count; vm_compute; repeat constructor|]. split; [cbn; repeat split; eauto|]. split; [discriminate|]. congruence.
  - exists (fun x => if String.eqb x "Inputs" then 1%nat else 0%nat). intros x e y H Hy Hl. destruct (L x e H) as (-> & ->). cbn in Hy. destruct Hy as [<-|[]]. cbn. lia.
  - intros m' (n & items & items' & H1 & H2 & _). assert (E : load inputs_known 5 m "Inputs" = Some (Some (DList [DDict [("assignment", DCode (EName "SWITCH_1")); ("actions", DList [DCode (EOther "myActions[0]")])] None]))) by reflexivity.
    assert (D := loads_same m n 5 _ _ H1 E). injection D as ->. discriminate H2.
Qed.
Print Assumptions C91_no_call_refuted.

(* The other actions of the input are not always as before: pages lose all keys apart from id, color and text. *)
Theorem C91_page_refuted : exists m m', saved_as m (Add "SWITCH_1" false tuner) m' /\ listed m' "SWITCH_1" false <> listed m "SWITCH_1" false ++ [written tuner] /\
  exists page, listed m "SWITCH_1" false = [ECall (EName "PagerAction") [(false, Some "pages", EList [(false, EDict (page ++ [(KText "note", EOther "M")]))])]] /\
    listed m' "SWITCH_1" false = [ECall (EName "PagerAction") [(false, Some "pages", EList [(false, EDict page)])]; call tuner].
Proof.
  exists [one_input [ECall (EName "PagerAction") [(false, Some "pages", EList [(false, EDict [(KText "id", EOther "1"); (KText "note", EOther "M")])])]]].
  eexists. split; [|split].
  - exists 9%nat. eexists _, _. split; [reflexivity|]. split; [reflexivity|]. reflexivity.
  - cbn. discriminate.
  - exists [(KText "id", EOther "1")]. split; reflexivity.
Qed.
Print Assumptions C91_page_refuted.

(* An action which is used twice by its variable cannot be changed at its first place: afterwards all is as before. *)
Theorem C91_shared_refuted : exists m d x, d_assign d = Some x /\ listed m "SWITCH_1" false = [EName x; EName x] /\ lookup m x <> Some (call d) /\ saved_as m (Replace "SWITCH_1" false 0 d) m.
Proof.
  exists [line "_a" (call tuner); one_input [EName "_a"; EName "_a"]], {| d_name := EName "TUNER_MODE"; d_assign := Some "_a"; d_args := [("color", VCode (EOther "RED"))] |}, "_a".
  split; [reflexivity|]. split; [reflexivity|]. split; [discriminate|]. exists 9%nat. eexists _, _. split; [reflexivity|]. split; reflexivity.
Qed.
Print Assumptions C91_shared_refuted.

(* The editor takes a variable which is in use already: the action of another input is lost. *)
Theorem C91_taken_refuted : exists m m' d x, d_assign d = Some x /\ saved_as m (Add "SWITCH_2" false d) m' /\
  listed m "SWITCH_1" false = [EName x] /\ listed m' "SWITCH_1" false = [EName x] /\ lookup m x <> Some (call d) /\ lookup m' x = Some (call d).
Proof.
  exists [line "_a" (ECall (EName "RIG_SELECT") []); one_input [EName "_a"]]. eexists. exists {| d_name := EName "TUNER_MODE"; d_assign := Some "_a"; d_args := [] |}, "_a".
  split; [reflexivity|]. split; [exists 9%nat; eexists _, _; split; [reflexivity|]; split; reflexivity|]. repeat split; try reflexivity. discriminate.
Qed.
Print Assumptions C91_taken_refuted.

(* Pages which are defined as a variable of their own: nothing can be changed any more. *)
Theorem C91_pages_refuted : exists m, simple m /\ tidy inputs_known m "Inputs" /\ acyclic m /\ forall m', ~ saved_as m (Add "SWITCH_1" false tuner) m'.
Proof.
  set (call := ECall (EName "PagerAction") [(false, Some "pages", EName "_pages")]). set (pages := EList [(false, EDict [(KText "id", EOther "1")])]).
  exists [line "_pages" pages; one_input [call]]. set (m := [line "_pages" pages; one_input [call]]).
  assert (L : forall x e, lookup m x = Some e -> x = "_pages" /\ e = pages \/ x = "Inputs" /\ e = EList [(false, EDict [(KText "assignment", EName "SWITCH_1"); (KText "actions", EList [(false, call)])])]).
  { intros x e. unfold m, one_input, line. cbn [lookup existsb is_target]. rewrite !orb_false_r. destruct (String.eqb_spec "_pages" x); [intros [= <-]; auto|].
    destruct (String.eqb_spec "Inputs" x); [intros [= <-]; auto|discriminate]. }
  split; [|split; [|split]].
  - intros a r [H|[H|[]]]; injection H as <- <-; (split; [reflexivity|]); intros ts e [=]; subst; eauto.
  - intros x e _ H. destruct (L x e H) as [(-> & ->)|(-> & ->)]; (split; [apply Editor.once_count; vm_compute; repeat constructor|]); (split; [cbn; repeat split; eauto; intros []; reflexivity|]); (split; [discriminate|]); [discriminate|congruence].
  - exists (fun x => if String.eqb x "Inputs" then 1%nat else 0%nat). intros x e y H Hy Hl. destruct (L x e H) as [(-> & ->)|(-> & ->)]; cbn in Hy; [destruct Hy|]. destruct Hy as [<-|[<-|[]]]; cbn; lia.
  - intros m' (n & items & items' & H1 & H2 & _).
    assert (E : load inputs_known 9 m "Inputs" = Some (Some (DList [DDict [("assignment", DCode (EName "SWITCH_1")); ("actions", DList [DCall (EName "PagerAction") [(Some "pages", DVal (DList [DDict [("id", DCode (EOther "1"))] None]) (Some "_pages"))] None])] None]))) by reflexivity.
    assert (D := loads_same m n 9 _ _ H1 E). injection D as ->. discriminate H2.
Qed.
Print Assumptions C91_pages_refuted.
