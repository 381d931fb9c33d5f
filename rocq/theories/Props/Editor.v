(* C68: the configuration editor keeps the configuration. *)
From Verif.Lib Require Import Base.
From Verif.Model Require Import Editor.
From Verif.Spec Require Import Editor.
From Verif.Proofs Require Editor.
From Coq Require Import String.
Local Open Scope string_scope.
Local Open Scope list_scope.

(* Opening a tidy configuration and saving it unchanged gives the same file. *)
Theorem C68_open_save : forall known m root n d, tidy known m root -> load known n m root = Some (Some d) -> save root d m = Some m.
Proof. intros known m root n d H. apply Editor.open_save. exact H. Qed.
Print Assumptions C68_open_save.

(* With positional arguments, too, opening and saving changes nothing but these: where the parameter names are known, each gets the name
   of its parameter. *)
Theorem C68_open_save_named : forall known m root, regular_file m root -> forall n d, simple m -> acyclic m -> load known n m root = Some (Some d) ->
  exists m', save root d m = Some m' /\ (forall x e, reached m root x -> lookup m x = Some e -> lookup m' x = Some (named known e)) /\
    (forall y, ~ reached m root y -> lookup m' y = lookup m y).
Proof. exact Editor.open_save_named. Qed.
Print Assumptions C68_open_save_named.

(* A file without circular definitions can be opened. *)
Theorem C68_opens : forall known m root e, acyclic m -> lookup m root = Some e ->
  exists n d, forall n', (n <= n')%nat -> load known n' m root = Some (Some d).
Proof. intros known m root e. apply Editor.opens. Qed.
Print Assumptions C68_opens.

(* Whatever is saved: all statements stay, in order, and only the root and the variables of the saved data get other values or are added. *)
Theorem C68_rest_kept : forall root d m m', save root d m = Some m' -> kept (root :: map fst (inner d)) m m'.
Proof. exact Editor.frame. Qed.
Print Assumptions C68_rest_kept.

(* After saving, the root and every variable of the data have the values that the data say; all other variables have their old values. *)
Theorem C68_saved : forall root d m m', simple m -> lookup m root <> None -> consistent root d -> save root d m = Some m' ->
  lookup m' root = Some (body d) /\ (forall x a, In (x, a) (inner d) -> lookup m' x = Some (body a)) /\
  (forall y, y <> root -> (forall a, ~ In (y, a) (inner d)) -> lookup m' y = lookup m y).
Proof. exact Editor.saved. Qed.
Print Assumptions C68_saved.

(* Saving raises exactly if an empty list is bound to a variable. *)
Theorem C68_saves : forall root d m, no_empty d <-> exists m', save root d m = Some m'.
Proof. exact Editor.saves. Qed.
Print Assumptions C68_saves.

(* New variables are defined directly before the root, each after the variables its value refers to. *)
Theorem C68_new_variables : forall root d old pre post, no_empty d -> ~ assigned (pre ++ post) root -> NoDup (map fst (inner d)) ->
  (forall x, In x (map fst (inner d)) -> x <> root /\ ~ assigned (pre ++ post) x) ->
  save root d (pre ++ line root old :: post) =
    Some (pre ++ map (fun p => line (fst p) (body (snd p))) (inner d) ++ line root (body d) :: post) /\
  (forall l1 x t l2, inner d = l1 ++ (x, t) :: l2 -> forall p, In p (inner t) -> In p l1).
Proof. intros. split; [apply Editor.saved_new; assumption | apply Editor.inner_order]. Qed.
Print Assumptions C68_new_variables.

(* ---- examples ---- *)
Definition ex_pager : expr := ECall (EName "PagerAction") [(false, Some "pages", EList [(false, EDict [(KText "id", EOther "1")])])].
Definition ex_inputs : expr := EList [
  (false, EDict [(KText "assignment", EName "SWITCH_1"); (KText "actions", EList [(false, EName "_pager")])]);
  (false, EDict [(KText "assignment", EName "SWITCH_2");
                 (KText "actions", EList [(false, ECall (EName "RIG_SELECT") [(false, Some "rig", EOther "1"); (false, Some "enable_callback", EOther "_pager.enable_callback")])])])].
Definition ex_file : module := [SLine (MOther "from a import *") []; line "_pager" ex_pager; SBlock "def f(): pass"; line "Inputs" ex_inputs].

Lemma ex_lookup x e : lookup ex_file x = Some e -> (x = "_pager" /\ e = ex_pager) \/ (x = "Inputs" /\ e = ex_inputs).
Proof.
  unfold ex_file, line. cbn [lookup existsb is_target]. rewrite !orb_false_r.
  destruct (String.eqb_spec "_pager" x); [intros [= <-]; auto|]. destruct (String.eqb_spec "Inputs" x); [intros [= <-]; auto|]. discriminate.
Qed.
Example C68_ex_tidy : tidy inputs_known ex_file "Inputs".
Proof.
  intros x e _ H. destruct (ex_lookup x e H) as [[-> ->]|[-> ->]]; (split; [apply Editor.once_count; vm_compute; repeat constructor|]); split.
  - cbn. repeat split; eauto; try (intros []; reflexivity).
  - split; [discriminate|]. intros _. discriminate.
  - cbn. repeat split; eauto; try (intros []; reflexivity).
  - split; [discriminate|]. intros Hc. congruence.
Qed.
Example C68_ex_acyclic : acyclic ex_file.
Proof.
  exists (fun x => if String.eqb x "Inputs" then 1%nat else 0%nat). intros x e y H Hy Hl.
  destruct (ex_lookup x e H) as [[-> ->]|[-> ->]]; cbn in Hy; [destruct Hy|].
  destruct Hy as [<-|[<-|[<-|[]]]]; cbn in *; try lia; congruence.
Qed.
Example C68_ex_open : exists d, load inputs_known 10 ex_file "Inputs" = Some (Some d) /\
  inner d = [("_pager", DCall (EName "PagerAction") [(Some "pages", DList [DDict [("id", DCode (EOther "1"))] None])] (Some "_pager"))] /\
  save "Inputs" d ex_file = Some ex_file.
Proof. eexists. repeat split. Qed.

(* a second pager is added *)
Definition ex_new : data := DList [DDict [("assignment", DCode (EName "SWITCH_1")); ("actions",
  DList [DCall (EName "PagerAction") [(Some "pages", DVal (DCode (EOther "4")) (Some "_n"))] (Some "_other")])] None].
Example C68_ex_consistent : consistent "Inputs" ex_new /\ simple ex_file /\ no_empty ex_new.
Proof.
  split; [split|split].
  - intros x a b H1 H2. cbn in H1, H2. destruct H1 as [H1|[H1|[]]], H2 as [H2|[H2|[]]]; congruence.
  - intros a H. cbn in H. destruct H as [H|[H|[]]]; congruence.
  - intros a r H. cbn in H. destruct H as [[= <- <-]|[[= <- <-]|[H|[[= <- <-]|[]]]]]; try discriminate; (split; [reflexivity|]); intros ts e [=]; subst; eauto.
  - intros x v a H. cbn in H. destruct H as [[= <- <- <-]|[H|[]]]; congruence.
Qed.
Example C68_ex_new : save "Inputs" ex_new ex_file = Some
  [SLine (MOther "from a import *") []; line "_pager" ex_pager; SBlock "def f(): pass";
   line "_n" (EOther "4"); line "_other" (ECall (EName "PagerAction") [(false, Some "pages", EName "_n")]);
   line "Inputs" (EList [(false, EDict [(KText "assignment", EName "SWITCH_1"); (KText "actions", EList [(false, EName "_other")])])])].
Proof. reflexivity. Qed.

(* positional arguments of a display area get their names *)
Example C68_ex_bounds : exists d m', load splashes_known 5 [line "Splashes" (ECall (EName "DisplayBounds") [(false, None, EOther "0"); (false, None, EOther "40")])] "Splashes" = Some (Some d) /\
  save "Splashes" d [line "Splashes" (ECall (EName "DisplayBounds") [(false, None, EOther "0"); (false, None, EOther "40")])] = Some m' /\
  m' = [line "Splashes" (ECall (EName "DisplayBounds") [(false, Some "x", EOther "0"); (false, Some "y", EOther "40")])].
Proof. eexists _, _. repeat split. Qed.

Definition ex_bounds : module := [line "_b" (ECall (EName "DisplayBounds") [(false, None, EOther "0"); (false, None, EOther "40"); (false, Some "h", EOther "9")]); line "other" (EOther "1"); line "Splashes" (EList [(false, EName "_b")])].
Example C68_ex_regular : regular_file ex_bounds "Splashes" /\ simple ex_bounds /\ acyclic ex_bounds.
Proof.
  assert (L : forall x e, lookup ex_bounds x = Some e -> x = "_b" /\ e = ECall (EName "DisplayBounds") [(false, None, EOther "0"); (false, None, EOther "40"); (false, Some "h", EOther "9")] \/ x = "other" /\ e = EOther "1" \/ x = "Splashes" /\ e = EList [(false, EName "_b")]).
  { intros x e. unfold ex_bounds, line. cbn [lookup existsb is_target]. rewrite !orb_false_r.
    destruct (String.eqb_spec "_b" x); [intros [= <-]; auto|]. destruct (String.eqb_spec "other" x); [intros [= <-]; auto|]. destruct (String.eqb_spec "Splashes" x); [intros [= <-]; auto|]. discriminate. }
  split; [|split].
  - intros x e _ H. destruct (L x e H) as [(-> & ->)|[(-> & ->)|(-> & ->)]]; (split; [|split; intros; discriminate]); cbn; [|auto|auto].
    split; [|auto 10]. exists [(false, None, EOther "0"); (false, None, EOther "40")], [(false, Some "h", EOther "9")]. split; [reflexivity|]. split; intros a Ha; cbn in Ha; [destruct Ha as [<-|[<-|[]]]; reflexivity|destruct Ha as [<-|[]]; discriminate].
  - intros a r H. cbn in H. destruct H as [[= <- <-]|[[= <- <-]|[[= <- <-]|[]]]]; (split; [reflexivity|]); intros ts e [=]; subst; eauto.
  - exists (fun x => if String.eqb x "Splashes" then 1%nat else 0%nat). intros x e y H Hy Hl. destruct (L x e H) as [(-> & ->)|[(-> & ->)|(-> & ->)]]; cbn in Hy; try destruct Hy as [Hy|Hy]; try contradiction. subst y. cbn. lia.
Qed.
Example C68_ex_named : exists d m', load splashes_known 5 ex_bounds "Splashes" = Some (Some d) /\ save "Splashes" d ex_bounds = Some m' /\
  lookup m' "_b" = Some (ECall (EName "DisplayBounds") [(false, Some "x", EOther "0"); (false, Some "y", EOther "40"); (false, Some "h", EOther "9")]).
Proof. eexists _, _. split; [reflexivity|]. split; reflexivity. Qed.

(* ---- findings: files that change when they are opened and saved without an edit ---- *)
Definition changed (m m' : module) : Prop := m' <> m /\ exists n d, load inputs_known n m "Inputs" = Some (Some d) /\ save "Inputs" d m = Some m'.

(* a starred argument loses its star: f( *xs ) becomes f(xs) *)
Theorem C68_star_refuted : exists f xs,
  changed [line "Inputs" (EList [(false, ECall f [(true, None, xs)])])] [line "Inputs" (EList [(false, ECall f [(false, None, xs)])])].
Proof. exists (EName "f"), (EOther "xs()"). split; [discriminate|]. exists 5%nat. eexists. split; reflexivity. Qed.
Print Assumptions C68_star_refuted.

(* a key that is a number or a variable becomes a string *)
Theorem C68_key_refuted : exists k, changed [line "Inputs" (EList [(false, EDict [(KToken k, EOther "1")])])] [line "Inputs" (EList [(false, EDict [(KText k, EOther "1")])])].
Proof. exists "KEY". split; [discriminate|]. exists 5%nat. eexists. split; reflexivity. Qed.
Print Assumptions C68_key_refuted.

(* a variable assigned twice has its first value in both places afterwards, also where the second one was used *)
Theorem C68_reassigned_refuted : exists x a b, a <> b /\
  changed [line x a; line x b; line "Inputs" (EList [(false, EName x)])] [line x a; line x a; line "Inputs" (EList [(false, EName x)])].
Proof. exists "x", (EOther "1"), (EOther "2"). split; [discriminate|]. split; [discriminate|]. exists 5%nat. eexists. split; reflexivity. Qed.
Print Assumptions C68_reassigned_refuted.

(* two names for one object become two objects *)
Theorem C68_alias_refuted : exists x y f,
  changed [line x (ECall f []); line y (EName x); line "Inputs" (EList [(false, EName x); (false, EName y)])]
          [line x (ECall f []); line y (ECall f []); line "Inputs" (EList [(false, EName x); (false, EName y)])].
Proof. exists "x", "y", (EName "f"). split; [discriminate|]. exists 5%nat. eexists. split; reflexivity. Qed.
Print Assumptions C68_alias_refuted.

(* a variable that is an empty list: the file can be opened, but not saved *)
Theorem C68_empty_list_refuted : exists m d n, load inputs_known n m "Inputs" = Some (Some d) /\ save "Inputs" d m = None.
Proof. exists [line "x" (EList []); line "Inputs" (EList [(false, EName "x")])]. eexists. exists 5%nat. split; reflexivity. Qed.
Print Assumptions C68_empty_list_refuted.

(* a file with a function and without the root: nothing is saved, without an error *)
Theorem C68_nothing_saved_refuted : forall root e c, save root (DList [DCode e]) [SBlock c] = Some [SBlock c].
Proof. reflexivity. Qed.
Print Assumptions C68_nothing_saved_refuted.

(* a file without the root: the variables of the data are not saved *)
Theorem C68_variable_lost_refuted : exists d m', consistent "Inputs" d /\ inner d <> [] /\ save "Inputs" d [] = Some m' /\
  forall x a, In (x, a) (inner d) -> lookup m' x = None.
Proof.
  exists (DList [DVal (DCode (EOther "4")) (Some "n")]). eexists. split; [|split; [discriminate|split; [reflexivity|]]].
  - split.
    + intros x a b [[= <- <-]|[]] [[= <-]|[]]. reflexivity.
    + intros a [[=]|[]].
  - intros x a [[= <- <-]|[]]. reflexivity.
Qed.
Print Assumptions C68_variable_lost_refuted.

(* an existing variable that now refers to a new one: the new one is defined after it, the saved file does not run *)
Theorem C68_too_early_refuted : exists m d m', ~ used_too_early m /\ consistent "Inputs" d /\ save "Inputs" d m = Some m' /\ used_too_early m'.
Proof.
  exists [line "a" (EList [(false, EOther "1")]); line "Inputs" (EList [(false, EName "a")])].
  exists (DList [DVal (DList [DVal (DCode (EOther "2")) (Some "b")]) (Some "a")]). eexists.
  split; [|split; [|split; [reflexivity|]]].
  - intros (pre & ts & e & post & x & Hm & Hx & Hn & _). destruct pre as [|s0 [|s1 [|s2 pre]]]; cbn in Hm; injection Hm; intros; subst; try discriminate.
    + destruct Hx.
    + cbn in Hx. destruct Hx as [<-|[]]. apply Hn. eexists. split; [left; reflexivity|]. eexists _, _. split; [reflexivity|left; reflexivity].
  - split.
    + intros x a b [[= <- <-]|[[= <- <-]|[]]] [[=]|[[=]|[]]]; subst; reflexivity.
    + intros a [[=]|[[=]|[]]].
  - exists [], [TName "a"], (EList [(false, EName "b")]). eexists. exists "b". split; [reflexivity|]. split; [left; reflexivity|]. split.
    + intros (s & [] & _).
    + eexists. split; [right; left; reflexivity|]. eexists _, _. split; [reflexivity|left; reflexivity].
Qed.
Print Assumptions C68_too_early_refuted.
