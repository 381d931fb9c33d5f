(* C123: the lists for choosing actions, controllers and presets. *)
From Coq Require Import String.
From Verif.Lib Require Import Base.
From Verif.Model Require Import Scan Providers.
From Verif.Spec Require Import Providers.
Local Open Scope list_scope.
Local Open Scope string_scope.

(* Exactly the actions for this kind of input are offered, those of all clients. *)
Theorem C123_actions : forall target l e, In e (entries target l) <-> available target l e.
Proof.
  intros target l e. unfold entries, available, of_client. rewrite in_flat_map. split.
  - intros (c & C & I). apply in_map_iff in I. destruct I as (a & <- & I). apply filter_In in I. destruct I as [I T]. apply String.eqb_eq in T. exists c, a. auto.
  - intros (c & a & C & A & T & ->). exists c. split; [exact C|]. apply in_map_iff. exists a. split; [reflexivity|]. apply filter_In. split; [exact A|]. apply String.eqb_eq. exact T.
Qed.
Print Assumptions C123_actions.

Lemma names_entries target l : map snd (entries target l) = map a_name (filter (fun a => String.eqb (a_target a) target) (flat_map c_actions l)).
Proof.
  induction l as [|c l IH]; [reflexivity|]. change (entries target (c :: l)) with (of_client target c ++ entries target l)%list. cbn [flat_map]. rewrite filter_app, (map_app a_name).
  etransitivity; [apply map_app|]. f_equal; [|exact IH]. unfold of_client. rewrite map_map. reflexivity.
Qed.
Lemma nodup_filter {A} (f : A -> string) (g : A -> bool) l : NoDup (map f l) -> NoDup (map f (filter g l)).
Proof.
  induction l as [|x l IH]; intros N; [exact N|]. cbn in *. inversion N as [|? ? X N2]; subst. destruct (g x); [|auto]. cbn. constructor; [|auto].
  intros I. apply X. apply in_map_iff in I. destruct I as (y & E & I). apply filter_In in I. rewrite <- E. apply in_map. apply I.
Qed.
(* No action is offered twice, if no two have the same name. *)
Theorem C123_once : forall target l, distinct l -> NoDup (map snd (entries target l)).
Proof. intros target l D. rewrite names_entries. apply nodup_filter. exact D. Qed.
Print Assumptions C123_once.

Lemma fold_none w (l : list entry) r : (forall e, In e l -> snd e <> w) -> fold_left (fun r e => if String.eqb (snd e) w then Some e else r) l r = r.
Proof. revert r. induction l as [|x l IH]; intros r H; cbn; [reflexivity|]. destruct (String.eqb_spec (snd x) w) as [E|_]; [exfalso; exact (H x (or_introl eq_refl) E)|]. apply IH. intros e I. apply H. right. exact I. Qed.
Lemma fold_in w (l : list entry) : forall r e, NoDup (map snd l) -> In e l -> snd e = w -> fold_left (fun r e => if String.eqb (snd e) w then Some e else r) l r = Some e.
Proof.
  induction l as [|x l IH]; intros r e N I E; [destruct I|]. cbn in *. inversion N as [|? ? X N2]; subst. destruct I as [->|I].
  - rewrite String.eqb_refl. apply fold_none. intros y Y F. apply X. rewrite <- F. apply in_map. exact Y.
  - apply IH; auto.
Qed.
Lemma fold_sound w (l : list entry) : forall r e, fold_left (fun r e => if String.eqb (snd e) w then Some e else r) l r = Some e -> r = Some e \/ (In e l /\ snd e = w).
Proof.
  induction l as [|x l IH]; intros r e H; cbn in *; [auto|]. apply IH in H. destruct H as [H|[I E]]; [|auto]. destruct (String.eqb_spec (snd x) w); [|auto].
  injection H as <-. right. auto.
Qed.

(* When an action is edited, it is the one which is selected at first, if it is offered. *)
Theorem C123_edited : forall target l c n, distinct l -> n <> "" -> available target l (c, n) -> preselected n (entries target l) = Some (c, n).
Proof.
  intros target l c n D N A. apply C123_actions in A. pose proof (C123_once target l D) as O. unfold preselected. destruct (entries target l) as [|x [|y r]] eqn:E; [destruct A| |].
  - destruct A as [->|[]]. reflexivity.
  - unfold by_name. destruct (String.eqb_spec n "") as [->|_]; [congruence|]. apply (fold_in n _ None (c, n) O A). reflexivity.
Qed.
Print Assumptions C123_edited.

(* Without one being edited nothing is selected, but the only one if there is just one. Otherwise only the wanted one is ever selected. *)
Theorem C123_selected_partial : forall target l n e, preselected n (entries target l) = Some e ->
  available target l e /\ (snd e = n \/ entries target l = [e]).
Proof.
  intros target l n e H. rewrite <- C123_actions. unfold preselected in H. destruct (entries target l) as [|x [|y r]]; [unfold by_name in H; destruct (String.eqb n ""); discriminate| |].
  - injection H as ->. split; [left; reflexivity|auto].
  - unfold by_name in H. destruct (String.eqb n ""); [discriminate|]. apply fold_sound in H. destruct H as [H|[H1 H2]]; [discriminate|auto].
Qed.
Print Assumptions C123_selected_partial.

(* If only one action is offered, it is selected instead of the edited one, whatever that is. *)
Theorem C123_other_refuted : forall target l n e, entries target l = [e] -> snd e <> n -> preselected n (entries target l) = Some e.
Proof. intros target l n e -> N. reflexivity. Qed.
Print Assumptions C123_other_refuted.

(* The list of controllers: when opened for the first time, it has exactly the names with an input and an output of the same manufacturer, and the additional entries.
   Missing: the same for all other times (C123_stale_refuted). *)
Theorem C123_ports_partial : forall more p h, exists l r, openings more None (p :: h) = (l :: r)%list /\ forall n, In n l <-> (exists m, In (m, n) (fst p) /\ In (m, n) (snd p)) \/ In n more.
Proof.
  intros more p h. eexists _, _. split; [reflexivity|]. intros n. cbn [open_ports snd]. rewrite in_app_iff. unfold pairs. rewrite in_flat_map. split; (intros [H|H]; [left|right; exact H]).
  - destruct H as ([m1 n1] & I & H). apply in_flat_map in H. destruct H as ([m2 n2] & O & H). cbn in H. destruct (String.eqb_spec m2 m1) as [->|]; [|destruct H].
    destruct (String.eqb_spec n2 n1) as [->|]; [|destruct H]. destruct H as [<-|[]]. eauto.
  - destruct H as (m & I & O). exists (m, n). split; [exact I|]. apply in_flat_map. exists (m, n). split; [exact O|]. cbn. rewrite !String.eqb_refl. left. reflexivity.
Qed.
Print Assumptions C123_ports_partial.

Lemma openings_stored more l h : openings more (Some l) h = map (fun _ => l) h.
Proof. induction h as [|p h IH]; cbn; [reflexivity|]. rewrite IH. reflexivity. Qed.
(* It never changes: a controller which is connected later is never offered, and one which was removed always is. *)
Theorem C123_stale_refuted : forall more p h l, In l (openings more None (p :: h)) -> openings more None [p] = [l].
Proof.
  intros more p h l I. cbn [openings open_ports fst snd] in *. rewrite openings_stored in I. destruct I as [<-|I]; [reflexivity|]. apply in_map_iff in I. destruct I as (x & E & _). rewrite E. reflexivity.
Qed.
Print Assumptions C123_stale_refuted.

(* The list of presets has all presets each time, in the order of the storage, and at most one more entry, that for a new one. *)
Theorem C123_presets : forall new ids,
  (forall id, In (Preset id) (presets new ids) <-> In id ids) /\ (In NewPreset (presets new ids) <-> new = true) /\
  (forall id1 id2 a b c, ids = (a ++ id1 :: b ++ id2 :: c)%list -> exists x y z, presets new ids = (x ++ Preset id1 :: y ++ Preset id2 :: z)%list) /\
  length (presets new ids) = (length ids + if new then 1 else 0)%nat.
Proof.
  intros new ids. unfold presets. split; [|split; [|split]].
  - intros id. rewrite in_app_iff, in_map_iff. split.
    + intros [(x & E & I)|I]; [injection E as ->; exact I|destruct new; [destruct I as [I|[]]; discriminate|destruct I]].
    + intros I. left. eauto.
  - rewrite in_app_iff, in_map_iff. split.
    + intros [(x & E & I)|I]; [discriminate|destruct new; [reflexivity|destruct I]].
    + intros ->. right. left. reflexivity.
  - intros id1 id2 a b c ->. exists (map Preset a), (map Preset b), (map Preset c ++ if new then [NewPreset] else [])%list. rewrite map_app. cbn [map]. rewrite map_app. cbn [map].
    rewrite <- !app_assoc. cbn [app]. rewrite <- !app_assoc. reflexivity.
  - rewrite app_length, map_length. destruct new; reflexivity.
Qed.
Print Assumptions C123_presets.

(* A single entry is offered unless its condition is not met. *)
Theorem C123_single : forall text condition, single text condition = Some text <-> condition <> Some false.
Proof. intros text [[]|]; cbn; split; congruence. Qed.
Print Assumptions C123_single.

Example ex_providers :
  let l := [mkClient "kemper" [mkAction "RIG_UP" "AdafruitSwitch"; mkAction "ENCODER_BANK_SELECT" "AdafruitEncoder"; mkAction "BANK_UP" "AdafruitSwitch"];
            mkClient "local" [mkAction "PAGER" "AdafruitSwitch"; mkAction "AnalogAction" "AdafruitPotentiometer"]] in
  distinct l /\ available "AdafruitSwitch" l ("kemper", "BANK_UP") /\
  entries "AdafruitSwitch" l = [("kemper", "RIG_UP"); ("kemper", "BANK_UP"); ("local", "PAGER")] /\
  preselected "BANK_UP" (entries "AdafruitSwitch" l) = Some ("kemper", "BANK_UP") /\ preselected "" (entries "AdafruitSwitch" l) = None /\
  preselected "MyAction" (entries "AdafruitPotentiometer" l) = Some ("local", "AnalogAction") /\
  openings ["Virtual Kemper"] None [([("KPA", "Kemper"); ("x", "PySwitch")], [("KPA", "Kemper")]); ([("KPA", "Kemper"); ("x", "PySwitch")], [("KPA", "Kemper"); ("x", "PySwitch")]); ([], [])] = [["Kemper"; "Virtual Kemper"]; ["Kemper"; "Virtual Kemper"]; ["Kemper"; "Virtual Kemper"]] /\
  presets true ["a"; "b"] = [Preset "a"; Preset "b"; NewPreset].
Proof.
  cbn zeta. split; [unfold distinct; cbn; repeat constructor; cbn; intuition discriminate|]. split.
  { eexists _, (mkAction "BANK_UP" "AdafruitSwitch"). split; [left; reflexivity|]. cbn. auto. }
  repeat split; reflexivity.
Qed.
