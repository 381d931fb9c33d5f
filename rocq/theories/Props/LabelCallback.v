(* C124: the callback of a label in the display editor. *)
From Coq Require Import String.
From Verif.Lib Require Import Base.
From Verif.Model Require Import Elements CallbackParams LabelCallback.
From Verif.Spec Require Import LabelCallback.
From Verif.Spec Require Elements.
From Verif.Props Require Elements CallbackParams.
Local Open Scope list_scope.
Local Open Scope string_scope.

(* Exactly the callbacks for labels are offered. *)
Theorem C124_offered : forall cs n, In n (label_options cs) <-> exists c ks k, In (c, ks) cs /\ In k ks /\ k_target k = "DisplayLabel" /\ k_name k = n.
Proof.
  intros cs n. unfold label_options. rewrite in_map_iff. split.
  - intros (k & <- & I). apply filter_In in I. destruct I as [I T]. apply String.eqb_eq in T. apply in_flat_map in I. destruct I as ([c ks] & C & I). exists c, ks, k. auto.
  - intros (c & ks & k & C & I & T & <-). exists k. split; [reflexivity|]. apply filter_In. split; [|apply String.eqb_eq; exact T]. apply in_flat_map. exists (c, ks). auto.
Qed.
Print Assumptions C124_offered.

Lemma definition_spec cs n k : is_definition cs n k -> definition cs n = Some k.
Proof.
  intros (l & r & E & N & X). unfold definition. rewrite E. clear E. induction l as [|y l IH]; cbn in *.
  - rewrite N, String.eqb_refl. reflexivity.
  - destruct (String.eqb_spec (k_name y) n) as [Q|_]; [exfalso; apply X; left; exact Q|]. apply IH. intros I. apply X. right. exact I.
Qed.
Lemma get_put_self v a : get_argument "callback" (set_parameter "callback" v None a) = Some v.
Proof. rewrite Elements.get_set. cbn. destruct v; reflexivity. Qed.
Lemma set_calls cs a n : n <> "" -> exists e, calls (set_callback cs a n) n e.
Proof.
  intros N. unfold set_callback, calls. destruct (get_argument "callback" a) as [[c|[m|] l]|] eqn:E; [|destruct (String.eqb_spec m n) as [->|]; [rewrite E; eauto|]| |];
    (destruct (String.eqb_spec n "") as [->|_]; [congruence|]; destruct (definition cs n); rewrite get_put_self; eauto).
Qed.
Lemma set_empty cs a : (forall e, ~ calls a "" e) -> get_argument "callback" (set_callback cs a "") = Some (Text "None").
Proof.
  intros H. unfold set_callback, calls in *. destruct (get_argument "callback" a) as [[c|[m|] l]|]; [|destruct (String.eqb_spec m "") as [->|]; [exfalso; exact (H l eq_refl)|]| |]; cbn [String.eqb]; apply get_put_self.
Qed.
Lemma all_snoc cs a h c : choose_all cs a (h ++ [c]) = choose cs (choose_all cs a h) c.
Proof. unfold choose_all. rewrite fold_left_app. reflexivity. Qed.
Lemma last_snoc h c : last_name (h ++ [c]) = match c with Field n => Some n | Option n => if String.eqb n "" then last_name h else Some n end.
Proof. unfold last_name. rewrite fold_left_app. reflexivity. Qed.
Lemma never_empty cs a h : (forall e, ~ calls a "" e) -> forall e, ~ calls (choose_all cs a h) "" e.
Proof.
  intros H. assert (S : forall b n, (forall e, ~ calls b "" e) -> forall e, ~ calls (set_callback cs b n) "" e).
  { intros b n B e C. destruct (String.eqb_spec n "") as [->|N]; [unfold calls in C; rewrite (set_empty cs b B) in C; discriminate|].
    destruct (set_calls cs b n N) as [x X]. unfold calls in *. congruence. }
  induction h as [|c h IH] using rev_ind; [exact H|]. rewrite all_snoc. destruct c as [n|n]; cbn [choose]; [apply S; exact IH|]. destruct (String.eqb n ""); [exact IH|apply S; exact IH].
Qed.

(* After any choices, the label has the callback which was chosen last, and none if the field was cleared; the field shows it. (Callbacks have names.) *)
Theorem C124_chosen : forall cs a h n, (forall e, ~ calls a "" e) -> last_name h = Some n ->
  callback_shown (choose_all cs a h) = n /\
  (n <> "" -> exists e, calls (choose_all cs a h) n e) /\ (n = "" -> get_argument "callback" (choose_all cs a h) = Some (Text "None")).
Proof.
  intros cs a h n H. induction h as [|c h IH] using rev_ind; [discriminate|]. rewrite last_snoc, all_snoc.
  assert (S : forall m, callback_shown (set_callback cs (choose_all cs a h) m) = m /\ (m <> "" -> exists e, calls (set_callback cs (choose_all cs a h) m) m e) /\
    (m = "" -> get_argument "callback" (set_callback cs (choose_all cs a h) m) = Some (Text "None"))).
  { intros m. destruct (String.eqb_spec m "") as [->|N].
    - pose proof (set_empty cs _ (never_empty cs a h H)) as E. unfold callback_shown. rewrite E. split; [reflexivity|]. split; [congruence|auto].
    - destruct (set_calls cs (choose_all cs a h) m N) as [e E]. split; [unfold callback_shown; rewrite E; reflexivity|]. split; [eauto|congruence]. }
  destruct c as [m|m]; cbn [choose].
  - intros L. injection L as ->. apply S.
  - destruct (String.eqb m ""); [exact IH|]. intros L. injection L as ->. apply S.
Qed.
Print Assumptions C124_chosen.

(* A callback which is newly chosen gets exactly the arguments which Python needs. *)
Theorem C124_needed : forall cs a n k, n <> "" -> is_definition cs n k -> (forall e, ~ calls a n e) -> NoDup (map p_name (k_params k)) ->
  exists e, calls (set_callback cs a n) n e /\ NoDup (map fst e) /\
  (forall p, In p (k_params k) -> (In (p_name p) (map fst e) <-> needed p)) /\ (forall m v, In (m, v) e -> exists p, In p (k_params k) /\ p_name p = m /\ default_value p = v).
Proof.
  intros cs a n k N D F U. exists (required k). split; [|split; [|split]].
  - unfold calls, set_callback in *. rewrite (definition_spec cs n k D).
    destruct (get_argument "callback" a) as [[c|[m|] l]|]; [|destruct (String.eqb_spec m n) as [->|]; [exfalso; exact (F l eq_refl)|]| |];
      (destruct (String.eqb_spec n "") as [->|_]; [congruence|]; apply get_put_self).
  - unfold required. rewrite map_map. cbn [fst]. induction (k_params k) as [|p l IH]; [constructor|]. cbn in *. inversion U as [|? ? X U2]; subst. destruct (truthy (p_python p)); [auto|].
    cbn. constructor; [|auto]. intros I. apply X. apply in_map_iff in I. destruct I as (q & E & I). apply filter_In in I. rewrite <- E. apply in_map. apply I.
  - intros p P. unfold required. rewrite map_map. cbn [fst]. unfold needed. split.
    + intros I. apply in_map_iff in I. destruct I as (q & E & I). apply filter_In in I. destruct I as [I T].
      assert (q = p) as -> by (apply (Props.CallbackParams.same_name (k_params k)); auto). destruct (p_python p) as [[|c s]|]; cbn in T; [auto|discriminate|auto].
    + intros H. apply in_map_iff. exists p. split; [reflexivity|]. apply filter_In. split; [exact P|]. destruct H as [-> | ->]; reflexivity.
  - intros m v I. unfold required in I. apply in_map_iff in I. destruct I as (p & E & I). apply filter_In in I. injection E as <- <-. exists p. split; [apply I|auto].
Qed.
Print Assumptions C124_needed.

(* Choosing the present callback again changes nothing, in particular not its arguments. *)
Theorem C124_again : forall cs a n e, calls a n e -> set_callback cs a n = a.
Proof. intros cs a n e C. unfold set_callback. rewrite C, String.eqb_refl. reflexivity. Qed.
Print Assumptions C124_again.

(* The other parameters of the label stay as they are, in their order. *)
Theorem C124_others : forall cs a h, Spec.Elements.untouched ["callback"] (choose_all cs a h) = Spec.Elements.untouched ["callback"] a.
Proof.
  assert (P : forall v a, Spec.Elements.untouched ["callback"] (set_parameter "callback" v None a) = Spec.Elements.untouched ["callback"] a).
  { intros v a. unfold set_parameter. destruct (equals v None); [apply Elements.untouched_remove|apply Elements.untouched_put]; left; reflexivity. }
  assert (S : forall cs a n, Spec.Elements.untouched ["callback"] (set_callback cs a n) = Spec.Elements.untouched ["callback"] a).
  { intros cs a n. unfold set_callback. destruct (match get_argument _ _ with Some _ => _ | None => _ end); [reflexivity|]. destruct (String.eqb n ""); [apply P|]. destruct (definition cs n); apply P. }
  intros cs a h. induction h as [|c h IH] using rev_ind; [reflexivity|]. rewrite all_snoc. rewrite <- IH. destruct c as [n|n]; cbn [choose]; [apply S|]. destruct (String.eqb n ""); [reflexivity|apply S].
Qed.
Print Assumptions C124_others.

(* A label without callback shows None, but typing None makes a call of None, which fails in Python. *)
Theorem C124_none_refuted : forall cs a, definition cs "None" = None -> (forall e, ~ calls a "None" e) ->
  (get_argument "callback" a = None -> callback_shown a = "None") /\ calls (choose cs a (Field "None")) "None" [] /\ code_of (Object (Some "None") []) = "None()".
Proof.
  intros cs a D F. split; [unfold callback_shown; intros ->; reflexivity|]. split; [|reflexivity]. unfold choose, calls, set_callback in *. rewrite D.
  destruct (get_argument "callback" a) as [[c|[m|] l]|]; [|destruct (String.eqb_spec m "None") as [->|]; [exfalso; exact (F l eq_refl)|]| |]; cbn [String.eqb]; apply get_put_self.
Qed.
Print Assumptions C124_none_refuted.

(* A callback which is not a call in the configuration, like the name of a variable, is not shown. *)
Theorem C124_variable_refuted : forall a v, get_argument "callback" a = Some (Text v) -> callback_shown a = "".
Proof. intros a v E. unfold callback_shown. rewrite E. reflexivity. Qed.
Print Assumptions C124_variable_refuted.

Example ex_label_callback :
  let name := mkCallback "KemperRigNameCallback" "DisplayLabel" [mkParam "show_name" None None None None (Some "True"); mkParam "show_rig_id" (Some "select") None None (Some "False") (Some "False")] in
  let param := mkCallback "ParameterDisplayCallback" "DisplayLabel" [mkParam "mapping" None None None None None; mkParam "scale" None None None None (Some "1")] in
  let splash := mkCallback "SplashesCallback" "Splashes" [mkParam "splashes" None None None None None] in
  let cs := [("boomerang", []); ("kemper", [name; param]); ("local", [splash])] in
  let a := [("layout", Text "L"); ("callback", Object (Some "KemperRigNameCallback") [("show_name", "False")])] in
  label_options cs = ["KemperRigNameCallback"; "ParameterDisplayCallback"] /\ is_definition cs "ParameterDisplayCallback" param /\ (forall e, ~ calls a "" e) /\
  (forall e, ~ calls a "ParameterDisplayCallback" e) /\ NoDup (map p_name (k_params param)) /\ calls a "KemperRigNameCallback" [("show_name", "False")] /\
  choose_all cs a [Option "KemperRigNameCallback"] = a /\
  choose_all cs a [Option "ParameterDisplayCallback"; Option ""] = [("layout", Text "L"); ("callback", Object (Some "ParameterDisplayCallback") [("mapping", "None")])] /\
  choose_all cs a [Option "ParameterDisplayCallback"; Field ""] = [("layout", Text "L"); ("callback", Text "None")] /\
  choose_all cs [] [Field "None"] = [("callback", Object (Some "None") [])].
Proof.
  cbn zeta. split; [reflexivity|]. split.
  { eexists [_], [_]. split; [reflexivity|]. split; [reflexivity|]. cbn. intros [H|[]]. discriminate. }
  repeat split; try reflexivity; try (intros e H; discriminate). repeat constructor; cbn; intuition discriminate.
Qed.
