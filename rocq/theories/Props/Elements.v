(* C115: the parameters of tuners and labels in the display editor. *)
From Coq Require Import String.
From Verif.Lib Require Import Base.
From Verif.Model Require Import Properties Elements.
From Verif.Spec Require Import Elements.
Local Open Scope list_scope.
Local Open Scope string_scope.

Lemma get_put {V} n (v : V) l p : get_argument p (put_argument n v l) = if String.eqb n p then Some v else get_argument p l.
Proof.
  induction l as [|[m w] l IH]; cbn; [destruct (String.eqb n p); reflexivity|]. destruct (String.eqb_spec m n) as [->|N]; cbn.
  - destruct (String.eqb_spec n p); reflexivity.
  - rewrite IH. destruct (String.eqb_spec m p) as [->|]; [|reflexivity]. destruct (String.eqb_spec n p); [congruence|reflexivity].
Qed.
Lemma get_remove {V} n (l : list (string * V)) p : get_argument p (remove_argument n l) = if String.eqb n p then None else get_argument p l.
Proof.
  induction l as [|[m w] l IH]; cbn; [destruct (String.eqb n p); reflexivity|]. destruct (String.eqb_spec m n) as [->|N]; cbn.
  - fold (remove_argument n l). rewrite IH. destruct (String.eqb_spec n p); reflexivity.
  - fold (remove_argument n l). rewrite IH. destruct (String.eqb_spec m p) as [->|]; [|reflexivity]. destruct (String.eqb_spec n p); [congruence|reflexivity].
Qed.
Lemma untouched_put {V} names n (v : V) l : In n names -> untouched names (put_argument n v l) = untouched names l.
Proof.
  intros I. assert (X : existsb (String.eqb n) names = true) by (apply existsb_exists; exists n; split; [exact I|apply String.eqb_refl]).
  unfold untouched. induction l as [|[m w] l IH]; cbn; [rewrite X; reflexivity|]. destruct (String.eqb_spec m n) as [->|N]; cbn; [rewrite X; reflexivity|]. rewrite IH. reflexivity.
Qed.
Lemma untouched_remove {V} names n (l : list (string * V)) : In n names -> untouched names (remove_argument n l) = untouched names l.
Proof.
  intros I. assert (X : existsb (String.eqb n) names = true) by (apply existsb_exists; exists n; split; [exact I|apply String.eqb_refl]).
  unfold untouched, remove_argument. induction l as [|[m w] l IH]; cbn; [reflexivity|]. destruct (String.eqb_spec m n) as [->|N]; cbn; [rewrite X; exact IH|].
  rewrite IH. reflexivity.
Qed.
Lemma get_set n v d a p : get_argument p (set_parameter n v d a) = if String.eqb n p then (if equals v d then None else Some v) else get_argument p a.
Proof. unfold set_parameter. destruct (equals v d); [apply get_remove|apply get_put]. Qed.
Lemma run_snoc a h o : run a (h ++ [o]) = step (run a h) o.
Proof. unfold run. rewrite fold_left_app. reflexivity. Qed.
Lemma field_names p : In p fields <-> get_argument p tuner_fields <> None.
Proof.
  unfold fields, tuner_fields. cbn [In get_argument]. split.
  - intros H. repeat (destruct H as [<-|H]; [cbn; discriminate|]). destruct H.
  - intros H. repeat match type of H with (if String.eqb ?x p then _ else _) <> None => destruct (String.eqb_spec x p) as [E|_]; [rewrite <- E; repeat first [left; reflexivity|right]|] end.
    exfalso. apply H. reflexivity.
Qed.
Lemma default_same p d e : get_argument p tuner_fields = Some (d, e) -> get_argument p tuner_defaults = Some d /\ (e = None \/ e = Some d) /\ p <> "mapping_note" /\ p <> "mapping_deviance" /\ p <> "layout".
Proof.
  intros H. assert (I : In p fields) by (apply field_names; rewrite H; discriminate). unfold fields in I. cbn [In] in I.
  repeat (destruct I as [<-|I]; [cbn in H; injection H as <- <-; cbn; repeat split; auto; discriminate|]). destruct I.
Qed.

(* Every field of a tuner shows the code the firmware uses, whether there is an argument or not. *)
Theorem C115_shown : forall a p, In p fields -> (forall n l, get_argument p a <> Some (Object n l)) -> exists c, field_value p a = Some c /\ used p a = Some c.
Proof.
  intros a p I T. apply field_names in I. unfold field_value, used. destruct (get_argument p tuner_fields) as [[d e]|] eqn:E; [|contradiction].
  destruct (default_same p d e E) as (D & _). destruct (get_argument p a) as [[c|n l]|]; [exists c; auto|exfalso; exact (T n l eq_refl)|exists d; auto].
Qed.
Print Assumptions C115_shown.

(* After any changes, the firmware uses what was typed last, and what it used before if nothing was. *)
Theorem C115_used : forall a h p, In p fields -> used p (run a h) = match last_text p h with Some t => Some t | None => used p a end.
Proof.
  intros a h p I. apply field_names in I. destruct (get_argument p tuner_fields) as [[d e]|] eqn:E; [|contradiction]. clear I.
  destruct (default_same p d e E) as (D & G & N1 & N2 & N3).
  induction h as [|o h IH] using rev_ind; [reflexivity|]. rewrite run_snoc. unfold last_text in *. rewrite fold_left_app. cbn [fold_left].
  assert (K : forall q v x, q <> p -> used p (set_parameter q v x (run a h)) = used p (run a h)).
  { intros q v x N. unfold used. rewrite get_set. destruct (String.eqb_spec q p); [contradiction|reflexivity]. }
  destruct o as [q t|c|c|f]; cbn [step].
  - destruct (String.eqb_spec q p) as [->|N].
    + rewrite E. unfold used. rewrite get_set, String.eqb_refl. destruct (equals (Text t) e) eqn:Q; [|reflexivity]. cbn in Q.
      destruct G as [->| ->]; [discriminate|]. apply String.eqb_eq in Q. rewrite Q. exact D.
    + destruct (get_argument q tuner_fields) as [[d' e']|]; [rewrite K by exact N|]; exact IH.
  - rewrite K by congruence. exact IH.
  - rewrite K by congruence. exact IH.
  - rewrite K by congruence. exact IH.
Qed.
Print Assumptions C115_used.

(* The mappings and the font of the note likewise. *)
Theorem C115_chosen : forall a h,
  used "mapping_note" (run a h) = match last_note h with Some c => Some c | None => used "mapping_note" a end /\
  used "mapping_deviance" (run a h) = match last_deviance h with Some c => Some c | None => used "mapping_deviance" a end /\
  note_layout "font" (run a h) = match last_font h with Some f => Some (append "'" (append (strip_quotes f) "'")) | None => note_layout "font" a end.
Proof.
  intros a h. induction h as [|o h (A & B & C)] using rev_ind; [auto|]. rewrite run_snoc. unfold last_note, last_deviance, last_font in *. rewrite !fold_left_app. cbn [fold_left].
  destruct o as [q t|c|c|f]; cbn [step].
  - destruct (get_argument q tuner_fields) as [[d e]|] eqn:E; [|auto]. destruct (default_same q d e E) as (_ & _ & N1 & N2 & N3).
    unfold used, note_layout in *. rewrite !get_set. apply String.eqb_neq in N1, N2, N3. rewrite N1, N2, N3. auto.
  - unfold used, note_layout in *. rewrite !get_set. cbn. auto.
  - unfold used, note_layout in *. rewrite !get_set. cbn. auto.
  - unfold used, note_layout in *. rewrite !get_set. cbn [String.eqb Ascii.eqb Bool.eqb equals]. auto.
Qed.
Print Assumptions C115_chosen.

(* The arguments which no change is about stay as they are, in their order. *)
Theorem C115_others : forall a h, untouched (map about h) (run a h) = untouched (map about h) a.
Proof.
  assert (S : forall names a o, In (about o) names -> untouched names (step a o) = untouched names a).
  { intros names a o I. destruct o as [q t|c|c|f]; cbn [step about] in *;
      [destruct (get_argument q tuner_fields) as [[d e]|]; [|reflexivity]| | |]; unfold set_parameter; destruct (equals _ _); auto using @untouched_put, @untouched_remove. }
  assert (R : forall h names a, incl (map about h) names -> untouched names (run a h) = untouched names a).
  { induction h as [|o h IH] using rev_ind; intros names a I; [reflexivity|]. rewrite run_snoc. rewrite map_app in I. rewrite S by (apply I; apply in_app_iff; right; left; reflexivity).
    apply IH. intros x X. apply I. apply in_app_iff. left. exact X. }
  intros a h. apply R. intros x X. exact X.
Qed.
Print Assumptions C115_others.

(* The list for the deviance shows the mapping of the configuration, if it has no arguments. *)
Theorem C115_deviance_partial : forall options a n, get_argument "mapping_deviance" a = Some (Object (Some n) []) -> In (append n "()") options ->
  used "mapping_deviance" a = Some (deviance_value options a).
Proof.
  intros options a n E I. unfold used, deviance_value, pick. rewrite E. replace (existsb (String.eqb (n ++ "()")) options) with true; [reflexivity|].
  symmetry. apply existsb_exists. exists (append n "()"). split; [exact I|apply String.eqb_refl].
Qed.
Print Assumptions C115_deviance_partial.

(* Labels: after any changes, a field shows what was typed last, the firmware uses it, and its default if the field was cleared. *)
Theorem C115_label : forall l h p,
  layout_value p (run_layout l h) = match last_layout p h with Some t => t | None => layout_value p l end /\
  layout_used p (run_layout l h) = match last_layout p h with Some t => if String.eqb t "" then get_argument p layout_defaults else Some t | None => layout_used p l end.
Proof.
  intros l h p. induction h as [|[q t] h IH] using rev_ind; [auto|]. unfold run_layout, last_layout in *. rewrite !fold_left_app. cbn [fold_left fst snd]. unfold set_layout.
  unfold layout_value, layout_used in *. destruct (String.eqb_spec t "") as [->|N].
  - rewrite get_remove. destruct (String.eqb q p); [auto|exact IH].
  - rewrite get_put. destruct (String.eqb q p); [|exact IH]. apply String.eqb_neq in N. rewrite N. auto.
Qed.
Print Assumptions C115_label.

Theorem C115_label_others : forall l h, untouched (map fst h) (run_layout l h) = untouched (map fst h) l.
Proof.
  assert (R : forall h names l, incl (map fst h) names -> untouched names (run_layout l h) = untouched names l).
  { induction h as [|[q t] h IH] using rev_ind; intros names l I; [reflexivity|]. unfold run_layout in *. rewrite fold_left_app. cbn [fold_left fst snd]. rewrite map_app in I.
    rewrite <- (IH names l) by (intros x X; apply I; apply in_app_iff; left; exact X). unfold set_layout.
    assert (In q names) by (apply I; apply in_app_iff; right; left; reflexivity). destruct (String.eqb t ""); auto using @untouched_put, @untouched_remove. }
  intros l h. apply R. intros x X. exact X.
Qed.
Print Assumptions C115_label_others.

(* C115: no argument is given twice (which would be an error in Python) *)
Lemma put_names {V} n (v : V) l : NoDup (map fst l) -> NoDup (map fst (put_argument n v l)) /\ forall x, In x (map fst (put_argument n v l)) -> x = n \/ In x (map fst l).
Proof.
  induction l as [|[m w] l IH]; cbn; intros D; [split; [repeat constructor; intros []|intros x [<-|[]]; auto]|]. inversion D as [|? ? D1 D2]; subst. destruct (IH D2) as [A B].
  destruct (String.eqb_spec m n) as [->|N]; cbn; [split; [exact D|intros x [<-|I]; auto]|]. split; [constructor; [|exact A]|intros x [<-|I]; [auto|destruct (B x I); auto]].
  intros I. destruct (B m I); [congruence|contradiction].
Qed.
Lemma remove_names {V} n (l : list (string * V)) : NoDup (map fst l) -> NoDup (map fst (remove_argument n l)).
Proof.
  unfold remove_argument. induction l as [|[m w] l IH]; cbn; intros D; [constructor|]. inversion D as [|? ? D1 D2]; subst. destruct (String.eqb m n); cbn; [auto|]. constructor; [|auto].
  intros I. apply D1. apply in_map_iff in I. destruct I as (y & <- & Y). apply filter_In in Y. apply in_map. apply Y.
Qed.
Theorem C115_once : (forall a h, NoDup (map fst a) -> NoDup (map fst (run a h))) /\ (forall l h, NoDup (map fst l) -> NoDup (map fst (run_layout l h))).
Proof.
  assert (S : forall p v x a, NoDup (map fst a) -> NoDup (map fst (set_parameter p v x a))).
  { intros p v x a D. unfold set_parameter. destruct (equals v x); [apply remove_names; exact D|apply put_names; exact D]. }
  split.
  - intros a h D. induction h as [|o h IH] using rev_ind; [exact D|]. rewrite run_snoc. destruct o as [q t|c|c|f]; cbn [step]; [destruct (get_argument q tuner_fields) as [[d e]|]; [|exact IH]| | |]; auto.
  - intros l h D. induction h as [|[q t] h IH] using rev_ind; [exact D|]. unfold run_layout in *. rewrite fold_left_app. cbn [fold_left fst snd]. unfold set_layout. destruct (String.eqb t ""); [apply remove_names; exact IH|apply put_names; exact IH].
Qed.
Print Assumptions C115_once.

(* The full claim fails. Clearing a field of a tuner leaves an argument without code. *)
Theorem C115_empty_refuted : ~ (forall a h p c, In p fields -> used p a <> Some "" -> used p (run a h) = Some c -> c <> "").
Proof. intros H. apply (H [] [Field "calibration_high" ""] "calibration_high" ""); [cbn; tauto|discriminate|reflexivity|reflexivity]. Qed.
(* The list for the note does not show the mapping of the configuration. *)
Theorem C115_note_refuted : ~ (forall options a n, get_argument "mapping_note" a = Some (Object (Some n) []) -> In (append n "()") options -> used "mapping_note" a = Some (note_value options a)).
Proof. intros H. specialize (H ["KemperMappings.TUNER_NOTE()"] [("mapping_note", Object (Some "KemperMappings.TUNER_NOTE") [])] _ eq_refl (or_introl eq_refl)). discriminate. Qed.
(* The list for the deviance does not show the mapping which was chosen, when the parameters are shown again. *)
Theorem C115_deviance_refuted : ~ (forall options a c, In c options -> deviance_value options (run a [Deviance c]) = c).
Proof. intros H. specialize (H ["KemperMappings.TUNER_DEVIANCE()"] [] _ (or_introl eq_refl)). discriminate. Qed.
(* Choosing the font of the note drops all the rest of its layout. *)
Theorem C115_font_refuted : ~ (forall a f p, p <> "font" -> note_layout p (run a [Font f]) = note_layout p a).
Proof. intros H. specialize (H [("layout", Object None [("font", "'/fonts/A12.pcf'"); ("textColor", "Colors.RED")])] "/fonts/H20.pcf" "textColor"). discriminate H. discriminate. Qed.
Print Assumptions C115_empty_refuted.
Print Assumptions C115_note_refuted.
Print Assumptions C115_deviance_refuted.
Print Assumptions C115_font_refuted.

Example ex_elements :
  let a := [("mapping_note", Object (Some "KemperMappings.TUNER_NOTE") []); ("bounds", Object (Some "DisplayBounds") [("x", "0")]); ("scale", Text "3")] in
  let h := [Field "deviance_zoom" "3.1"; Field "scale" "1"; Note "None"; Field "deviance_zoom" "2"; Font "/fonts/H20.pcf"] in
  used "scale" a = Some "3" /\ used "scale" (run a h) = Some "1" /\ field_value "deviance_zoom" (run a h) = Some "2" /\ used "calibration_low" (run a h) = Some "8192 - 350" /\
  untouched (map about h) (run a h) = [("bounds", Object (Some "DisplayBounds") [("x", "0")])] /\ note_layout "font" (run a h) = Some "'/fonts/H20.pcf'" /\
  run_layout [("font", "'/fonts/H20.pcf'"); ("stroke", "1")] [("stroke", ""); ("text", "'A'"); ("text", "'B'")] = [("font", "'/fonts/H20.pcf'"); ("text", "'B'")].
Proof. vm_compute. repeat split; reflexivity. Qed.
