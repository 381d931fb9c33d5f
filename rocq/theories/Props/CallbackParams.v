(* C122: parameters of the callbacks of a display. *)
From Coq Require Import String Ascii.
From Verif.Lib Require Import Base.
From Verif.Model Require Import Label Pages Elements CallbackParams.
From Verif.Spec Require Import CallbackParams.
From Verif.Spec Require Elements.
From Verif.Props Require Elements.
Local Open Scope list_scope.
Local Open Scope string_scope.

Lemma plain_default p d : plain p d -> default_value p = d.
Proof. intros (A & B & N). unfold default_value. rewrite A, B. cbn [truthy]. destruct d; [congruence|reflexivity]. Qed.
Lemma is_kind_spec t p : is_kind t p = true <-> kind p = Some t.
Proof. unfold is_kind. destruct (kind p) as [k|]; [|split; discriminate]. rewrite String.eqb_eq. split; congruence. Qed.
Lemma unconvert_code p i : kind p <> Some "int" -> fits p i -> unconvert p i = code i.
Proof.
  intros I F. unfold unconvert. destruct (is_kind "int" p) eqn:E; [apply is_kind_spec in E; congruence|].
  destruct (is_kind "bool" p) eqn:B.
  - apply is_kind_spec in B. destruct i as [s|[]]; cbn in *; [congruence|reflexivity|reflexivity].
  - destruct i as [s|b]; [reflexivity|]. cbn in F. apply is_kind_spec in F. congruence.
Qed.
Lemma get_change a o n : get_argument n (change a o) =
  if String.eqb (p_name (fst o)) n then (if String.eqb (unconvert (fst o) (snd o)) (default_value (fst o)) then None else Some (unconvert (fst o) (snd o))) else get_argument n a.
Proof. unfold change. destruct (String.eqb (unconvert _ _) _); [apply Elements.get_remove|apply Elements.get_put]. Qed.
Lemma changes_snoc a h o : changes a (h ++ [o]) = change (changes a h) o.
Proof. unfold changes. rewrite fold_left_app. reflexivity. Qed.
Lemma last_snoc n h o : last_choice n (h ++ [o]) = if String.eqb (p_name (fst o)) n then Some (snd o) else last_choice n h.
Proof. unfold last_choice. rewrite fold_left_app. reflexivity. Qed.
Lemma same_name ps p q : NoDup (map p_name ps) -> In p ps -> In q ps -> p_name p = p_name q -> p = q.
Proof.
  induction ps as [|x ps IH]; intros N P Q E; [destruct P|]. inversion N as [|? ? X N2]; subst. destruct P as [->|P], Q as [->|Q]; auto.
  - exfalso. apply X. rewrite E. apply in_map. exact Q.
  - exfalso. apply X. rewrite <- E. apply in_map. exact P.
Qed.

(* After any changes, the callback gets what was chosen last, or what it got before, for all parameters but numbers, if the default is that of the code.
   Missing: numbers (C122_number_refuted) and defaults in the metadata which differ (C122_default_refuted). *)
Theorem C122_received_partial : forall ps a h p d, NoDup (map p_name ps) -> (forall o, In o h -> In (fst o) ps /\ fits (fst o) (snd o)) -> In p ps ->
  kind p <> Some "int" -> plain p d ->
  received p (changes a h) = match last_choice (p_name p) h with Some i => Some (code i) | None => received p a end.
Proof.
  intros ps a h p d N H I K P. induction h as [|o h IH] using rev_ind; [reflexivity|]. rewrite changes_snoc, last_snoc. unfold received in *. rewrite get_change.
  destruct (String.eqb_spec (p_name (fst o)) (p_name p)) as [E|E].
  - destruct (H o) as [O F]; [apply in_app_iff; right; left; reflexivity|]. assert (fst o = p) as X by (eapply same_name; eauto). rewrite X in *. rewrite unconvert_code by assumption.
    rewrite (plain_default p d P). destruct (String.eqb_spec (code (snd o)) d) as [->|]; [|reflexivity]. apply P.
  - apply IH. intros q Q. apply H. apply in_app_iff. left. exact Q.
Qed.
Print Assumptions C122_received_partial.

(* The fields show what the callback gets, for all parameters but numbers. *)
Theorem C122_shown_partial : forall p a d v, kind p <> Some "int" -> plain p d -> received p a = Some v -> v <> "" -> faithful p v (current p a).
Proof.
  intros p a d v K P R N. unfold current. replace (match truthy (get_argument (p_name p) a) with Some w => w | None => default_value p end) with v.
  - unfold faithful, convert. unfold is_kind. destruct (kind p) as [k|] eqn:Y; [|reflexivity].
    destruct (String.eqb_spec k "int") as [->|NI]; [congruence|]. destruct (String.eqb_spec k "bool") as [->|NB]; [split; intros ->; reflexivity|].
    repeat match goal with |- context [match ?x with _ => _ end] => is_var x; destruct x end; first [reflexivity|congruence].
  - unfold received in R. rewrite (plain_default p d P). destruct (get_argument (p_name p) a) as [w|]; cbn.
    + injection R as ->. destruct v; [congruence|reflexivity].
    + destruct P as (_ & P & _). congruence.
Qed.
Print Assumptions C122_shown_partial.

(* The arguments which no change is about stay as they are, in their order, and none is given twice. *)
Theorem C122_others : forall a h, Spec.Elements.untouched (map (fun o => p_name (fst o)) h) (changes a h) = Spec.Elements.untouched (map (fun o => p_name (fst o)) h) a.
Proof.
  assert (R : forall h names l, incl (map (fun o => p_name (fst o)) h) names -> Spec.Elements.untouched names (changes l h) = Spec.Elements.untouched names l).
  { induction h as [|o h IH] using rev_ind; intros names l I; [reflexivity|]. rewrite changes_snoc. rewrite map_app in I.
    rewrite <- (IH names l) by (intros x X; apply I; apply in_app_iff; left; exact X). unfold change.
    assert (In (p_name (fst o)) names) by (apply I; apply in_app_iff; right; left; reflexivity). destruct (String.eqb _ _); auto using @Elements.untouched_put, @Elements.untouched_remove. }
  intros a h. apply R. intros x X. exact X.
Qed.
Print Assumptions C122_others.

Theorem C122_once : forall a h, NoDup (map fst a) -> NoDup (map fst (changes a h)).
Proof.
  intros a h N. induction h as [|o h IH] using rev_ind; [exact N|]. rewrite changes_snoc. unfold change. destruct (String.eqb _ _).
  - apply Elements.remove_names. exact IH.
  - apply Elements.put_names. exact IH.
Qed.
Print Assumptions C122_once.

Lemma quoted_nan r : parse_int (String """" r) = None.
Proof. unfold parse_int. cbn [skip_space]. change (is_space """") with false. cbn iota. change (Ascii.eqb """" "-") with false. change (Ascii.eqb """" "+") with false. cbn iota. unfold unsigned. destruct r; reflexivity. Qed.

(* Check boxes are shown exactly for the parameters whose type is bool, or without type, whose default is True or False. *)
Theorem C122_check_boxes : forall p d, plain p d ->
  (forall a, (exists b, current p a = ShowCheck b) <-> p_type p = Some "bool" \/ ((p_type p = None \/ p_type p = Some "") /\ (d = "True" \/ d = "False"))).
Proof.
  intros p d P a. assert (X : (exists b, current p a = ShowCheck b) <-> kind p = Some "bool").
  { unfold current, convert. destruct (is_kind "int" p) eqn:I.
    - apply is_kind_spec in I. rewrite I. split; [intros [b B]; discriminate|discriminate].
    - destruct (is_kind "bool" p) eqn:B; [apply is_kind_spec in B; split; [intros _; exact B|eauto]|]. split; [intros [b Q]; discriminate|]. intros Q. apply is_kind_spec in Q. congruence. }
  rewrite X. unfold kind. rewrite (plain_default p d P). destruct (p_type p) as [t|].
  - destruct t as [|c t].
    + cbn [truthy]. destruct (String.eqb_spec d "False") as [->|F]; [cbn; intuition|]. destruct (String.eqb_spec d "True") as [->|T]; [cbn; intuition|]. cbn [orb].
      split; [destruct (parse_int d) as [z|]; [destruct (Z.eqb z 0)|]; discriminate|]. intros [Q|[_ [Q|Q]]]; congruence.
    + cbn [truthy]. split; [intros Q; left; exact Q|]. intros [Q|[[Q|Q] _]]; congruence.
  - cbn [truthy]. destruct (String.eqb_spec d "False") as [->|F]; [cbn; intuition|]. destruct (String.eqb_spec d "True") as [->|T]; [cbn; intuition|]. cbn [orb].
    split; [destruct (parse_int d) as [z|]; [destruct (Z.eqb z 0)|]; discriminate|]. intros [Q|[_ [Q|Q]]]; congruence.
Qed.
Print Assumptions C122_check_boxes.

(* Numbers: whatever is typed, the callback gets a text in quotes instead of a number, and the field does not show a number any more. *)
Theorem C122_number_refuted : forall p d a s, kind p = Some "int" -> plain p d -> parse_int d <> None ->
  let a' := change a (p, Typed s) in (exists t, received p a' = Some (String """" t)) /\ current p a' = ShowNumber None.
Proof.
  intros p d a s K P D. cbn zeta. assert (U : unconvert p (Typed s) = String """" (number_text (Typed s) ++ """")) by (unfold unconvert; apply is_kind_spec in K; rewrite K; reflexivity).
  assert (G : get_argument (p_name p) (change a (p, Typed s)) = Some (String """" (number_text (Typed s) ++ """"))).
  { rewrite get_change. cbn [fst snd]. rewrite String.eqb_refl, U, (plain_default p d P). destruct (String.eqb_spec (String """" (number_text (Typed s) ++ """")) d) as [E|]; [|reflexivity].
    exfalso. apply D. rewrite <- E. apply quoted_nan. }
  split.
  - unfold received. rewrite G. eauto.
  - unfold current. rewrite G. cbn [truthy]. unfold convert. apply is_kind_spec in K. rewrite K, quoted_nan. reflexivity.
Qed.
Print Assumptions C122_number_refuted.

(* A default of the metadata which differs from the one of the code: choosing it gives the other one. *)
Theorem C122_default_refuted : forall p m d a i, kind p <> Some "int" -> fits p i -> p_default p = Some m -> m <> "" -> p_python p = Some d -> code i = m ->
  received p (change a (p, i)) = Some d.
Proof.
  intros p m d a i K F M N P C. unfold received. rewrite get_change. cbn [fst snd]. rewrite String.eqb_refl, (unconvert_code p i K F).
  assert (default_value p = m) as -> by (unfold default_value; rewrite M; destruct m; [congruence|reflexivity]). rewrite C, String.eqb_refl. exact P.
Qed.
Print Assumptions C122_default_refuted.

(* content/lib/pyswitch/clients/kemper/__init__.py 143-164 with definitions/meta.json 739-766: the parameters of the tuner display *)
Definition strobe := mkParam "strobe" None None None None (Some "False").
Definition strobe_color := mkParam "strobe_color" (Some "color") None None None (Some "Colors.WHITE").
Definition strobe_speed := mkParam "strobe_speed" None None None None (Some "1000").
Definition calibration_high := mkParam "calibration_high" None None None None (Some "8192 + 350").

(* The threshold for the tuner is shown as another number than the one in use. *)
Theorem C122_sum_refuted : current calibration_high [] = ShowNumber (Some 8192%Z) /\ received calibration_high [] = Some "8192 + 350".
Proof. split; vm_compute; reflexivity. Qed.
Print Assumptions C122_sum_refuted.

Example ex_callback_params :
  let ps := [strobe; strobe_color; strobe_speed; calibration_high] in let a := [("splash_default", "Splash"); ("strobe_color", "Colors.RED")] in
  let h := [(strobe, Checked true); (strobe_color, Typed "Colors.BLUE"); (strobe, Checked false); (strobe, Checked true); (strobe_color, Typed "Colors.WHITE")] in
  NoDup (map p_name ps) /\ (forall o, In o h -> In (fst o) ps /\ fits (fst o) (snd o)) /\ kind strobe = Some "bool" /\ kind strobe_color = Some "color" /\ kind strobe_speed = Some "int" /\
  plain strobe "False" /\ plain strobe_color "Colors.WHITE" /\ plain strobe_speed "1000" /\
  changes a h = [("splash_default", "Splash"); ("strobe", "True")] /\ received strobe (changes a h) = Some "True" /\ received strobe_color (changes a h) = Some "Colors.WHITE" /\
  current strobe (changes a h) = ShowCheck true /\ current strobe_speed [] = ShowNumber (Some 1000%Z) /\
  change [] (strobe_speed, Typed "500") = [("strobe_speed", """500""")] /\ change [] (strobe_speed, Typed "1000") = [("strobe_speed", """1000""")].
Proof.
  cbn zeta. split; [repeat constructor; cbn; intuition discriminate|]. split.
  { intros o O. cbn in O. decompose [or] O; subst; try contradiction; (split; [cbn; tauto|cbn; first [reflexivity|discriminate]]). }
  repeat split; try discriminate; vm_compute; reflexivity.
Qed.
Example ex_default : let p := mkParam "mode" (Some "select") (Some "'a'") None None (Some "'b'") in
  kind p <> Some "int" /\ fits p (Typed "'a'") /\ received p (change [("mode", "'c'")] (p, Typed "'a'")) = Some "'b'".
Proof. cbn zeta. repeat split; try discriminate; vm_compute; reflexivity. Qed.
