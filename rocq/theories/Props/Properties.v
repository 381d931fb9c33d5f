(* C93: the dialog for the properties of an action changes only what the user changes *)
From Coq Require Import String Ascii.
From Verif.Lib Require Import Base.
From Verif.Model Require Import Properties.
From Verif.Spec Require Import Properties.
From Verif.Proofs Require Import Properties.
Open Scope string_scope.
Open Scope Z_scope.
Local Open Scope list_scope.

(* Opening the dialog for an existing action and applying it without any change gives an action which does the same. Only for values the inputs can show, and for
   parameters whose default in the dialog is the one of Python: the others are refuted below. *)
Theorem C93_keeps_partial k ps args : valid_call ps args -> (forall p, In p ps -> default_value p <> None) ->
  (forall p, In p ps -> exists v, given p args = Some v /\ shows k args p v) -> (forall p, In p ps -> argument (p_name p) args = None -> honest p) ->
  (forall p, In p ps -> takes_page k p -> type_of p = "select-page") -> one_list k ps -> keeps k ps args.
Proof. apply keeps_ok. Qed.
Print Assumptions C93_keeps_partial.

(* Whatever has been done before: a change of one parameter leaves all others as they are *)
Theorem C93_others k ps args f e out out' p : NoDup (map p_name ps) -> reached k ps args f -> commit f = Some out -> commit (edit_form k f e) = Some out' ->
  In p ps -> p_name p <> target e -> given p out' = given p out.
Proof.
  intros N R C C' Q E. pose proof (reached_params _ _ _ _ R) as PS. destruct (params_entry f p) as [w [I _]]; [rewrite PS; exact N|rewrite PS; exact Q|].
  destruct (get_value p w) as [v|] eqn:G; [|destruct (commit_get _ _ _ _ C I G)]. rewrite (given_commit p f w v out); [|rewrite PS; exact N|exact C|exact I|exact G].
  apply (given_commit p (edit_form k f e) w); [rewrite edit_params, PS; exact N|exact C'|apply edit_other; [apply (reached_stable _ _ _ _ R)|exact I|exact E]|exact G].
Qed.
Print Assumptions C93_others.

(* ... and the parameter gets the value which has been entered *)
Theorem C93_enter k ps args f e out' p s : NoDup (map p_name ps) -> (forall p, In p ps -> default_value p <> None) -> reached k ps args f -> commit (edit_form k f e) = Some out' ->
  In p ps -> target e = p_name p -> ~ takes_page k p -> means p e s -> exists v, given p out' = Some v /\ entered_as p e s v.
Proof.
  intros N D R C Q E T M. destruct (means_ok k ps args f e p s N (D p Q) R Q T E M) as [w [v [I [G A]]]]. exists v. split; [|exact A].
  apply (given_commit p (edit_form k f e) w); [rewrite edit_params, (reached_params _ _ _ _ R); exact N|exact C|exact I|exact G].
Qed.
Print Assumptions C93_enter.

(* Applying never fails, and what is applied is always a call with arguments of the action only, none of them twice *)
Theorem C93_apply k ps args f : NoDup (map p_name ps) -> (forall p, In p ps -> default_value p <> None) -> reached k ps args f ->
  exists out, commit f = Some out /\ valid_call ps out.
Proof.
  intros N D R. pose proof (reached_params _ _ _ _ R) as PS. destruct (commit_ok f) as [out [C [ND [IN _]]]]; [rewrite PS; exact N|intros p w I; apply get_some, D; rewrite <- PS; apply (in_map fst _ _ I)|].
  exists out. split; [exact C|]. split; [exact N| |exact ND|].
  - rewrite Forall_forall. intros a A. destruct (IN (fst a) (in_map fst _ _ A)) as [p [Q E]]. exists p. rewrite <- PS. auto.
  - intros p Q. destruct (params_entry f p) as [w [I _]]; [rewrite PS; exact N|rewrite PS; exact Q|]. destruct (get_value p w) as [v|] eqn:G; [|destruct (get_some p w (D p Q) G)].
    rewrite (given_commit p f w v out); [discriminate|rewrite PS; exact N|exact C|exact I|exact G].
Qed.
Print Assumptions C93_apply.

(* Selecting another action in the dialog: it takes over the values of parameters which both actions have, unless they are the default or texts; all others begin with their defaults *)
Theorem C93_select ps old f out p : NoDup (map p_name ps) -> (forall p, In p ps -> default_value p <> None) -> select Plain ps old = Some f -> commit f = Some out -> In p ps ->
  match entry (p_name p) old with
  | Some (q, w) => forall v, get_value q w = Some v -> type_of p <> "text" -> fits p v -> (forall d, default_value q = Some d -> v <> Code d) -> exists v', given p out = Some v' /\ same_value v v'
  | None => forall d, honest p -> p_default p = Some d -> fits p (Code d) -> exists v', given p out = Some v' /\ same_value (Code d) v'
  end.
Proof.
  intros N D S C Q. unfold select in S. destruct (create_all ps) as [f0|] eqn:C0; [|discriminate]. destruct (take_all old f0) as [f1|] eqn:TA; [|discriminate]. cbn [update] in S. injection S as <-.
  assert (map fst f1 = ps /\ forall q w, In (q, w) f1 -> exists w0, create q = Some w0 /\ take_over old q w0 = Some w) as [PS H].
  { clear - C0 TA. revert f0 f1 C0 TA. induction ps as [|q ps IH]; intros f0 f1 C T; cbn in C.
    - injection C as <-. cbn in T. injection T as <-. split; [reflexivity|intros ? ? []].
    - destruct (create q) as [w|] eqn:W; [|discriminate]. destruct (create_all ps) as [g|]; [|discriminate]. injection C as <-. cbn in T. destruct (take_over old q w) as [w'|] eqn:TO; [|discriminate]. destruct (take_all old g) as [g'|] eqn:TA; [|discriminate]. injection T as <-.
      destruct (IH g g' eq_refl TA) as [A B]. split; [cbn; congruence|]. intros q' x [[= <- <-]|I]; eauto. }
  destruct (params_entry f1 p) as [w [I _]]; [rewrite PS; exact N|rewrite PS; exact Q|]. destruct (H p w I) as [w0 [CR TO]]. unfold take_over in TO.
  assert (forall v, get_value p w = Some v -> given p out = Some v) as GC by (intros v; apply (given_commit p f1 w v out); [rewrite PS; exact N|exact C|exact I]).
  destruct (entry (p_name p) old) as [[q x]|].
  - intros v G T F Nd. rewrite (eqb_no _ _ T), G in TO. destruct v as [s|l|]; [| |inversion F].
    + destruct (default_value q) as [d|]; [|discriminate]. rewrite (eqb_no s d) in TO by (intros ->; apply (Nd d); reflexivity). destruct (set_get p _ w0 F (D p Q) CR) as [w' [v' [SV [_ [G' SA]]]]]. rewrite SV in TO. injection TO as ->. exists v'. auto.
    + destruct (default_value q) as [d|]; [|discriminate]. destruct (set_get p _ w0 F (D p Q) CR) as [w' [v' [SV [_ [G' SA]]]]]. rewrite SV in TO. injection TO as ->. exists v'. auto.
  - intros d Ho PD F. assert (w = w0) as -> by (destruct (String.eqb _ _); congruence). destruct (create_get p d w0 F (honest_default p d Ho PD) CR) as [v' [G SA]]. exists v'. auto.
Qed.
Print Assumptions C93_select.

(* ... and another action can always be selected, if the parameters which both have agree on being a list of pages *)
Theorem C93_selectable k ps old : (forall p, In p ps -> default_value p <> None) -> (forall q w, In (q, w) old -> default_value q <> None) ->
  (forall p q w, In p ps -> In (q, w) old -> p_name q = p_name p -> (type_of p = "pages" <-> exists l, get_value q w = Some (Pages l))) -> exists f, select k ps old = Some f.
Proof.
  intros D DO A. unfold select. destruct (create_all_ok ps) as [f0 [C [M CR]]].
  { intros p Q. pose proof (D p Q) as DP. unfold create. destruct (default_value p); [|contradiction]. repeat destruct (String.eqb _ _); try discriminate; destruct (options p); discriminate. }
  rewrite C. assert (forall p w, In (p, w) f0 -> take_over old p w <> None) as T.
  { intros p w I. assert (In p ps) as Q by (rewrite <- M; apply (in_map fst _ _ I)). specialize (CR p w I). unfold take_over. destruct (String.eqb_spec (type_of p) "text"); [discriminate|].
    destruct (entry (p_name p) old) as [[q x]|] eqn:E; [|discriminate]. apply entry_in in E. destruct E as [IO NE]. pose proof (A p q x Q IO NE) as AG. pose proof (DO q x IO) as DQ.
    destruct (get_value q x) as [v|] eqn:G; [|destruct (get_some q x DQ G)]. destruct (default_value q) as [d|]; [|contradiction].
    assert ((exists l, w = PageList l) <-> type_of p = "pages") as PL.
    { unfold create in CR. destruct (String.eqb_spec (type_of p) "select-page") as [E|_]; [injection CR as <-; rewrite E; split; [intros [? ?]|]; discriminate|].
      destruct (String.eqb_spec (type_of p) "pages") as [E|E]; [injection CR as <-; rewrite E; split; eauto|]. split; [|contradiction]. intros [l ->]. destruct (default_value p); [|discriminate].
      repeat destruct (String.eqb _ _); try discriminate; destruct (options p); discriminate. }
    destruct v as [s|l|]; [| |discriminate].
    - destruct (String.eqb s d); [discriminate|]. destruct w; try discriminate. exfalso. destruct AG as [AG _]. destruct AG as [l' AG]; [apply PL; eauto|]. discriminate.
    - assert (type_of p = "pages") as TP by (apply AG; eauto). apply PL in TP. destruct TP as [l' ->]. discriminate. }
  assert (exists f1, take_all old f0 = Some f1) as [f1 ->]; [|eauto]. clear - T. induction f0 as [|[p w] f0 IH]; [exists []; reflexivity|]. cbn [take_all].
  pose proof (T p w (or_introl eq_refl)) as H. destruct (take_over old p w) as [w'|]; [|contradiction]. destruct IH as [f1 ->]; [intros; apply T; right; assumption|]. eauto.
Qed.
Print Assumptions C93_selectable.
Example ex_selectable : select Plain [{| p_name := "value_on"; p_default := Some "1"; p_type := None; p_meta := None; p_values := None; p_found := None; p_raw := []; p_min := None |}; {| p_name := "text"; p_default := Some "''"; p_type := Some "text"; p_meta := None; p_values := None; p_found := None; p_raw := []; p_min := None |}]
    [({| p_name := "value_on"; p_default := Some "1"; p_type := None; p_meta := None; p_values := None; p_found := None; p_raw := []; p_min := None |}, Number "5")] =
  Some [({| p_name := "value_on"; p_default := Some "1"; p_type := None; p_meta := None; p_values := None; p_found := None; p_raw := []; p_min := None |}, Number "5");
        ({| p_name := "text"; p_default := Some "''"; p_type := Some "text"; p_meta := None; p_values := None; p_found := None; p_raw := []; p_min := None |}, Field "''")].
Proof. reflexivity. Qed.

(* A new action begins with its defaults *)
Theorem C93_new ps f out p d : NoDup (map p_name ps) -> select Plain ps [] = Some f -> commit f = Some out -> In p ps -> starts p d -> given p out = Some (Code d).
Proof.
  intros N S C Q ST. unfold select in S. destruct (create_all ps) as [f0|] eqn:C0; [|discriminate].
  assert (H : forall f0 f1, take_all [] f0 = Some f1 -> f1 = f0).
  { intros g. induction g as [|[q w] g IH]; cbn; intros f1 T; [injection T as <-; reflexivity|]. unfold take_over in T. cbn [entry find] in T.
    destruct (String.eqb (type_of q) "text"); (destruct (take_all [] g) as [g'|] eqn:E; [|discriminate]); injection T as <-; rewrite (IH _ eq_refl); reflexivity. }
  destruct (take_all [] f0) as [f1|] eqn:TA; [|discriminate]. apply H in TA. subst f1. cbn [update] in S. injection S as <-.
  assert (PS : map fst f0 = ps /\ forall q w, In (q, w) f0 -> create q = Some w).
  { clear - C0. revert f0 C0. induction ps as [|q ps IH]; intros f0 C; cbn in C; [injection C as <-; split; [reflexivity|intros ? ? []]|].
    destruct (create q) as [w|] eqn:W; [|discriminate]. destruct (create_all ps) as [g|]; [|discriminate]. injection C as <-. destruct (IH g eq_refl) as [A B].
    split; [cbn; congruence|]. intros q' x [[= <- <-]|I]; auto. }
  destruct PS as [PS CR]. destruct (params_entry f0 p) as [w [I _]]; [rewrite PS; exact N|rewrite PS; exact Q|]. specialize (CR p w I).
  apply (given_commit p f0 w); [rewrite PS; exact N | exact C | exact I |].
  assert (LN : forall s, single_line s -> line s = s) by (intros s Hs; apply line_single; exact Hs).
  unfold create, get_value, convert in *.
  destruct ST as [d Hm Ht Hl Hd | d Hm Hp Ht Hl Hd | Hm Hp Ht | Hm Hp Ht | m Hm Hp Ht Hv Hf Hi Hn | Hm Hp Ht Hv Hf Hi | v l Hm Hp Ht Hv Hd | Hm Hp Ht Hr | Hm Hp Ht].
  - assert (T : type_of p = "color") by (unfold type_of; rewrite Ht; reflexivity). assert (D : default_value p = Some d) by (unfold default_value; rewrite Hm; reflexivity).
    rewrite T, D in CR. cbn in CR. injection CR as <-. rewrite T. cbn. rewrite (LN d Hl). destruct (string_dec d ""); [contradiction|reflexivity].
  - assert (T : type_of p = "color") by (unfold type_of; rewrite Ht; reflexivity). assert (D : default_value p = Some d) by (unfold default_value; rewrite Hm, Hp; reflexivity).
    rewrite T, D in CR. cbn in CR. injection CR as <-. rewrite T. cbn. rewrite (LN d Hl). destruct (string_dec d ""); [contradiction|reflexivity].
  - assert (T : type_of p = "color") by (unfold type_of; rewrite Ht; reflexivity). assert (D : default_value p = Some "(0, 0, 0)") by (unfold default_value; rewrite Hm, Hp, Ht; reflexivity).
    rewrite T, D in CR. cbn in CR. injection CR as <-. rewrite T. reflexivity.
  - assert (T : type_of p = "bool") by (unfold type_of; rewrite Ht; reflexivity). assert (D : default_value p = Some "False") by (unfold default_value; rewrite Hm, Hp, Ht; reflexivity).
    rewrite T, D in CR. cbn in CR. injection CR as <-. reflexivity.
  - assert (T : type_of p = "int") by (unfold type_of; rewrite Ht; reflexivity). assert (D : default_value p = Some m) by (unfold default_value; rewrite Hm, Hp, Ht, Hi; reflexivity).
    assert (O : options p = None) by (unfold options; rewrite Hv; exact Hf). rewrite T, D, O in CR. cbn in CR. injection CR as <-. rewrite T. unfold number. rewrite Hn. cbn. destruct (string_dec m ""); [subst m; discriminate|reflexivity].
  - assert (T : type_of p = "int") by (unfold type_of; rewrite Ht; reflexivity). assert (D : default_value p = Some "0") by (unfold default_value; rewrite Hm, Hp, Ht, Hi; reflexivity).
    assert (O : options p = None) by (unfold options; rewrite Hv; exact Hf). rewrite T, D, O in CR. cbn in CR. injection CR as <-. rewrite T. reflexivity.
  - assert (T : type_of p = "select") by (unfold type_of; rewrite Ht; reflexivity). assert (D : default_value p = Some v) by (unfold default_value; rewrite Hm, Hp, Ht, Hv; reflexivity).
    assert (O : options p = Some (v :: l)) by (unfold options; rewrite Hv; reflexivity). rewrite T, D, O in CR. cbn in CR. unfold choose in CR. destruct (in_dec string_dec v (v :: l)) as [_|X]; [|destruct X; left; reflexivity].
    injection CR as <-. rewrite T. cbn. destruct (string_dec v ""); [contradiction|reflexivity].
  - assert (T : type_of p = "text") by (unfold type_of; rewrite Ht; reflexivity). assert (D : default_value p = Some "") by (unfold default_value; rewrite Hm, Hp, Ht; reflexivity).
    rewrite T, D in CR. cbn in CR. injection CR as <-. rewrite T, D. cbn. destruct (in_dec string_dec "" (p_raw p)); [contradiction|reflexivity].
  - assert (D : default_value p = Some "None") by (unfold default_value; rewrite Hm, Hp, Ht; reflexivity). assert (T : type_of p = "") by (unfold type_of; rewrite Ht, D; reflexivity).
    rewrite T, D in CR. cbn in CR. injection CR as <-. rewrite T. reflexivity.
Qed.
Print Assumptions C93_new.
(* ... and each parameter gets the right kind of input *)
Theorem C93_inputs p w : listed p -> create p = Some w -> has_input p w.
Proof.
  intros [(t & Ht & HT) | (Ht & Hm & Hd)] CR; unfold create in CR.
  - assert (T : type_of p = t) by (unfold type_of; rewrite Ht; reflexivity). rewrite T in CR. unfold options in CR.
    destruct HT as [-> | [-> | [-> | [-> | (-> & HV)]]]]; cbn in CR; destruct (default_value p) as [d|]; try discriminate.
    + injection CR as <-. apply in_bool, Ht.
    + destruct (p_values p) as [l|] eqn:V; [injection CR as <-; apply in_listed; auto|]. destruct (p_found p) as [l|] eqn:F; injection CR as <-; [apply in_found; auto | apply in_number; auto].
    + injection CR as <-. apply in_text; auto.
    + injection CR as <-. apply in_text; auto.
    + destruct (p_values p) as [l|] eqn:V; [injection CR as <-; apply in_listed; auto|]. destruct (p_found p) as [l|] eqn:F; [injection CR as <-; apply in_found; auto|]. destruct HV; contradiction.
  - destruct Hd as [Hd | Hd]; assert (D : default_value p = p_default p) by (unfold default_value; rewrite Hm, Hd; reflexivity); rewrite Hd in D;
      assert (T : type_of p = "bool") by (unfold type_of; rewrite Ht, D; reflexivity); rewrite T, D in CR; cbn in CR; injection CR as <-.
    + apply (in_untyped p true "True"); auto.
    + apply (in_untyped p false "False"); auto.
Qed.
Print Assumptions C93_inputs.

(* Opening and applying changes the action: definitions of the repository (definitions/actions.json, meta.json) *)
Definition def (name : string) (d : option string) (t : option string) : param := {| p_name := name; p_default := d; p_type := t; p_meta := None; p_values := None; p_found := None; p_raw := []; p_min := None |}.
Definition with_found (p : param) (l : list string) : param := {| p_name := p_name p; p_default := p_default p; p_type := p_type p; p_meta := p_meta p; p_values := p_values p; p_found := Some l; p_raw := p_raw p; p_min := p_min p |}.
Definition with_meta (p : param) (m : string) : param := {| p_name := p_name p; p_default := p_default p; p_type := p_type p; p_meta := Some m; p_values := p_values p; p_found := p_found p; p_raw := p_raw p; p_min := p_min p |}.
Definition with_raw (p : param) (l : list string) : param := {| p_name := p_name p; p_default := p_default p; p_type := p_type p; p_meta := p_meta p; p_values := p_values p; p_found := p_found p; p_raw := l; p_min := p_min p |}.

Ltac changed := intros [f [out [O [C [_ H]]]]]; vm_compute in O; injection O as <-; vm_compute in C; injection C as <-.
Ltac valid := split; [repeat constructor; cbn; intuition discriminate|apply names_by; reflexivity|repeat constructor; cbn; intuition discriminate|cbn; intuition (subst; discriminate)].
(* EncoderAction: a reset mapping is added if there is none *)
Definition encoder_reset : param := with_meta (with_found (def "preview_reset_mapping" (Some "None") (Some "select")) ["None"; "KemperMappings.RIG_ID()"]) "KemperMappings.RIG_ID()".
Theorem C93_default_refuted : exists ps args, valid_call ps args /\ (forall p, In p ps -> exists v, given p args = Some v /\ fits p v) /\ ~ keeps Plain ps args.
Proof.
  exists [encoder_reset], []. split; [valid|]. split.
  - intros p [<-|[]]. exists (Code "None"). split; [reflexivity|]. eapply fits_choice; [right; reflexivity|reflexivity|cbn; auto|discriminate|cbn; intuition discriminate].
  - changed. destruct (H encoder_reset (or_introl eq_refl)) as [v [v' [G [G' S]]]]. vm_compute in G, G'. injection G as <-. injection G' as <-. inversion S as [|s t Hs R]; subst. inversion R.
Qed.
Print Assumptions C93_default_refuted.
(* Numbers: everything else is replaced by the default (here: BINARY_SWITCH with a list of values) *)
Theorem C93_number_refuted : exists ps args, valid_call ps args /\ Forall honest ps /\ ~ keeps Plain ps args.
Proof.
  exists [def "value_on" (Some "1") None], [(Some "value_on", Code "[1, 127]")]. split; [valid|]. split; [repeat constructor|]. changed. destruct (H _ (or_introl eq_refl)) as [v [v' [G [G' S]]]]. vm_compute in G, G'. injection G as <-. injection G' as <-. inversion S as [|s t Hs R]; subst. inversion R.
Qed.
Print Assumptions C93_number_refuted.
(* Selections: values which are not offered are lost *)
Theorem C93_choice_refuted : exists ps args, valid_call ps args /\ Forall honest ps /\ ~ keeps Plain ps args.
Proof.
  exists [with_found (def "display" (Some "None") (Some "select")) ["DISPLAY_HEADER_1"; "None"]], [(Some "display", Code "my_label()")]. split; [valid|]. split; [repeat constructor|]. changed. destruct (H _ (or_introl eq_refl)) as [v [v' [G [G' S]]]]. vm_compute in G, G'. injection G as <-. injection G' as <-. inversion S.
Qed.
Print Assumptions C93_choice_refuted.
(* Texts: an expression becomes a literal, quotes within are lost *)
Theorem C93_text_refuted : exists ps args args', valid_call ps args /\ valid_call ps args' /\ Forall honest ps /\ ~ keeps Plain ps args /\ ~ keeps Plain ps args'.
Proof.
  exists [with_raw (def "text" (Some "None") (Some "text")) ["None"]], [(Some "text", Code "MY_TEXT")], [(Some "text", Code (String dquote ("it" ++ String squote ("s" ++ String dquote ""))))]. split; [valid|]. split; [valid|]. split; [repeat constructor|]. split.
  - changed. destruct (H _ (or_introl eq_refl)) as [v [v' [G [G' S]]]]. vm_compute in G, G'. injection G as <-. injection G' as <-. inversion S as [|s t Hs R]; subst. inversion R.
  - changed. destruct (H _ (or_introl eq_refl)) as [v [v' [G [G' S]]]]. vm_compute in G, G'. injection G as <-. injection G' as <-. inversion S as [|s t Hs R]; subst. apply Hs. cbn. auto.
Qed.
Print Assumptions C93_text_refuted.
(* Pagers: the page to select is lost if it is given before the pages *)
Definition pager_defs : list param := [with_meta (def "pages" None (Some "pages")) "[]"; def "select_page" (Some "None") (Some "select-page")].
Definition pager_pages : list page := [{| g_id := "1"; g_color := "Colors.RED"; g_text := "" |}; {| g_id := "2"; g_color := ""; g_text := "'Two'" |}].
Theorem C93_order_refuted : valid_call pager_defs [(Some "select_page", Code "2"); (Some "pages", Pages pager_pages)] /\ ~ keeps Pager pager_defs [(Some "select_page", Code "2"); (Some "pages", Pages pager_pages)].
Proof.
  split; [valid|]. changed. destruct (H _ (or_intror (or_introl eq_refl))) as [v [v' [G [G' S]]]]. vm_compute in G, G'. injection G as <-. injection G' as <-. inversion S as [|s t Hs R]; subst. inversion R.
Qed.
Print Assumptions C93_order_refuted.
(* Code with a line break: the lines are joined, so that a comment swallows the rest *)
Theorem C93_line_refuted : exists ps args, valid_call ps args /\ Forall honest ps /\ ~ keeps Plain ps args.
Proof.
  exists [def "value_on" (Some "None") (Some "any")], [(Some "value_on", Code ("[1, # first" ++ String "010"%char "127]"))]. split; [valid|]. split; [repeat constructor|].
  changed. destruct (H _ (or_introl eq_refl)) as [v [v' [G [G' S]]]]. vm_compute in G, G'. injection G as <-. injection G' as <-. inversion S as [|s t Hs R]; subst. repeat match goal with R : requoted (String _ _) _ |- _ => inversion R; clear R; subst end.
Qed.
Print Assumptions C93_line_refuted.
(* Arguments without name: the dialog cannot be opened *)
Theorem C93_positional_refuted : forall k ps v args, open k ps ((None, v) :: args) = None.
Proof. intros k ps v args. unfold open. destruct (create_all ps); reflexivity. Qed.
Print Assumptions C93_positional_refuted.
(* Texts with a backslash: what is written is no literal, so that the configuration cannot be loaded any more *)
Theorem C93_backslash_refuted : ~ (forall p f out e s, p_type p = Some "text" -> reached Plain [p] [] f -> e = Type_ (p_name p) s -> single_line s -> s <> "" -> commit (edit_form Plain f e) = Some out ->
  exists r t, given p out = Some (Code r) /\ literal r = Some t).
Proof.
  intros H. destruct (open Plain [def "text" (Some "''") (Some "text")] []) as [f|] eqn:O; [|discriminate].
  destruct (commit (edit_form Plain f (Type_ "text" "A\"))) as [out|] eqn:C; [|vm_compute in O; injection O as <-; discriminate C].
  destruct (H (def "text" (Some "''") (Some "text")) f out (Type_ "text" "A\") "A\" eq_refl) as [r [t [G L]]]; [exists f, []; split; [exact O|reflexivity]|reflexivity|split; cbn; intuition discriminate|discriminate|exact C|].
  vm_compute in O. injection O as <-. vm_compute in C. injection C as <-. vm_compute in G. injection G as <-. discriminate L.
Qed.
Print Assumptions C93_backslash_refuted.

(* Cases which meet the hypotheses: a switch action with all kinds of inputs, and a pager *)
Definition example_defs : list param :=
  [with_found (def "display" (Some "None") (Some "select")) ["DISPLAY_HEADER_1"; "DISPLAY_HEADER_2"; "None"]; def "use_leds" (Some "True") (Some "bool"); def "num_leds" (Some "1") None; def "color" (Some "Colors.GREEN") (Some "color");
   with_raw (def "text" (Some (String dquote ("Play" ++ String dquote ""))) (Some "text")) ["None"]].
Definition example_args : list (option string * value) := [(Some "display", Code "DISPLAY_HEADER_2"); (Some "num_leds", Code "3"); (Some "color", Code "(0, 10, 20)")].
Ltac quotes := cbn; intuition discriminate.
Example ex_keeps : keeps Plain example_defs example_args.
Proof.
  apply C93_keeps_partial.
  - valid.
  - cbn. intuition (subst; discriminate).
  - intros p I. cbn in I. destruct I as [<-|[<-|[<-|[<-|[<-|[]]]]]]; (eexists; split; [reflexivity|]); apply shows_value; try (intros []).
    + eapply fits_choice; [right; reflexivity|reflexivity|cbn; auto|discriminate|quotes].
    + apply fits_bool; [reflexivity|auto].
    + apply fits_number; reflexivity.
    + apply fits_free; [quotes|discriminate|split; quotes|discriminate|left; quotes].
    + apply (fits_text _ dquote "Play"); [reflexivity|auto|split; quotes|split; quotes].
  - cbn. intuition (subst; left; reflexivity).
  - intros p _ [].
  - discriminate.
Qed.
Example ex_pager : keeps Pager pager_defs [(Some "pages", Pages pager_pages); (Some "select_page", Code "2")].
Proof.
  apply C93_keeps_partial.
  - valid.
  - cbn. intuition (subst; discriminate).
  - intros p I. cbn in I. destruct I as [<-|[<-|[]]]; (eexists; split; [reflexivity|]).
    + apply shows_value; [discriminate|]. apply fits_pages; [reflexivity|]. repeat constructor; quotes.
    + eapply (shows_pager _ _ _ []); try reflexivity; [right; right; left; reflexivity|discriminate|quotes].
  - intros p [<-|[<-|[]]] A; discriminate A.
  - intros p [<-|[<-|[]]] T; [discriminate T|reflexivity].
  - intros _. split; [exists (with_meta (def "pages" None (Some "pages")) "[]"); cbn; auto|]. intros p [<-|[<-|[]]] T; [reflexivity|discriminate T].
Qed.
Example ex_edit : exists f0, open Plain example_defs example_args = Some f0 /\
  commit (fold_left (edit_form Plain) [Tick "use_leds" false; Type_ "num_leds" "12x"; Pick "display" "None"; Type_ "text" ("Don" ++ String squote "t"); Type_ "color" "Colors.GREEN"] f0) =
    Some [(Some "use_leds", Code "False"); (Some "text", Code (String squote ("Dont" ++ String squote "")))].
Proof. eexists. split; reflexivity. Qed.

Example ex_new : let num := {| p_name := "num"; p_default := None; p_type := Some "int"; p_meta := None; p_values := None; p_found := None; p_raw := []; p_min := Some "1" |} in
  let mode := {| p_name := "mode"; p_default := None; p_type := Some "select"; p_meta := None; p_values := Some ["A"; "B"]; p_found := None; p_raw := []; p_min := None |} in
  let text := def "text" None (Some "text") in let use := def "use_leds" (Some "False") None in
  NoDup (map p_name [num; mode; text; use]) /\ starts num "1" /\ starts mode "A" /\ starts text "''" /\ listed use /\ listed mode /\ has_input use (Check false) /\
  exists f, select Plain [num; mode; text; use] [] = Some f /\ commit f = Some [(Some "num", Code "1"); (Some "mode", Code "A"); (Some "text", Code "''")].
Proof.
  cbn zeta. split; [cbn; repeat (constructor; [cbn; intuition discriminate|]); constructor|]. split; [apply st_min; reflexivity|]. split; [eapply st_first; try reflexivity; discriminate|].
  split; [apply st_text; try reflexivity; intros []|]. split; [right; cbn; auto|]. split; [left; exists "select"; cbn; split; [reflexivity|right; right; right; right; split; [reflexivity|left; discriminate]]|].
  split; [apply (in_untyped _ false "False"); reflexivity|]. eexists. split; reflexivity.
Qed.
