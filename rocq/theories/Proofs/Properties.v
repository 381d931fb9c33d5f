From Coq Require Import String Ascii.
From Verif.Lib Require Import Base.
From Verif.Model Require Import Properties.
From Verif.Spec Require Import Properties.
Open Scope string_scope.
Open Scope Z_scope.
Local Open Scope list_scope.

(* Strings *)
Lemma filter_string_all f s : (forall c, has c s -> f c = true) -> filter_string f s = s.
Proof. induction s as [|c s IH]; cbn; intros H; [reflexivity|]. rewrite (H c (or_introl eq_refl)), IH; auto. Qed.
Lemma has_filter c f s : has c (filter_string f s) <-> has c s /\ f c = true.
Proof.
  induction s as [|d s IH]; cbn; [tauto|]. destruct (f d) eqn:E; cbn; rewrite IH; clear IH.
  - split; [intros [->|[A B]]; auto|]. intros [[->|A] B]; auto.
  - split; [intros [A B]; auto|]. intros [[->|A] B]; [congruence|auto].
Qed.
Lemma has_app c s t : has c (s ++ t) <-> has c s \/ has c t.
Proof. induction s as [|d s IH]; cbn; [tauto|]. rewrite IH. tauto. Qed.
Lemma filter_app f s t : filter_string f (s ++ t) = (filter_string f s ++ filter_string f t)%string.
Proof. induction s as [|c s IH]; cbn; [reflexivity|]. rewrite IH. destruct (f c); reflexivity. Qed.
Lemma line_single s : single_line s -> line s = s.
Proof.
  intros [A B]. apply filter_string_all. intros c H. apply negb_true_iff, orb_false_iff.
  split; apply Ascii.eqb_neq; intros ->; auto.
Qed.
Lemma single_line_line s : single_line (line s).
Proof. split; intros H; apply has_filter in H; destruct H as [_ H]; discriminate H. Qed.
Lemma swap_none s : ~ has dquote s -> swap s = s.
Proof.
  unfold swap. induction s as [|c s IH]; cbn [map_string has]; intros H; [reflexivity|]. rewrite IH by tauto. destruct (Ascii.eqb c dquote) eqn:E; [apply Ascii.eqb_eq in E; tauto|reflexivity].
Qed.
Lemma swap_requoted s : requoted s (swap s).
Proof.
  unfold swap. induction s as [|c s IH]; cbn [map_string]; [constructor|]. destruct (Ascii.eqb c dquote) eqn:E.
  - apply Ascii.eqb_eq in E. subst. constructor. exact IH.
  - apply Ascii.eqb_neq in E. constructor; assumption.
Qed.
Lemma swap_app s t : swap (s ++ t) = (swap s ++ swap t)%string.
Proof. unfold swap. induction s as [|c s IH]; cbn; [reflexivity|]. rewrite IH. reflexivity. Qed.
Lemma has_swap c s : c <> dquote -> c <> squote -> has c (swap s) <-> has c s.
Proof.
  intros A B. unfold swap. induction s as [|d s IH]; cbn [map_string has]; [tauto|]. rewrite IH. destruct (Ascii.eqb d dquote) eqn:E; [|tauto]. apply Ascii.eqb_eq in E. subst. intuition congruence.
Qed.
Lemma single_swap s : single_line s -> single_line (swap s).
Proof. intros [A B]. split; rewrite has_swap; auto; discriminate. Qed.
Lemma swap_empty s : swap s = "" -> s = "".
Proof. destruct s; cbn; [auto|discriminate]. Qed.
Lemma strip_unquoted s : unquoted s -> strip_quotes s = s.
Proof. intros [A B]. apply filter_string_all. intros c H. apply negb_true_iff, orb_false_iff. split; apply Ascii.eqb_neq; intros ->; auto. Qed.
Lemma unquoted_strip s : unquoted (strip_quotes s).
Proof. split; intros H; apply has_filter in H; destruct H as [_ H]; discriminate H. Qed.
Lemma strip_app s t : strip_quotes (s ++ t) = (strip_quotes s ++ strip_quotes t)%string.
Proof. apply filter_app. Qed.
Lemma quote_literal c t : c = dquote \/ c = squote -> unquoted t -> auto_quote (String c (t ++ String c "")) = String squote (t ++ String squote "").
Proof.
  intros C U. unfold auto_quote. assert (strip_quotes (String c (t ++ String c "")) = t) as ->; [|reflexivity].
  assert (forall s, strip_quotes (String c s) = strip_quotes s) as S by (intros s; destruct C as [-> | ->]; reflexivity). rewrite S, strip_app, S, strip_unquoted by exact U. cbn.
  clear. induction t as [|c t IH]; cbn; [reflexivity|congruence].
Qed.
Lemma swap_literal c t : c = dquote \/ c = squote -> unquoted t -> swap (String c (t ++ String c "")) = String squote (t ++ String squote "").
Proof.
  intros C [U _]. change (String c (t ++ String c "")) with ((String c "" ++ (t ++ String c ""))%string). rewrite !swap_app, (swap_none t U). destruct C as [-> | ->]; reflexivity.
Qed.
Lemma number_no_dquote_digits s : (forall c, has c s -> is_digit c = true) -> ~ has dquote s.
Proof. intros H K. specialize (H _ K). discriminate H. Qed.
Lemma skip_has s : has dquote s -> has dquote (skip_digits s).
Proof. induction s as [|c s IH]; cbn [skip_digits has]; [auto|]. destruct (is_digit c) eqn:E; intros [->|H]; [discriminate E|auto|left; reflexivity|right; exact H]. Qed.
Lemma digits_has s r : digits s = Some r -> has dquote s -> has dquote r.
Proof. destruct s as [|c s]; cbn; [discriminate|]. destruct (is_digit c) eqn:E; [|discriminate]. intros [= <-] [->|H]; [discriminate E|]. apply skip_has, H. Qed.
Lemma exponent_has s : exponent s = true -> ~ has dquote s.
Proof.
  destruct s as [|c s]; cbn [exponent has]; [auto|]. intros H [->|K]; [discriminate H|]. apply andb_true_iff in H. destruct H as [_ H].
  destruct (digits _) as [[|]|] eqn:E; try discriminate H. apply digits_has in E; [destruct E|]. destruct s as [|d s]; [exact K|]. destruct (_ || _) eqn:F; [|exact K]. destruct K as [->|K]; [discriminate F|exact K].
Qed.
Lemma fraction_has s : fraction s = true -> ~ has dquote s.
Proof.
  destruct s as [|c s]; cbn [fraction]; [auto|]. destruct (Ascii.eqb c ".") eqn:E; [|apply exponent_has]. apply Ascii.eqb_eq in E. subst c. destruct (digits s) as [r|] eqn:D; [|discriminate].
  intros H [K|K]; [discriminate K|]. apply (exponent_has _ H). eapply digits_has; eassumption.
Qed.
Lemma number_has s : is_number s = true -> ~ has dquote s.
Proof.
  intros H K. unfold is_number in H.
  assert (exists s', (match s with String c r => if Ascii.eqb c "-" then r else s | EmptyString => s end) = s' /\ has dquote s') as [s' [E K']].
  { eexists. split; [reflexivity|]. destruct s as [|c s]; [exact K|]. destruct (Ascii.eqb c "-") eqn:E; [|exact K]. destruct K as [->|K]; [discriminate E|exact K]. }
  cbv zeta in H. rewrite E in H. clear E K. destruct (digits s') as [r|] eqn:D.
  - apply (fraction_has _ H). eapply digits_has; eassumption.
  - destruct s' as [|c s']; [discriminate|]. apply andb_true_iff in H. apply (fraction_has _ (proj2 H)), K'.
Qed.
Lemma number_not_empty s : is_number s = true -> s <> "".
Proof. intros H ->. discriminate H. Qed.
Lemma choose_in l v : In v l -> choose l v = Some v.
Proof. unfold choose. destruct (in_dec _ _ _); tauto. Qed.
Lemma choose_some l v w : choose l v = Some w -> w = v /\ In v l.
Proof. unfold choose. destruct (in_dec _ _ _); [intros [= <-]; auto|discriminate]. Qed.

(* Inputs: what is set is what one gets *)
Definition dquote_ok (s : string) : ~ has dquote s \/ ~ has squote s -> same_value (Code s) (Code (swap s)).
Proof. intros [H|H]; [rewrite swap_none by exact H; constructor|]. apply same_quotes; [exact H|apply swap_requoted]. Qed.
Lemma eqb_yes a b : a = b -> String.eqb a b = true. Proof. intros ->. apply String.eqb_refl. Qed.
Lemma eqb_no a b : a <> b -> String.eqb a b = false. Proof. apply String.eqb_neq. Qed.
Definition is_free (p : param) : Prop := ~ In (type_of p) ["bool"; "int"; "text"; "pages"; "select-page"] /\ (type_of p = "select" -> options p = None).
Ltac types := repeat match goal with
  | H : type_of ?p = ?t |- context [String.eqb (type_of ?p) ?u] => rewrite H
  | H : ~ In (type_of ?p) _ |- context [String.eqb (type_of ?p) ?u] => rewrite (eqb_no (type_of p) u) by (let X := fresh in intros X; apply H; rewrite X; cbn; tauto)
  end; cbn [String.eqb Ascii.eqb Bool.eqb].
Lemma create_free p d : is_free p -> default_value p = Some d -> create p = Some (Field (line d)).
Proof.
  intros [A B] D. unfold create. types. rewrite D. destruct (String.eqb (type_of p) "select") eqn:E; [|reflexivity]. apply String.eqb_eq in E. rewrite (B E). reflexivity.
Qed.
Lemma set_get p v w0 : fits p v -> default_value p <> None -> create p = Some w0 -> exists w v', set_value w0 v = Some w /\ (forall l o, w <> Choice l o \/ True) /\ get_value p w = Some v' /\ same_value v v'.
Proof.
  intros F D C. destruct (default_value p) as [d|] eqn:DV; [clear D|congruence]. destruct F as [s T S|l s T O I N Q|s T O I|c t T Cq U L|s T I U L N|l T F|s T O L N Q].
  - unfold create in C. rewrite T, DV in C. cbn in C. injection C as <-. eexists _, _. split; [reflexivity|]. split; [auto|]. split; [reflexivity|]. destruct S as [-> | ->]; constructor.
  - assert (w0 = Choice l (choose l d)) as -> by (unfold create in C; destruct T as [T|T]; rewrite T, DV, O in C; cbn in C; congruence).
    exists (Choice l (Some s)), (Code (convert p s)). cbn [set_value]. rewrite swap_none, choose_in by assumption. split; [reflexivity|]. split; [auto|]. cbn [get_value]. destruct (string_dec s ""); [contradiction|]. split; [reflexivity|].
    unfold convert. destruct T as [-> | ->]; constructor.
  - assert (w0 = Number (number d)) as -> by (unfold create in C; rewrite T, DV, O in C; cbn in C; congruence).
    exists (Number s), (Code (convert p s)). cbn [set_value]. rewrite swap_none by (apply number_has, I). unfold number. rewrite I. split; [reflexivity|]. split; [auto|]. cbn [get_value]. destruct (string_dec s ""); [subst; discriminate|]. split; [reflexivity|]. unfold convert. rewrite T. constructor.
  - assert (w0 = Field (line d)) as -> by (unfold create in C; rewrite T, DV in C; cbn in C; congruence).
    cbn [set_value]. rewrite swap_literal, line_single by (auto; split; cbn; rewrite has_app; cbn; destruct L; intros [X|[X|[X|[]]]]; (discriminate X || tauto)).
    eexists _, _. split; [reflexivity|]. split; [auto|]. cbn [get_value]. destruct (string_dec _ _); [discriminate|]. split; [reflexivity|]. unfold convert. rewrite T. cbn [String.eqb Ascii.eqb Bool.eqb].
    assert (same_value (Code (String c (t ++ String c ""))) (Code (String squote (t ++ String squote "")))) as W.
    { destruct Cq as [-> | ->]; [|constructor]. apply same_quotes; [cbn; rewrite has_app; cbn; destruct U; intuition discriminate|]. rewrite <- (swap_literal dquote t) by auto. apply swap_requoted. }
    destruct (in_dec _ _ _); [exact W|]. rewrite quote_literal by auto. exact W.
  - assert (w0 = Field (line d)) as -> by (unfold create in C; rewrite T, DV in C; cbn in C; congruence).
    cbn [set_value]. rewrite swap_none, line_single by (auto; apply U). eexists _, _. split; [reflexivity|]. split; [auto|]. cbn [get_value]. destruct (string_dec s ""); [contradiction|]. split; [reflexivity|]. unfold convert. destruct (in_dec string_dec s (p_raw p)); [|contradiction]. destruct (String.eqb _ _); constructor.
  - assert (w0 = PageList []) as -> by (unfold create in C; rewrite T in C; cbn in C; congruence). eexists _, _. split; [reflexivity|]. split; [auto|]. split; [reflexivity|].
    rewrite (map_ext_in _ id); [rewrite map_id; constructor|]. intros g G. rewrite Forall_forall in F. destruct (F g G) as [A [B E]]. rewrite !line_single by assumption. destruct g; reflexivity.
  - rewrite (create_free p d) in C by (auto; split; assumption). injection C as <-. cbn [set_value]. rewrite line_single by (apply single_swap, L). eexists _, _. split; [reflexivity|]. split; [auto|]. cbn [get_value].
    destruct (string_dec _ _) as [e|]; [apply swap_empty in e; contradiction|]. split; [reflexivity|]. unfold convert. types. apply dquote_ok, Q.
Qed.
Lemma create_get p d w0 : fits p (Code d) -> default_value p = Some d -> create p = Some w0 -> exists v', get_value p w0 = Some v' /\ same_value (Code d) v'.
Proof.
  intros F DV C. remember (Code d) as v eqn:V. destruct F as [s T S|l s T O I N Q|s T O I|c t T Cq U L|s T I U L N|l T F|s T O L N Q]; try discriminate V; injection V as V; try subst s.
  - unfold create in C. rewrite T, DV in C. cbn in C. injection C as <-. eexists. split; [reflexivity|]. destruct S as [-> | ->]; constructor.
  - assert (w0 = Choice l (choose l d)) as -> by (unfold create in C; destruct T as [T|T]; rewrite T, DV, O in C; cbn in C; congruence). rewrite choose_in by exact I. cbn [get_value].
    destruct (string_dec d ""); [contradiction|]. eexists. split; [reflexivity|]. unfold convert. destruct T as [-> | ->]; constructor.
  - assert (w0 = Number (number d)) as -> by (unfold create in C; rewrite T, DV, O in C; cbn in C; congruence). unfold number. rewrite I. cbn [get_value]. destruct (string_dec d ""); [subst; discriminate|]. eexists. split; [reflexivity|]. unfold convert. rewrite T. constructor.
  - subst d. assert (w0 = Field (line (String c (t ++ String c "")))) as -> by (unfold create in C; rewrite T, DV in C; cbn -[line] in C; congruence).
    rewrite line_single by (split; cbn; rewrite has_app; cbn; destruct L; (intros [X|[X|[X|[]]]]; [destruct Cq; subst; discriminate X|tauto|destruct Cq; subst; discriminate X])).
    cbn [get_value]. destruct (string_dec _ _); [discriminate|]. eexists. split; [reflexivity|]. unfold convert. rewrite T. cbn [String.eqb Ascii.eqb Bool.eqb]. destruct (in_dec _ _ _); [constructor|]. rewrite quote_literal by auto.
    destruct Cq as [-> | ->]; [|constructor]. apply same_quotes; [cbn; rewrite has_app; cbn; destruct U; intuition discriminate|]. rewrite <- (swap_literal dquote t) by auto. apply swap_requoted.
  - assert (w0 = Field (line d)) as -> by (unfold create in C; rewrite T, DV in C; cbn in C; congruence). rewrite line_single by exact L. cbn [get_value]. destruct (string_dec d ""); [contradiction|]. eexists. split; [reflexivity|]. unfold convert. destruct (in_dec string_dec d (p_raw p)); [|contradiction]. destruct (String.eqb _ _); constructor.
  - rewrite (create_free p d) in C by (auto; split; assumption). injection C as <-. rewrite line_single by exact L. cbn [get_value]. destruct (string_dec d ""); [contradiction|]. eexists. split; [reflexivity|]. unfold convert. types. constructor.
Qed.

(* Forms: the parameters stay the same, inputs are found by name *)
Lemma update_choice_params n l g f : map fst (update_choice n l g f) = map fst f.
Proof. unfold update_choice. rewrite map_map. apply map_ext. intros [p [| | | |]]; try reflexivity. destruct (String.eqb _ _); reflexivity. Qed.
Lemma update_params k f : map fst (update k f) = map fst f.
Proof. destruct k as [| |[ids|]]; cbn [update]; try reflexivity; [destruct (page_list f); [|reflexivity]|]; apply update_choice_params. Qed.
Lemma put_params n w f : map fst (put_widget n w f) = map fst f.
Proof. unfold put_widget. rewrite map_map. apply map_ext. intros [p x]. cbn. destruct (String.eqb _ _); reflexivity. Qed.
Lemma entry_in n f p w : entry n f = Some (p, w) -> In (p, w) f /\ p_name p = n.
Proof. intros H. apply find_some in H. cbn in H. destruct H as [A B]. apply String.eqb_eq in B. auto. Qed.
Lemma in_entry f p w : NoDup (map p_name (map fst f)) -> In (p, w) f -> entry (p_name p) f = Some (p, w).
Proof.
  unfold entry. induction f as [|[q x] f IH]; cbn [map fst]; intros N I; [destruct I|]. inversion N as [|? ? N1 N2]; subst. cbn [find fst]. destruct I as [[= -> ->]|I].
  - rewrite String.eqb_refl. reflexivity.
  - rewrite eqb_no; [apply IH; assumption|]. intros E. apply N1. rewrite E. change (p_name p) with (p_name (fst (p, w))). rewrite map_map. apply in_map with (f := fun e => p_name (fst e)), I.
Qed.
Lemma params_entry f p : NoDup (map p_name (map fst f)) -> In p (map fst f) -> exists w, In (p, w) f /\ entry (p_name p) f = Some (p, w).
Proof. intros N I. apply in_map_iff in I. destruct I as [[q w] [<- I]]. exists w. split; [exact I|apply in_entry; assumption]. Qed.
Lemma nodup_param (l : list param) p q : NoDup (map p_name l) -> In p l -> In q l -> p_name p = p_name q -> p = q.
Proof.
  induction l as [|x l IH]; cbn; intros N P Q E; [destruct P|]. inversion N as [|? ? N1 N2]; subst. destruct P as [<-|P], Q as [<-|Q]; auto.
  - destruct N1. rewrite E. apply in_map, Q.
  - destruct N1. rewrite <- E. apply in_map, P.
Qed.

Lemma update_choice_in n l g f p w : (forall l' o, w <> Choice l' o) \/ p_name p <> n -> In (p, w) (update_choice n l g f) <-> In (p, w) f.
Proof.
  intros H. unfold update_choice. rewrite in_map_iff. split.
  - intros [[q x] [E I]]. destruct x; try (injection E as -> <-; exact I). destruct (String.eqb (p_name q) n) eqn:Q; [|injection E as -> <-; exact I]. apply String.eqb_eq in Q. injection E as -> <-. destruct H as [H|H]; [destruct (H _ _ eq_refl)|contradiction].
  - intros I. exists (p, w). split; [|exact I]. destruct w; try reflexivity. destruct H as [H|H]; [destruct (H _ _ eq_refl)|]. rewrite eqb_no by exact H. reflexivity.
Qed.
Lemma update_in k f p w : ~ takes_page k p -> In (p, w) (update k f) <-> In (p, w) f.
Proof.
  intros H. destruct k as [| |[ids|]]; cbn [update takes_page] in *; [tauto| | |tauto].
  - destruct (page_list f); [|tauto]. apply update_choice_in. auto.
  - apply update_choice_in. right. intros E. apply H. split; [discriminate|exact E].
Qed.
Lemma put_in n w f p x : p_name p <> n -> In (p, x) (put_widget n w f) <-> In (p, x) f.
Proof.
  intros H. unfold put_widget. rewrite in_map_iff. split.
  - intros [[q y] [E I]]. cbn in E. destruct (String.eqb (p_name q) n) eqn:Q; [|injection E as -> ->; exact I]. apply String.eqb_eq in Q. injection E as -> _. contradiction.
  - intros I. exists (p, x). cbn. rewrite eqb_no by exact H. auto.
Qed.
Lemma put_here p w f : In p (map fst f) -> In (p, w) (put_widget (p_name p) w f).
Proof. intros I. apply in_map_iff in I. destruct I as [[q y] [E I]]. cbn in E. subst q. unfold put_widget. apply in_map_iff. exists (p, y). cbn. rewrite String.eqb_refl. auto. Qed.

(* Applying the dialog *)
Lemma argument_none n (args : list (option string * value)) : ~ In (Some n) (map fst args) -> argument n args = None.
Proof. induction args as [|[[m|] v] args IH]; cbn; intros H; [reflexivity| |apply IH; tauto]. destruct (string_dec m n); [subst; tauto|apply IH; tauto]. Qed.
Lemma argument_in n v (args : list (option string * value)) : NoDup (map fst args) -> In (Some n, v) args -> argument n args = Some v.
Proof.
  induction args as [|[m x] args IH]; cbn [map fst argument]; intros N I; [destruct I|]. inversion N as [|? ? N1 N2]; subst. destruct I as [[= -> ->]|I].
  - destruct (string_dec n n); [reflexivity|contradiction].
  - destruct m as [m|]; [|apply IH; assumption]. destruct (string_dec m n) as [->|]; [|apply IH; assumption]. destruct N1. apply (in_map fst _ _ I).
Qed.
Lemma argument_some n v (args : list (option string * value)) : argument n args = Some v -> In (Some n, v) args.
Proof. induction args as [|[[m|] x] args IH]; cbn; intros H; [discriminate| |auto]. destruct (string_dec m n) as [->|]; [injection H as ->; auto|auto]. Qed.
Lemma commit_ok f : NoDup (map p_name (map fst f)) -> (forall p w, In (p, w) f -> get_value p w <> None) ->
  exists out, commit f = Some out /\ NoDup (map fst out) /\ (forall n, In n (map fst out) -> exists p, In p (map fst f) /\ n = Some (p_name p)) /\
    forall p w v, In (p, w) f -> get_value p w = Some v -> argument (p_name p) out = if omitted p v then None else Some v.
Proof.
  induction f as [|[p w] f IH]; cbn [map fst]; intros N G.
  - exists []. split; [reflexivity|]. split; [constructor|]. split; [intros n []|intros p w v []].
  - inversion N as [|? ? N1 N2]; subst. destruct IH as [out [C [D [I A]]]]; [exact N2|intros q x Q; apply G; right; exact Q|]. cbn [commit]. rewrite C. destruct (get_value p w) as [v|] eqn:V; [|destruct (G p w (or_introl eq_refl) V)].
    assert (~ In (Some (p_name p)) (map fst out)) as F.
    { intros K. apply I in K. destruct K as [q [Q E]]. injection E as E. apply N1. rewrite E. apply in_map, Q. }
    eexists. split; [reflexivity|]. destruct (omitted p v) eqn:O.
    + split; [exact D|]. split; [intros n K; destruct (I n K) as [q [Q E]]; exists q; auto using in_cons|]. intros q x u [[= <- <-]|Q] U.
      * rewrite V in U. injection U as <-. rewrite O. apply argument_none, F.
      * apply (A q x u Q U).
    + split; [cbn; constructor; assumption|]. split; [cbn; intros n [<-|K]; [exists p; auto|destruct (I n K) as [q [Q E]]; exists q; auto]|]. intros q x u [[= <- <-]|Q] U.
      * rewrite V in U. injection U as <-. rewrite O. cbn. destruct (string_dec _ _); congruence.
      * cbn. destruct (string_dec (p_name p) (p_name q)) as [E|_]; [|apply (A q x u Q U)]. destruct N1. rewrite E. apply in_map, (in_map fst _ _ Q).
Qed.

(* Setting the arguments *)
Lemma create_all_ok ps : (forall p, In p ps -> create p <> None) -> exists f, create_all ps = Some f /\ map fst f = ps /\ forall p w, In (p, w) f -> create p = Some w.
Proof.
  induction ps as [|p ps IH]; intros H.
  - exists []. split; [reflexivity|]. split; [reflexivity|intros p w []].
  - destruct IH as [f [C [M I]]]; [intros q Q; apply H; right; exact Q|]. cbn [create_all]. rewrite C. destruct (create p) as [w|] eqn:W; [|destruct (H p (or_introl eq_refl) W)]. eexists. split; [reflexivity|]. split; [cbn; congruence|]. intros q x [[= <- <-]|Q]; auto.
Qed.
Lemma create_pages p l : create p = Some (PageList l) -> type_of p = "pages" /\ l = [].
Proof.
  unfold create. destruct (String.eqb (type_of p) "select-page"); [discriminate|]. destruct (String.eqb (type_of p) "pages") eqn:E; [intros [= <-]; apply String.eqb_eq in E; auto|].
  destruct (default_value p); [|discriminate]. destruct (String.eqb (type_of p) "bool"); [discriminate|]. destruct (String.eqb (type_of p) "int"); [destruct (options p); discriminate|]. destruct (String.eqb (type_of p) "select"); [destruct (options p); discriminate|discriminate].
Qed.
Lemma set_pages w v l : set_value w v = Some (PageList l) -> exists l', w = PageList l'.
Proof. destruct w, v; cbn; try discriminate; eauto. Qed.
Lemma page_list_some f pp l : NoDup (map p_name (map fst f)) -> (forall p l, In (p, PageList l) f -> p_name p = "pages") -> In (pp, PageList l) f -> page_list f = Some l.
Proof.
  induction f as [|[p w] f IH]; cbn [map fst page_list]; intros N H I; [destruct I|]. inversion N as [|? ? N1 N2]; subst. destruct I as [[= -> ->]|I]; [reflexivity|].
  assert (page_list f = Some l) as R by (apply IH; [exact N2|intros q x Q; apply (H q x); right; exact Q|exact I]). destruct w; try exact R. exfalso.
  apply N1. rewrite (H p l0 (or_introl eq_refl)), <- (H pp l (or_intror I)). apply in_map, (in_map fst _ _ I).
Qed.
Lemma update_choice_here n l g f p l' o : In (p, Choice l' o) f -> p_name p = n -> In (p, Choice l (match g o with Some v => choose l v | None => None end)) (update_choice n l g f).
Proof. intros I E. unfold update_choice. apply in_map_iff. exists (p, Choice l' o). rewrite E, String.eqb_refl. auto. Qed.

Definition pages_of (done : list (option string * value)) : list string := match argument "pages" done with Some (Pages l) => map g_id l | _ => [] end.
Definition page_of (n : string) (done : list (option string * value)) : option string := match argument n done with Some (Code s) => Some s | _ => None end.
Record Inv (k : kind) (ps : list param) (done : list (option string * value)) (f : form) : Prop := {
  i_params : map fst f = ps;
  i_values : forall p, In p ps -> ~ takes_page k p -> exists w0 w, create p = Some w0 /\ In (p, w) f /\ match argument (p_name p) done with None => w = w0 | Some v => set_value w0 v = Some w end;
  i_pages : forall p, In p ps -> takes_page k p -> type_of p = "select-page" ->
    match k with
    | Plain => True
    | Pager => exists l o, In (p, Choice l o) f /\ (o = Some (match page_of "select_page" done with Some s => s | None => "None" end) \/ o = None /\ page_of "select_page" done = None)
    | Proxy None => True
    | Proxy (Some ids) => exists l o, In (p, Choice l o) f /\ forall s, page_of "page_id" done = Some s -> In s ids -> o = Some s
    end
}.
Definition Full (k : kind) (ps : list param) (done : list (option string * value)) (f : form) : Prop :=
  forall p, In p ps -> takes_page k p -> type_of p = "select-page" -> (k = Pager -> In (p, Choice (pages_of done ++ ["None"]) (Some (match page_of "select_page" done with Some s => s | None => "None" end))) f) /\
    forall ids, k = Proxy (Some ids) -> exists o, In (p, Choice ids o) f /\ forall s, page_of "page_id" done = Some s -> In s ids -> o = Some s.

Lemma kind_cases k : k = Plain \/ k = Pager \/ (exists ids, k = Proxy (Some ids)) \/ k = Proxy None.
Proof. destruct k as [| |[ids|]]; eauto. Qed.
Section Setting.
  Variables (k : kind) (ps : list param) (args : list (option string * value)).
  Hypothesis NP : NoDup (map p_name ps).
  Hypothesis NA : NoDup (map fst args).
  Hypothesis NM : Forall (fun a => exists p, In p ps /\ fst a = Some (p_name p)) args.
  Hypothesis DV : forall p, In p ps -> default_value p <> None.
  Hypothesis SH : forall p, In p ps -> exists v, given p args = Some v /\ shows k args p v.
  Hypothesis OL : one_list k ps.
  Hypothesis TP : forall p, In p ps -> takes_page k p -> type_of p = "select-page".

  Lemma pages_param f done p l : Inv k ps done f -> In (p, PageList l) f -> k = Pager -> p_name p = "pages".
  Proof.
    intros [M V P] I K. subst k. assert (In p ps) as Q by (rewrite <- M; apply (in_map fst _ _ I)). assert (~ takes_page Pager p) as T.
    { intros T. destruct (P p Q T (TP p Q T)) as [l' [o [W _]]]. assert (N : NoDup (map p_name (map fst f))) by (rewrite M; exact NP). apply (in_entry _ _ _ N) in W, I. congruence. }
    destruct (V p Q T) as [w0 [w [C [J E]]]]. assert (N : NoDup (map p_name (map fst f))) by (rewrite M; exact NP). assert (w = PageList l) as -> by (apply (in_entry _ _ _ N) in J, I; congruence).
    apply (OL eq_refl); [exact Q|]. destruct (argument _ _); [apply set_pages in E; destruct E as [l' ->]; apply create_pages in C; apply C|subst w0; apply create_pages in C; apply C].
  Qed.
  Lemma pages_value f done : Inv k ps done f -> incl done args -> k = Pager -> exists l, page_list f = Some l /\ map g_id l = pages_of done.
  Proof.
    intros IV IN K. pose proof IV as [M V P]. assert (NoDup (map p_name (map fst f))) as N by (rewrite M; exact NP). destruct (OL K) as [[p [Q [NM' T]]] _].
    assert (~ takes_page k p) as TK by (rewrite K; cbn; rewrite NM'; discriminate). destruct (V p Q TK) as [w0 [w [C [J E]]]].
    assert (w0 = PageList []) as -> by (unfold create in C; rewrite T in C; cbn in C; congruence).
    unfold pages_of. rewrite NM' in E. destruct (argument "pages" done) as [v|] eqn:A.
    - destruct v as [s|l|]; cbn in E; try discriminate E. injection E as <-. eexists. split; [apply (page_list_some f p); [exact N|intros q x X; apply (pages_param f done q x IV X K)|exact J]|].
      apply argument_some, IN, argument_in in A; [|exact NA]. destruct (SH p Q) as [u [G S]]. unfold given in G. rewrite NM', A in G. injection G as <-. inversion S as [u' _ F| |]; subst. inversion F as [| | | | |l' _ F'|]; subst. rewrite map_map. apply map_ext_in. intros g I. rewrite Forall_forall in F'. cbn. apply line_single, F', I.
    - subst w. exists []. split; [|reflexivity]. apply (page_list_some f p); [exact N|intros q x X; apply (pages_param f done q x IV X K)|exact J].
  Qed.
  Lemma update_inv f done : Inv k ps done f -> incl done args -> match page_of "select_page" done with Some s => s <> "" /\ (k = Pager -> In s (pages_of done ++ ["None"])) | None => True end \/ k <> Pager -> Inv k ps done (update k f) /\ Full k ps done (update k f).
  Proof.
    intros IV IN PO. pose proof IV as [M V P]. assert (Full k ps done (update k f)) as FU.
    { intros p Q T S. specialize (P p Q T S). split; [intros K|intros ids K]; rewrite K in P, T |- *.
      2: { destruct P as [l [o [P E]]]. cbn [update]. cbn [takes_page] in T. destruct T as [_ T]. eexists. split; [apply (update_choice_here "page_id" ids (fun v => v) f p _ _ P T)|]. intros s A B. rewrite (E s A B). apply choose_in, B. }
      destruct PO as [PO|PO]; [|contradiction]. destruct (pages_value f done) as [l [PL PM]]; [exact IV|exact IN|exact K|]. cbn [update]. rewrite PL, PM. cbn [takes_page] in T. destruct P as [l' [o [P Po]]].
      match goal with |- In (_, Choice ?L (Some ?V)) _ => pose proof (update_choice_here "select_page" L (fun v => match v with Some v => if string_dec v "" then Some "None" else Some v | None => Some "None" end) f p _ _ P T) as W; cbv beta iota in W end.
      match type of W with In (_, Choice _ ?o) _ => match goal with |- In (_, Choice _ ?o') _ => replace o' with o; [exact W|] end end.
      assert (In "None" (pages_of done ++ ["None"])) as NN by (apply in_or_app; right; left; reflexivity).
      destruct Po as [-> | [-> Po]]; [|rewrite Po; apply choose_in, NN].
      destruct (page_of "select_page" done) as [s|]; [destruct PO as [PO1 PO2]; destruct (string_dec s ""); [contradiction|]; apply choose_in, PO2, K|]. destruct (string_dec "None" ""); [discriminate|]. apply choose_in, NN. }
    split; [|exact FU]. split.
    - rewrite update_params. exact M.
    - intros p Q T. destruct (V p Q T) as [w0 [w [C [J E]]]]. exists w0, w. split; [exact C|]. split; [|exact E]. apply update_in; assumption.
    - intros p Q T S. pose proof (FU p Q T S) as F. specialize (P p Q T S). destruct (kind_cases k) as [K|[K|[[ids K]|K]]].
      + rewrite K. exact I.
      + destruct F as [F _]. specialize (F K). rewrite K. rewrite K in F. eexists _, _. split; [exact F|]. left. reflexivity.
      + destruct F as [_ F]. destruct (F ids K) as [o [F1 F2]]. rewrite K in F1 |- *. exists ids, o. split; assumption.
      + rewrite K. exact I.
  Qed.
  Lemma page_ok done rest : args = done ++ rest -> match page_of "select_page" done with Some s => s <> "" /\ (k = Pager -> In s (pages_of done ++ ["None"])) | None => True end \/ ~ (k = Pager).
  Proof.
    intros E. destruct (kind_cases k) as [K|[K|[[ids K]|K]]]; try (right; rewrite K; discriminate). left. unfold page_of. destruct (argument "select_page" done) as [v|] eqn:A; [|exact I]. destruct v as [s| |]; try exact I.
    assert (argument "select_page" args = Some (Code s)) as AA by (apply argument_in; [exact NA|rewrite E; apply in_or_app; left; apply argument_some, A]).
    assert (exists p, In p ps /\ p_name p = "select_page") as [p [Q N]].
    { apply argument_some in AA. rewrite Forall_forall in NM. destruct (NM _ AA) as [p [Q F]]. cbn in F. injection F as F. exists p. auto. }
    destruct (SH p Q) as [u [G S]]. unfold given in G. rewrite N, AA in G. injection G as <-. inversion S as [u' T _ U|before l after s' _ _ _ _ Ea Eb I Nn Nd|ids s' Kk]; [destruct T; rewrite K; exact N| |rewrite K in Kk; discriminate Kk]. subst s'.
    split; [exact Nn|]. intros _. unfold pages_of. assert (In (Some "pages", Pages l) done) as J.
    { rewrite E in Ea. clear - Ea Eb A. revert done A Ea. induction before as [|[n x] before IH]; intros [|[m y] done] A Ea; cbn in *; try discriminate.
      - injection Ea as -> -> _. left. reflexivity.
      - injection Ea as -> -> Ea. right. apply IH; [|destruct n as [n|]; [destruct (string_dec n "select_page"); [discriminate|exact A]|exact A]|exact Ea]. destruct n as [n|]; [destruct (string_dec n "select_page"); [discriminate|exact Eb]|exact Eb]. }
    assert (argument "pages" done = Some (Pages l)) as ->. { apply argument_in; [|exact J]. clear - NA E. rewrite E, map_app in NA. clear E. induction (map fst done) as [|x l IH]; [constructor|]. cbn in NA. inversion NA as [|? ? A B]; subst. constructor; [intros H; apply A, in_or_app; left; exact H|apply IH, B]. }
    apply in_or_app. destruct I as [-> | I]; [right; left; reflexivity|left; exact I].
  Qed.
  Lemma argument_snoc m n v done : ~ In (Some n) (map fst done) -> argument m (done ++ [(Some n, v)]) = if string_dec n m then Some v else argument m done.
  Proof.
    induction done as [|[[x|] y] done IH]; cbn [map fst app argument]; intros H; [reflexivity| |apply IH; intros X; apply H; right; exact X]. rewrite IH by (intros X; apply H; right; exact X).
    destruct (string_dec x m) as [->|]; [|reflexivity]. destruct (string_dec n m) as [->|]; [|reflexivity]. destruct H. left. reflexivity.
  Qed.
  Lemma step_inv f done n v rest : Inv k ps done f -> args = done ++ (n, v) :: rest ->
    exists f' p w, set_argument k f n v = Some f' /\ Inv k ps (done ++ [(n, v)]) f' /\ Full k ps (done ++ [(n, v)]) f' /\ n = Some (p_name p) /\ In p ps /\ entry (p_name p) f' = Some (p, w).
  Proof.
    intros IV E. assert (incl done args) as IN by (rewrite E; intros x X; apply in_or_app; left; exact X).
    assert (In (n, v) args) as IA by (rewrite E; apply in_or_app; right; left; reflexivity). pose proof NM as NM'. rewrite Forall_forall in NM'. destruct (NM' _ IA) as [p [Q Np]]. cbn in Np. subst n.
    assert (~ In (Some (p_name p)) (map fst done)) as ND.
    { intros X. rewrite E, map_app in NA. cbn in NA. apply NoDup_remove_2 in NA. apply NA, in_or_app. left. exact X. }
    destruct (update_inv f done IV IN (page_ok done _ E)) as [IV1 FU1]. clear IV. set (f1 := update k f) in *. pose proof IV1 as [M V P]. assert (NoDup (map p_name (map fst f1))) as N by (rewrite M; exact NP).
    assert (argument (p_name p) args = Some v) as AA by (apply argument_in; assumption).
    assert (exists w w', In (p, w) f1 /\ set_value w v = Some w' /\ Inv k ps (done ++ [(Some (p_name p), v)]) (put_widget (p_name p) w' f1)) as [w [w' [J [SV IV2]]]].
    { destruct (SH p Q) as [u [G S]]. unfold given in G. rewrite AA in G. injection G as <-.
      assert (forall w', map fst (put_widget (p_name p) w' f1) = ps) as M' by (intros w'; rewrite put_params; exact M).
      assert (forall w' q, In q ps -> ~ takes_page k q -> p <> q -> exists w0 w, create q = Some w0 /\ In (q, w) (put_widget (p_name p) w' f1) /\ match argument (p_name q) (done ++ [(Some (p_name p), v)]) with None => w = w0 | Some v => set_value w0 v = Some w end) as VO.
      { intros w' q Qq Tq Nq. assert (p_name p <> p_name q) as Nn by (intros X; apply Nq, (nodup_param ps); assumption). destruct (V q Qq Tq) as [w0 [w [Cq [Jq Eq]]]]. exists w0, w. split; [exact Cq|]. split; [apply put_in; auto|]. rewrite argument_snoc by exact ND. destruct (string_dec _ _); [contradiction|exact Eq]. }
      destruct S as [v T F|before l after s K Np T D Ea Eb I Ns Nd|ids s K Np T A I Ns Nd].
      - destruct (V p Q T) as [w0 [w [C [J Ew]]]]. rewrite (argument_none _ _ ND) in Ew. subst w. destruct (set_get p v w0 F (DV p Q) C) as [w' [v' [SV _]]]. exists w0, w'. split; [exact J|]. split; [exact SV|]. split; [apply M'| |].
        + intros q Qq Tq. destruct (string_dec (p_name p) (p_name q)) as [X|X]; [|apply VO; auto; congruence]. apply (nodup_param ps) in X; auto. subst q. exists w0, w'. split; [exact C|]. split; [apply put_here; rewrite M; exact Q|]. rewrite argument_snoc by exact ND. destruct (string_dec _ _); [exact SV|contradiction].
        + intros q Qq Tq Sq. specialize (P q Qq Tq Sq). assert (p_name q <> p_name p) as X by (intros X; apply (nodup_param ps) in X; auto; subst; contradiction).
          destruct (kind_cases k) as [K|[K|[[ids K]|K]]]; rewrite K in P, Tq |- *; cbn in Tq; try exact I.
          * destruct P as [l [o [P Po]]]. exists l, o. split; [apply put_in; assumption|]. unfold page_of in *. rewrite argument_snoc by exact ND. destruct (string_dec (p_name p) "select_page"); [congruence|exact Po].
          * destruct P as [l [o [P Po]]]. exists l, o. split; [apply put_in; assumption|]. unfold page_of in *. rewrite argument_snoc by exact ND. destruct (string_dec (p_name p) "page_id"); [destruct Tq; congruence|exact Po].
      - assert (takes_page k p) as Tk by (rewrite K; exact Np). pose proof (proj1 (FU1 p Q Tk T) K) as J.
        assert (In s (pages_of done ++ ["None"])) as IS.
        { destruct (page_ok (done ++ [(Some (p_name p), Code s)]) rest) as [PO|PO]; [rewrite <- app_assoc; exact E| |contradiction]. unfold page_of in PO. rewrite argument_snoc in PO by exact ND. destruct (string_dec (p_name p) "select_page") as [_|X]; [|contradiction]. destruct PO as [_ PO]. specialize (PO K). unfold pages_of in *. rewrite argument_snoc in PO by exact ND. destruct (string_dec (p_name p) "pages") as [X|_]; [rewrite Np in X; discriminate X|exact PO]. }
        eexists _, _. split; [exact J|]. cbn [set_value]. rewrite swap_none, choose_in by assumption. split; [reflexivity|]. split; [apply M'| |].
        + intros q Qq Tq. apply VO; auto. intros <-. contradiction.
        + intros q Qq Tq Sq. rewrite K in Tq |- *. cbn in Tq. assert (p = q) as <- by (apply (nodup_param ps); auto; congruence). eexists _, _. split; [apply put_here; rewrite M; exact Q|]. left. unfold page_of. rewrite argument_snoc by exact ND. rewrite Np. reflexivity.
      - assert (takes_page k p) as Tk by (rewrite K; split; [discriminate|exact Np]). destruct (proj2 (FU1 p Q Tk T) ids K) as [o [J _]].
        eexists _, _. split; [exact J|]. cbn [set_value]. rewrite swap_none, choose_in by assumption. split; [reflexivity|]. split; [apply M'| |].
        + intros q Qq Tq. apply VO; auto. intros <-. contradiction.
        + intros q Qq Tq Sq. rewrite K in Tq |- *. cbn in Tq. assert (p = q) as <- by (apply (nodup_param ps); auto; destruct Tq; congruence). eexists _, _. split; [apply put_here; rewrite M; exact Q|]. unfold page_of. rewrite argument_snoc by exact ND. rewrite Np. cbn. intros s' [= <-] _. reflexivity. }
    assert (args = (done ++ [(Some (p_name p), v)]) ++ rest) as E' by (rewrite <- app_assoc; exact E).
    destruct (update_inv _ _ IV2) as [IV3 FU3]; [rewrite E'; intros x X; apply in_or_app; left; exact X|apply (page_ok _ _ E')|].
    destruct (params_entry (update k (put_widget (p_name p) w' f1)) p) as [x [_ X]]; [rewrite update_params, put_params, M; exact NP|rewrite update_params, put_params, M; exact Q|].
    eexists _, p, x. split; [|split; [exact IV3|split; [exact FU3|split; [reflexivity|split; [exact Q|exact X]]]]].
    unfold set_argument. fold f1. rewrite (in_entry f1 p w N J), SV. reflexivity.
  Qed.
  Lemma all_inv rest : forall done f, Inv k ps done f -> args = done ++ rest -> exists f', set_arguments k f rest = Some f' /\ Inv k ps args f' /\ Full k ps args f'.
  Proof.
    induction rest as [|[n v] rest IH]; intros done f IV E.
    - rewrite app_nil_r in E. subst done. cbn. eexists. split; [reflexivity|]. apply update_inv; [exact IV|apply incl_refl|apply (page_ok args []); symmetry; apply app_nil_r].
    - destruct (step_inv f done n v rest IV E) as [f' [p [w [S [IV' [_ [-> [Q X]]]]]]]]. cbn [set_arguments]. rewrite S, X. destruct (default_value p) eqn:D; [|destruct (DV p Q D)]. apply (IH (done ++ [(Some (p_name p), v)])); [exact IV'|]. rewrite <- app_assoc. exact E.
  Qed.
  Lemma create_some p : In p ps -> create p <> None.
  Proof. intros Q. pose proof (DV p Q). unfold create. destruct (default_value p); [|contradiction]. repeat destruct (String.eqb _ _); try discriminate; destruct (options p); discriminate. Qed.
  Lemma open_inv : exists f, open k ps args = Some f /\ Inv k ps args f /\ Full k ps args f.
  Proof.
    destruct (create_all_ok ps create_some) as [f0 [C [M CR]]]. unfold open. rewrite C.
    assert (Inv k ps [] f0) as IV0.
    { split; [exact M| |].
      - intros p Q T. destruct (params_entry f0 p) as [w [J _]]; [rewrite M; exact NP|rewrite M; exact Q|]. exists w, w. split; [apply CR, J|]. split; [exact J|reflexivity].
      - intros p Q T S. destruct (params_entry f0 p) as [w [J _]]; [rewrite M; exact NP|rewrite M; exact Q|]. pose proof (CR _ _ J) as W. unfold create in W. rewrite S in W. cbn in W. injection W as <-.
        destruct (kind_cases k) as [K|[K|[[ids K]|K]]]; rewrite K; try exact I; eexists _, _; (split; [exact J|]); [right; split; reflexivity|intros s X; discriminate X]. }
    destruct (update_inv f0 [] IV0) as [IV1 _]; [intros x []|left; exact I|]. apply (all_inv args [] _ IV1). reflexivity.
  Qed.
End Setting.

Lemma honest_default p d : honest p -> p_default p = Some d -> default_value p = Some d.
Proof. unfold default_value. intros [-> | ->] ->; reflexivity. Qed.
Lemma commit_get f out p w : commit f = Some out -> In (p, w) f -> get_value p w <> None.
Proof. revert out. induction f as [|[q x] f IH]; intros out C I; [destruct I|]. cbn in C. destruct (get_value q x) eqn:V; [|discriminate]. destruct (commit f) as [l|]; [|discriminate]. destruct I as [[= <- <-]|I]; [congruence|exact (IH _ eq_refl I)]. Qed.
Lemma given_commit p f w v out : NoDup (map p_name (map fst f)) -> commit f = Some out -> In (p, w) f -> get_value p w = Some v -> given p out = Some v.
Proof.
  intros N C I G. assert (forall p w, In (p, w) f -> get_value p w <> None) as A by (intros q x; apply (commit_get f out q x C)).
  destruct (commit_ok f N A) as [out' [C' [_ [_ H]]]]. rewrite C in C'. injection C' as <-. unfold given. rewrite (H p w v I G). destruct (omitted p v) eqn:O; [|reflexivity].
  unfold omitted in O. destruct (p_default p) as [d|]; [|discriminate]. destruct v; try discriminate. apply String.eqb_eq in O. subst. reflexivity.
Qed.
Lemma keeps_ok k ps args : valid_call ps args -> (forall p, In p ps -> default_value p <> None) -> (forall p, In p ps -> exists v, given p args = Some v /\ shows k args p v) ->
  (forall p, In p ps -> argument (p_name p) args = None -> honest p) -> (forall p, In p ps -> takes_page k p -> type_of p = "select-page") -> one_list k ps -> keeps k ps args.
Proof.
  intros [NP NM NA RQ] DV SH HO TP OL. destruct (open_inv k ps args NP NA NM DV SH OL TP) as [f [O [[M V P] F]]]. assert (NoDup (map p_name (map fst f))) as N by (rewrite M; exact NP).
  assert (forall p, In p ps -> exists w v v', In (p, w) f /\ given p args = Some v /\ get_value p w = Some v' /\ same_value v v') as ALL.
  { intros p Q. destruct (SH p Q) as [v [G S]]. destruct S as [v T FI|before l after s K Np T D Ea Eb I Ns Nd|ids s K Np T A I Ns Nd].
    - destruct (V p Q T) as [w0 [w [C [J E]]]]. unfold given in G. destruct (argument (p_name p) args) as [u|] eqn:AR.
      + injection G as ->. destruct (set_get p v w0 FI (DV p Q) C) as [w' [v' [SV [_ [GV SA]]]]]. rewrite SV in E. injection E as ->. exists w, v, v'. unfold given. rewrite AR. auto.
      + subst w. destruct (p_default p) as [d|] eqn:PD; [|discriminate]. cbn in G. injection G as <-. destruct (create_get p d w0 FI (honest_default p d (HO p Q AR) PD) C) as [v' [GV SA]]. exists w0, (Code d), v'. unfold given. rewrite AR, PD. auto.
    - assert (takes_page k p) as Tk by (rewrite K; exact Np). pose proof (proj1 (F p Q Tk T) K) as J. exists (Choice (pages_of args ++ ["None"]) (Some (match page_of "select_page" args with Some s => s | None => "None" end))), (Code s), (Code s). split; [exact J|]. split; [exact G|]. split; [|constructor].
      unfold given in G. rewrite Np in G. unfold page_of. cbn [get_value]. assert (match match argument "select_page" args with Some (Code s) => Some s | _ => None end with Some s => s | None => "None" end = s) as ->.
      { destruct (argument "select_page" args) as [u|]; [injection G as ->; reflexivity|]. rewrite D in G. cbn in G. congruence. }
      destruct (string_dec s ""); [contradiction|]. unfold convert. rewrite T. reflexivity.
    - assert (takes_page k p) as Tk by (rewrite K; split; [discriminate|exact Np]). destruct (proj2 (F p Q Tk T) ids K) as [o [J E]]. unfold given in G. rewrite Np in G. destruct (argument "page_id" args) as [u|] eqn:AR; [|contradiction]. injection G as ->.
      assert (o = Some s) as -> by (apply E; [unfold page_of; rewrite AR; reflexivity|exact I]). exists (Choice ids (Some s)), (Code s), (Code s). split; [exact J|]. split; [unfold given; rewrite Np, AR; reflexivity|]. split; [|constructor]. cbn [get_value]. destruct (string_dec s ""); [contradiction|]. unfold convert. rewrite T. reflexivity. }
  destruct (commit_ok f N) as [out [C [ND [IN AR]]]].
  { intros p w I. destruct (ALL p) as [w' [v [v' [I' [_ [G _]]]]]]; [rewrite <- M; apply (in_map fst _ _ I)|]. apply (in_entry _ _ _ N) in I, I'. assert (w' = w) as -> by congruence. congruence. }
  exists f, out. split; [exact O|]. split; [exact C|]. split.
  - split; [exact NP| |exact ND|].
    + rewrite Forall_forall. intros a A. destruct (IN (fst a) (in_map fst _ _ A)) as [p [Q E]]. exists p. rewrite <- M. auto.
    + intros p Q. destruct (ALL p Q) as [w [v [v' [I [_ [G _]]]]]]. rewrite (given_commit p f w v' out N C I G). discriminate.
  - intros p Q. destruct (ALL p Q) as [w [v [v' [I [GV [G SA]]]]]]. exists v, v'. rewrite (given_commit p f w v' out N C I G). auto.
Qed.

(* Edits *)
Definition refresh (k : kind) (pl : option (list page)) (e : param * widget) : param * widget :=
  match k with
  | Pager => match pl with Some l => match update_choice "select_page" (map g_id l ++ ["None"]) (fun v => match v with Some v => if string_dec v "" then Some "None" else Some v | None => Some "None" end) [e] with x :: _ => x | [] => e end | None => e end
  | Proxy (Some ids) => match update_choice "page_id" ids (fun v => v) [e] with x :: _ => x | [] => e end
  | _ => e
  end.
Lemma update_map k f : update k f = map (refresh k (page_list f)) f.
Proof. destruct k as [| |[ids|]]; cbn [update refresh]; rewrite ?map_id; try reflexivity. destruct (page_list f); [reflexivity|rewrite map_id; reflexivity]. Qed.
Lemma refresh_list k pl f : page_list (map (refresh k pl) f) = page_list f.
Proof.
  induction f as [|[p w] f IH]; [reflexivity|]. cbn [map]. assert (refresh k pl (p, w) = (p, w) \/ exists l o l' o', w = Choice l o /\ refresh k pl (p, w) = (p, Choice l' o')) as [E|[l [o [l' [o' [E E']]]]]].
  { destruct k as [| |[ids|]]; cbn [refresh]; auto.
    - destruct pl; [|auto]. destruct w; cbn; auto. destruct (String.eqb _ _); [right; eauto 8|auto].
    - destruct w; cbn; auto. destruct (String.eqb _ _); [right; eauto 8|auto]. }
  - rewrite E. cbn [page_list]. destruct w; auto.
  - rewrite E', E. cbn [page_list]. exact IH.
Qed.
Definition stable (k : kind) (f : form) : Prop := forall e, In e f -> refresh k (page_list f) e = e.
Lemma refresh_choice k pl p l o : exists l' o', refresh k pl (p, Choice l o) = (p, Choice l' o').
Proof. destruct k as [| |[ids|]]; cbn [refresh]; eauto; [destruct pl; [|eauto]|]; cbn; destruct (String.eqb _ _); eauto. Qed.
Lemma refresh_thrice k pl e : refresh k pl (refresh k pl (refresh k pl e)) = refresh k pl (refresh k pl e).
Proof.
  destruct k as [| |[ids|]]; cbn [refresh]; try reflexivity.
  - destruct pl as [l|]; [|reflexivity]. destruct e as [p w]. destruct w as [| |l' o| |]; cbn [update_choice map]; try reflexivity. destruct (String.eqb (p_name p) "select_page") eqn:E; cbn [update_choice map]; rewrite !E; [|reflexivity].
    set (L := map g_id l ++ ["None"]). assert (In "None" L) as NN by (apply in_or_app; right; left; reflexivity). f_equal. f_equal.
    set (g := fun v : option string => match v with Some v => if string_dec v "" then Some "None" else Some v | None => Some "None" end).
    assert (forall o, exists v, g o = Some v /\ v <> "") as G by (intros [v|]; cbn; [destruct (string_dec v "")|]; eexists; split; try reflexivity; auto; discriminate).
    assert (forall o, (match g o with Some v => choose L v | None => None end = None) \/ exists v, match g o with Some v => choose L v | None => None end = Some v /\ v <> "" /\ In v L) as H.
    { intros o'. destruct (G o') as [v [-> Nv]]. unfold choose. destruct (in_dec string_dec v L); [right; exists v; auto|left; reflexivity]. }
    assert (forall v, v <> "" -> In v L -> match g (Some v) with Some v => choose L v | None => None end = Some v) as K by (intros v Nv Iv; cbn; destruct (string_dec v ""); [contradiction|apply choose_in, Iv]).
    change (match match o with Some x => if string_dec x "" then Some "None" else Some x | None => Some "None" end with Some y => choose L y | None => None end) with (match g o with Some v => choose L v | None => None end).
    destruct (H o) as [-> | [v [-> [Nv Iv]]]]; cbn -[choose]; rewrite ?(choose_in L "None" NN); cbn -[choose]; rewrite ?(choose_in L "None" NN); [reflexivity|]. destruct (string_dec v ""); [contradiction|]. rewrite (choose_in L v Iv). destruct (string_dec v ""); [contradiction|]. rewrite (choose_in L v Iv). reflexivity.
  - destruct e as [p w]. destruct w as [| |l' o| |]; cbn [update_choice map]; try reflexivity. destruct (String.eqb (p_name p) "page_id") eqn:E; cbn [update_choice map]; rewrite !E; [|reflexivity]. f_equal. f_equal.
    destruct o as [v|]; [|reflexivity]. destruct (choose ids v) as [x|] eqn:C; [|reflexivity]. apply choose_some in C. destruct C as [-> C]. rewrite !(choose_in ids v C). reflexivity.
Qed.
Lemma stable_twice k f : stable k (update k (update k f)).
Proof.
  unfold stable. rewrite (update_map k (update k f)), (update_map k f), !refresh_list. intros e I. rewrite map_map in I. apply in_map_iff in I. destruct I as [x [<- _]]. apply refresh_thrice.
Qed.
Lemma open_stable k ps args f : open k ps args = Some f -> stable k f.
Proof.
  unfold open. destruct (create_all ps) as [f0|]; [|discriminate]. assert (exists g, update k f0 = update k g) as H by (exists f0; reflexivity). revert H. generalize (update k f0). intros f1 H. revert f1 H.
  induction args as [|[n v] args IH]; intros f1 [g ->] O; cbn [set_arguments] in O.
  - injection O as <-. apply stable_twice.
  - destruct (set_argument k (update k g) n v) as [f2|] eqn:S; [|discriminate]. destruct n as [n|]; [|discriminate]. destruct (entry n f2) as [[p w]|]; [|discriminate]. destruct (default_value p); [|discriminate]. apply (IH f2); [|exact O].
    unfold set_argument in S. destruct (entry n (update k (update k g))) as [[q x]|]; [|discriminate]. destruct (set_value x v) as [y|]; [|discriminate]. injection S as <-. eauto.
Qed.
Definition entered (e : edit) (f : form) : form := map (fun x => if String.eqb (p_name (fst x)) (target e) then (fst x, enter e (snd x)) else x) f.
Lemma entered_list e f : page_list (entered e f) = page_list f.
Proof.
  unfold entered. induction f as [|[p w] f IH]; [reflexivity|]. cbn [map fst snd]. destruct (String.eqb (p_name p) (target e)); cbn [page_list]; [|destruct w; auto].
  destruct e as [n b|n v|n v], w as [| |l o| |]; cbn [enter page_list]; auto. destruct (choose l v); exact IH.
Qed.
Lemma entered_params e f : map fst (entered e f) = map fst f.
Proof. unfold entered. rewrite map_map. apply map_ext. intros [p w]. cbn. destruct (String.eqb _ _); reflexivity. Qed.
Lemma edit_map k f e : edit_form k f e = map (refresh k (page_list f)) (entered e f).
Proof. unfold edit_form. fold (entered e f). rewrite update_map, entered_list. reflexivity. Qed.
Lemma edit_params k f e : map fst (edit_form k f e) = map fst f.
Proof. unfold edit_form. rewrite update_params. apply (entered_params e f). Qed.
Lemma refresh_pick k pl p l o v : refresh k pl (p, Choice l o) = (p, Choice l o) -> In v l -> v <> "" -> refresh k pl (p, Choice l (Some v)) = (p, Choice l (Some v)).
Proof.
  intros S I Nv. destruct k as [| |[ids|]]; cbn [refresh] in *; try reflexivity.
  - destruct pl as [g|]; [|reflexivity]. cbn [update_choice map] in *. destruct (String.eqb _ _); [|reflexivity]. injection S as <- _. destruct (string_dec v ""); [contradiction|]. rewrite choose_in by exact I. reflexivity.
  - cbn [update_choice map] in *. destruct (String.eqb _ _); [|reflexivity]. injection S as <- _. rewrite choose_in by exact I. reflexivity.
Qed.
Lemma edit_stable k f e : stable k f -> stable k (edit_form k f e).
Proof.
  intros S. assert (page_list (edit_form k f e) = page_list f) as PL by (rewrite edit_map, refresh_list; apply entered_list). unfold stable. rewrite PL. rewrite edit_map. intros x I. apply in_map_iff in I. destruct I as [y [<- I]]. unfold entered in I. apply in_map_iff in I. destruct I as [[p w] [<- I]].
  pose proof (S _ I) as W. cbn [fst snd]. destruct (String.eqb (p_name p) (target e)); [|rewrite !W; reflexivity].
  assert (enter e w = w \/ (exists l o v, w = Choice l o /\ enter e w = Choice l (Some v) /\ In v l) \/ forall l o, enter e w <> Choice l o) as [E|[[l [o [v [E [E' J]]]]]|E]].
  { destruct e as [n b|n v|n v], w as [| |l o| |]; cbn [enter]; auto; try (right; right; discriminate). destruct (choose l v) as [v'|] eqn:C; [|auto]. apply choose_some in C. destruct C as [-> J]. right. left. eauto 8. }
  - rewrite E, !W. reflexivity.
  - rewrite E'. subst w. destruct (string_dec v "") as [->|Nv].
    + destruct k as [| |[ids|]]; cbn [refresh] in *; try reflexivity.
      * destruct (page_list f) as [g|]; [|reflexivity]. cbn [update_choice map] in *. destruct (String.eqb (p_name p) "select_page") eqn:F; cbn [update_choice map]; rewrite !F; [|reflexivity]. cbn -[choose]. assert (In "None" (map g_id g ++ ["None"])) as NN by (apply in_or_app; right; left; reflexivity). rewrite (choose_in _ _ NN). cbn -[choose]. rewrite (choose_in _ _ NN). reflexivity.
      * cbn [update_choice map] in *. destruct (String.eqb (p_name p) "page_id") eqn:F; cbn [update_choice map]; rewrite !F; [|reflexivity]. injection W as <- _. rewrite (choose_in _ _ J), (choose_in _ _ J). reflexivity.
    + rewrite (refresh_pick _ _ _ _ _ _ W J Nv). apply (refresh_pick _ _ _ _ _ _ W J Nv).
  - assert (refresh k (page_list f) (p, enter e w) = (p, enter e w)) as R; [|rewrite !R; reflexivity]. destruct (enter e w); destruct k as [| |[ids|]]; cbn; try reflexivity; try (destruct (page_list f); reflexivity); destruct (E _ _ eq_refl).
Qed.
Lemma reached_stable k ps args f : reached k ps args f -> stable k f.
Proof. intros [f0 [es [O ->]]]. apply open_stable in O. revert f0 O. induction es as [|e es IH]; intros f0 O; [exact O|]. apply IH, edit_stable, O. Qed.
Lemma set_arguments_params k args : forall f f', set_arguments k f args = Some f' -> map fst f' = map fst f.
Proof.
  induction args as [|[n v] args IH]; intros f f' O; cbn [set_arguments] in O.
  - injection O as <-. apply update_params.
  - destruct (set_argument k f n v) as [f2|] eqn:S; [|discriminate]. destruct n as [n|]; [|discriminate]. destruct (entry n f2) as [[p w]|]; [|discriminate]. destruct (default_value p); [|discriminate]. rewrite (IH _ _ O).
    unfold set_argument in S. destruct (entry n (update k f)) as [[q x]|]; [|discriminate]. destruct (set_value x v) as [y|]; [|discriminate]. injection S as <-. rewrite update_params, put_params, update_params. reflexivity.
Qed.
Lemma create_all_params ps : forall f, create_all ps = Some f -> map fst f = ps.
Proof. induction ps as [|p ps IH]; intros f H; cbn in H; [injection H as <-; reflexivity|]. destruct (create p); [|discriminate]. destruct (create_all ps) as [g|]; [|discriminate]. injection H as <-. cbn. rewrite (IH g eq_refl). reflexivity. Qed.
Lemma reached_params k ps args f : reached k ps args f -> map fst f = ps.
Proof.
  intros [f0 [es [O ->]]]. unfold open in O. destruct (create_all ps) as [f1|] eqn:C; [|discriminate]. apply set_arguments_params in O. rewrite update_params, (create_all_params _ _ C) in O. revert f0 O. induction es as [|e es IH]; intros f0 O; [exact O|]. apply IH. rewrite edit_params. exact O.
Qed.
Lemma edit_other k f e p w : stable k f -> In (p, w) f -> p_name p <> target e -> In (p, w) (edit_form k f e).
Proof. intros S I E. rewrite edit_map. apply in_map_iff. exists (p, w). split; [apply S, I|]. unfold entered. apply in_map_iff. exists (p, w). cbn. rewrite eqb_no by exact E. auto. Qed.
Lemma edit_here k f e p w : In (p, w) f -> p_name p = target e -> In (refresh k (page_list f) (p, enter e w)) (edit_form k f e).
Proof. intros I E. rewrite edit_map. apply in_map. unfold entered. apply in_map_iff. exists (p, w). cbn. rewrite E, String.eqb_refl. auto. Qed.
Lemma refresh_nochoice k pl p w : (forall l o, w <> Choice l o) -> refresh k pl (p, w) = (p, w).
Proof. intros H. destruct w; destruct k as [| |[ids|]]; cbn; try reflexivity; try (destruct pl; reflexivity); destruct (H _ _ eq_refl). Qed.

(* Inputs keep their kind *)
Definition shape (k : kind) (e : param * widget) : Prop :=
  exists w0, create (fst e) = Some w0 /\ match w0, snd e with Check _, Check _ | Number _, Number _ | Field _, Field _ | PageList _, PageList _ => True | Choice l _, Choice l' _ => takes_page k (fst e) \/ l = l' | _, _ => False end.
Lemma shape_set k p w v w' : shape k (p, w) -> set_value w v = Some w' -> shape k (p, w').
Proof. intros [w0 [C S]] E. exists w0. split; [exact C|]. cbn in *. destruct w0, w; try destruct S; destruct v; cbn in E; try discriminate; injection E as <-; auto. Qed.
Lemma shape_enter k p w e : shape k (p, w) -> shape k (p, enter e w).
Proof. intros [w0 [C S]]. exists w0. split; [exact C|]. cbn in *. destruct e as [n b|n v|n v], w0, w as [| |l' o| |]; try destruct S; cbn; auto; destruct (choose l' v); auto. Qed.
Lemma shape_refresh k pl e : shape k e -> shape k (refresh k pl e).
Proof.
  destruct e as [p w]. intros [w0 [C S]]. destruct w as [| |l o| |]; try (rewrite refresh_nochoice by discriminate; exists w0; auto). cbn in S. destruct w0; try destruct S.
  all: destruct k as [| |[ids|]]; cbn [refresh]; try (eexists; split; [exact C|]; cbn; auto; fail).
  all: try (destruct pl as [g|]; [|eexists; split; [exact C|]; cbn; auto; fail]); cbn [update_choice map]; destruct (String.eqb _ _) eqn:F; eexists; (split; [exact C|]); cbn; auto; apply String.eqb_eq in F; left; cbn; auto; try (split; [discriminate|exact F]).
Qed.
Lemma shape_update k f : Forall (shape k) f -> Forall (shape k) (update k f).
Proof. rewrite update_map, !Forall_forall. intros H e I. apply in_map_iff in I. destruct I as [x [<- I]]. apply shape_refresh, H, I. Qed.
Lemma shape_open k ps args f : NoDup (map p_name ps) -> open k ps args = Some f -> Forall (shape k) f.
Proof.
  unfold open. intros N. destruct (create_all ps) as [f0|] eqn:C0; [|discriminate].
  assert (NoDup (map p_name (map fst f0))) as N0 by (rewrite (create_all_params _ _ C0); exact N).
  assert (Forall (shape k) f0) as S0.
  { clear - C0. revert f0 C0. induction ps as [|p ps IH]; intros f0 C; cbn in C; [injection C as <-; constructor|]. destruct (create p) as [w|] eqn:W; [|discriminate]. destruct (create_all ps) as [g|]; [|discriminate]. injection C as <-. constructor; [|apply IH; reflexivity]. exists w. split; [exact W|]. cbn. destruct w; auto. }
  apply shape_update in S0. rewrite <- (update_params k f0) in N0. revert S0 N0. generalize (update k f0). clear f0 C0 N. induction args as [|[n v] args IH]; intros g S0 N0 O; cbn [set_arguments] in O.
  - injection O as <-. apply shape_update, S0.
  - destruct (set_argument k g n v) as [f2|] eqn:S; [|discriminate]. destruct n as [n|]; [|discriminate]. destruct (entry n f2) as [[p w]|]; [|discriminate]. destruct (default_value p); [|discriminate]. apply (IH f2); [| |exact O].
    + unfold set_argument in S. apply shape_update in S0. destruct (entry n (update k g)) as [[q x]|] eqn:En; [|discriminate]. destruct (set_value x v) as [y|] eqn:SV; [|discriminate]. injection S as <-. apply shape_update. rewrite Forall_forall in *. intros [p' w'] I. unfold put_widget in I. apply in_map_iff in I. destruct I as [[q' x'] [E I]]. cbn in E.
      destruct (String.eqb (p_name q') n) eqn:Q; [|injection E as <- <-; apply S0, I]. injection E as <- <-. apply String.eqb_eq in Q. apply (in_entry (update k g) q' x') in I as I2; [|rewrite update_params; exact N0]. rewrite Q in I2. rewrite I2 in En. injection En as -> ->. eapply shape_set; [apply S0, I|exact SV].
    + unfold set_argument in S. destruct (entry n (update k g)) as [[q x]|]; [|discriminate]. destruct (set_value x v) as [y|]; [|discriminate]. injection S as <-. rewrite update_params, put_params, update_params. exact N0.
Qed.
Lemma shape_reached k ps args f : NoDup (map p_name ps) -> reached k ps args f -> Forall (shape k) f.
Proof.
  intros N [f0 [es [O ->]]]. apply (shape_open _ _ _ _ N) in O. revert f0 O. induction es as [|e es IH]; intros f0 O; [exact O|]. apply IH. rewrite edit_map. rewrite Forall_forall in *. intros x I. apply in_map_iff in I. destruct I as [y [<- I]]. apply shape_refresh.
  unfold entered in I. apply in_map_iff in I. destruct I as [[p w] [<- I]]. cbn. destruct (String.eqb _ _); [apply shape_enter, O, I|apply O, I].
Qed.
Lemma get_some p w : default_value p <> None -> get_value p w <> None.
Proof. intros D. destruct (default_value p) eqn:E; [|contradiction]. destruct w as [| |l [o|]| |]; cbn; rewrite ?E; try discriminate; destruct (string_dec _ _); discriminate. Qed.

(* What the user enters *)
Lemma read_plain t : ~ has squote t -> ~ has backslash t -> read_literal (t ++ String squote "") = Some t.
Proof.
  induction t as [|c t IH]; intros A B; [reflexivity|]. cbn [append read_literal has] in *. destruct (ascii_dec c squote); [tauto|]. destruct (ascii_dec c backslash); [tauto|]. rewrite IH by tauto. reflexivity.
Qed.
Lemma literal_quote s : ~ has backslash s -> literal (auto_quote s) = Some (strip_quotes s).
Proof. intros B. unfold literal, auto_quote. cbn [ascii_dec]. destruct (ascii_dec squote squote); [|contradiction]. apply read_plain; [apply unquoted_strip|]. intros H. apply has_filter in H. tauto. Qed.
Lemma unquote_strip s : without_quotes s (strip_quotes s).
Proof.
  unfold strip_quotes. induction s as [|c s IH]; cbn [filter_string]; [constructor|]. destruct (Ascii.eqb c dquote || Ascii.eqb c squote) eqn:E; cbn [negb].
  - apply wq_quote; [|exact IH]. apply orb_true_iff in E. rewrite !Ascii.eqb_eq in E. exact E.
  - apply orb_false_iff in E. rewrite !Ascii.eqb_neq in E. apply wq_char; tauto.
Qed.
Lemma means_ok k ps args f e p v : NoDup (map p_name ps) -> default_value p <> None -> reached k ps args f -> In p ps -> ~ takes_page k p -> target e = p_name p -> means p e v ->
  exists w v', In (p, w) (edit_form k f e) /\ get_value p w = Some v' /\ entered_as p e v v'.
Proof.
  intros N D R Q T E M. pose proof (reached_params _ _ _ _ R) as PS. destruct (params_entry f p) as [w [I _]]; [rewrite PS; exact N|rewrite PS; exact Q|]. pose proof (shape_reached _ _ _ _ N R) as S. rewrite Forall_forall in S. destruct (S _ I) as [w0 [C W]]. cbn [fst snd] in C, W.
  pose proof (edit_here k f e p w I (eq_sym E)) as H. destruct (default_value p) as [d|] eqn:DV; [|contradiction]. clear D.
  destruct M as [n b Ty|n l s Ty O J Ns|n s Ty O J|n s Ty J U L Ns|n s Ty L Ns|n s Ty O L Ns].
  - assert (exists b0, w = Check b0) as [b0 ->] by (unfold create in C; rewrite Ty, DV in C; cbn in C; injection C as <-; destruct w; try destruct W; eauto).
    cbn [enter] in H. rewrite refresh_nochoice in H by discriminate. eexists _, _. split; [exact H|]. split; [reflexivity|]. apply as_is. rewrite Ty. discriminate.
  - assert (exists o, w = Choice l o) as [o ->] by (unfold create in C; destruct Ty as [Ty|Ty]; rewrite Ty, DV, O in C; cbn in C; injection C as <-; destruct w as [| |l' o| |]; try destruct W; try contradiction; subst; eauto).
    cbn [enter] in H. rewrite choose_in in H by exact J. rewrite (refresh_pick k (page_list f) p l o s) in H; [|apply (reached_stable _ _ _ _ R), I|exact J|exact Ns]. eexists _, _. split; [exact H|]. cbn [get_value]. destruct (string_dec s ""); [contradiction|]. split; [reflexivity|]. unfold convert. assert (type_of p <> "text") as NT by (destruct Ty as [-> | ->]; discriminate). rewrite (eqb_no _ _ NT). apply as_is, NT.
  - assert (exists o, w = Number o) as [o ->] by (unfold create in C; rewrite Ty, DV, O in C; cbn in C; injection C as <-; destruct w; try destruct W; eauto).
    cbn [enter] in H. rewrite refresh_nochoice in H by discriminate. unfold number in H. rewrite J in H. eexists _, _. split; [exact H|]. cbn [get_value]. destruct (string_dec s ""); [subst; discriminate|]. split; [reflexivity|]. unfold convert. rewrite Ty. apply as_is. rewrite Ty. discriminate.
  - assert (exists o, w = Field o) as [o ->] by (unfold create in C; rewrite Ty, DV in C; cbn in C; injection C as <-; destruct w; try destruct W; eauto).
    cbn [enter] in H. rewrite refresh_nochoice, line_single in H by (auto; discriminate). eexists _, _. split; [exact H|]. cbn [get_value]. destruct (string_dec s ""); [contradiction|]. split; [reflexivity|]. unfold convert. destruct (in_dec string_dec s (p_raw p)); [|contradiction]. destruct (String.eqb _ _); apply as_raw; assumption.
  - assert (exists o, w = Field o) as [o ->] by (unfold create in C; rewrite Ty, DV in C; cbn in C; injection C as <-; destruct w; try destruct W; eauto).
    cbn [enter] in H. rewrite refresh_nochoice, line_single in H by (auto; discriminate). eexists _, _. split; [exact H|]. cbn [get_value]. destruct (string_dec s ""); [contradiction|]. split; [reflexivity|]. unfold convert. rewrite Ty. cbn [String.eqb Ascii.eqb Bool.eqb]. destruct (in_dec string_dec s (p_raw p)); [apply as_raw; assumption|].
    apply as_text with (t := strip_quotes s); [assumption|apply unquote_strip|apply literal_quote].
  - assert (is_free p) as Fr by (split; assumption). assert (exists o, w = Field o) as [o ->] by (rewrite (create_free p d Fr DV) in C; injection C as <-; destruct w; try destruct W; eauto).
    cbn [enter] in H. rewrite refresh_nochoice, line_single in H by (auto; discriminate). eexists _, _. split; [exact H|]. cbn [get_value]. destruct (string_dec s ""); [contradiction|]. split; [reflexivity|]. unfold convert. types. apply as_is. intros X. apply Ty. rewrite X. cbn. tauto.
Qed.
Lemma names_by (ps : list param) (args : list (option string * value)) : forallb (fun a => match fst a with Some n => existsb (fun p => String.eqb n (p_name p)) ps | None => false end) args = true -> Forall (fun a => exists p, In p ps /\ fst a = Some (p_name p)) args.
Proof.
  rewrite forallb_forall, Forall_forall. intros H a I. specialize (H a I). destruct (fst a) as [n|]; [|discriminate]. apply existsb_exists in H. destruct H as [p [Q E]]. apply String.eqb_eq in E. subst. eauto.
Qed.
