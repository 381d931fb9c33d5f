(* C108: the general settings of a switch. *)
From Coq Require Import String Ascii DecimalString DecimalZ.
From Verif.Lib Require Import Base.
From Verif.Model Require Import Properties Label Pages Settings.
From Verif.Spec Require Import Settings.
From Verif.Props Require Import Pages.
Local Open Scope list_scope.
Local Open Scope Z_scope.

Lemma get_set n v a : get_arg n (set_arg n v a) = Some v.
Proof.
  induction a as [|[m w] a IH]; cbn [set_arg get_arg]; [rewrite String.eqb_refl; reflexivity|]. destruct (String.eqb m n) eqn:E; cbn [get_arg]; rewrite E; [reflexivity|exact IH].
Qed.
Lemma get_set_other n m v a : m <> n -> get_arg m (set_arg n v a) = get_arg m a.
Proof.
  intros D. induction a as [|[k w] a IH]; cbn [set_arg get_arg].
  - destruct (String.eqb_spec n m); [congruence|reflexivity].
  - destruct (String.eqb_spec k n) as [->|N]; cbn [get_arg]; [|rewrite IH; reflexivity]. destruct (String.eqb_spec n m); [congruence|reflexivity].
Qed.
Lemma change_get o m a : m <> "holdTimeMillis"%string -> m <> "holdRepeat"%string -> get_arg m (change_args o a) = get_arg m a.
Proof. intros A B. destruct o; cbn [change_args]; apply get_set_other; assumption. Qed.
Lemma change_is o x a : is_input x (change_args o a) = is_input x a.
Proof. unfold is_input. rewrite change_get by discriminate. reflexivity. Qed.
Lemma find_change x o c i : find_input x c = Some i -> find_input x (change_input x (change_args o) c) = Some (change_args o i).
Proof.
  unfold find_input. induction c as [|j c IH]; cbn; [discriminate|]. destruct (is_input x j) eqn:E; cbn [find].
  - intros H. injection H as ->. rewrite change_is, E. reflexivity.
  - rewrite E. exact IH.
Qed.
Lemma run_find x h : forall c i, find_input x c = Some i -> find_input x (run x c h) = Some (fold_left (fun a o => change_args o a) h i).
Proof.
  induction h as [|o h IH]; intros c i F; cbn; [exact F|]. apply IH. unfold step. rewrite F. apply find_change. exact F.
Qed.
Lemma fold_time h : forall i, get_arg "holdTimeMillis" (fold_left (fun a o => change_args o a) h i) =
  match last_time h with Some t => Some (js_number (parse_int t)) | None => get_arg "holdTimeMillis" i end.
Proof.
  induction h as [|o h IH] using rev_ind; intros i; [reflexivity|]. unfold last_time in *. rewrite !fold_left_app. cbn [fold_left]. destruct o as [t|b]; cbn [change_args].
  - apply get_set.
  - rewrite get_set_other by discriminate. apply IH.
Qed.
Lemma fold_repeat h : forall i, get_arg "holdRepeat" (fold_left (fun a o => change_args o a) h i) =
  match last_repeat h with Some b => Some (if b then "True" else "False")%string | None => get_arg "holdRepeat" i end.
Proof.
  induction h as [|o h IH] using rev_ind; intros i; [reflexivity|]. unfold last_repeat in *. rewrite !fold_left_app. cbn [fold_left]. destruct o as [t|b]; cbn [change_args].
  - rewrite get_set_other by discriminate. apply IH.
  - apply get_set.
Qed.
Lemma dec_int z : python_int (dec z) = Some z.
Proof.
  unfold python_int, dec. rewrite NilZero.isi.
  - rewrite DecimalZ.of_to, String.eqb_refl. reflexivity.
  - intros H. pose proof (DecimalZ.of_to z) as R. rewrite H in R. cbn in R. subst z. discriminate.
  - intros H. pose proof (DecimalZ.of_to z) as R. rewrite H in R. cbn in R. subst z. discriminate.
Qed.
Lemma int_dec s z : python_int s = Some z -> s = dec z.
Proof.
  unfold python_int. destruct (NilZero.int_of_string s) as [i|]; [|discriminate]. destruct (String.eqb_spec (dec (Z.of_int i)) s) as [E|]; [|discriminate]. intros H. injection H as <-. congruence.
Qed.
Lemma strip_id s : (forall c, In c (list_ascii_of_string s) -> c <> dquote /\ c <> squote) -> strip_quotes s = s.
Proof.
  unfold strip_quotes. induction s as [|c s IH]; intros H; [reflexivity|]. cbn [filter_string]. destruct (H c) as [A B]; [left; reflexivity|].
  destruct (Ascii.eqb_spec c dquote); [contradiction|]. destruct (Ascii.eqb_spec c squote); [contradiction|]. cbn. f_equal. apply IH. intros d D. apply H. right. exact D.
Qed.
Lemma strip_dec n : 0 <= n -> strip_quotes (dec n) = dec n.
Proof.
  intros P. apply strip_id. pose proof (dec_digits n P) as D. induction (dec n) as [|c s IH]; intros d I; [destruct I|]. cbn in D. apply andb_true_iff in D. destruct D as [A D].
  destruct I as [<-|I]; [|exact (IH D d I)]. split; intros ->; discriminate A.
Qed.
Lemma dec_nonempty n : 0 <= n -> dec n <> ""%string.
Proof. intros P E. pose proof (parse_dec n P) as H. rewrite E in H. discriminate. Qed.

(* After any changes in the dialog, the firmware takes the time which was typed last, and what it took before if none was. *)
Theorem C108_time : forall x c h i, find_input x c = Some i ->
  exists i', find_input x (run x c h) = Some i' /\
  (forall t n, last_time h = Some t -> is_number t n -> used_time i' = Some n) /\ (last_time h = None -> used_time i' = used_time i).
Proof.
  intros x c h i F. eexists. split; [apply run_find; exact F|]. unfold used_time. rewrite fold_time. split.
  - intros t n -> [P ->]. change (NilZero.string_of_int (Z.to_int n)) with (dec n). rewrite parse_dec by exact P. cbn [js_number]. apply dec_int.
  - intros ->. reflexivity.
Qed.
Print Assumptions C108_time.

(* The same for repeating. *)
Theorem C108_repeat : forall x c h i, find_input x c = Some i ->
  exists i', find_input x (run x c h) = Some i' /\ used_repeat i' = match last_repeat h with Some b => Some b | None => used_repeat i end.
Proof.
  intros x c h i F. eexists. split; [apply run_find; exact F|]. unfold used_repeat. rewrite fold_repeat. destruct (last_repeat h) as [[]|]; reflexivity.
Qed.
Print Assumptions C108_repeat.

(* Nothing else is changed: neither other arguments, nor other inputs, nor their order. *)
Theorem C108_others : forall x c h i, find_input x c = Some i -> exists before after i', c = before ++ i :: after /\ run x c h = before ++ i' :: after /\
  forall m, m <> "holdTimeMillis"%string -> m <> "holdRepeat"%string -> get_arg m i' = get_arg m i.
Proof.
  intros x c h. revert c. induction h as [|o h IH]; intros c i F.
  - unfold find_input in F. revert F. induction c as [|j c IHc]; cbn; [discriminate|]. destruct (is_input x j).
    + intros H. injection H as ->. exists [], c, i. auto.
    + intros H. destruct (IHc H) as (b & a & i' & E & E' & G). subst c. cbn in E'. exists (j :: b), a, i'. split; [reflexivity|]. split; [|exact G]. cbn. f_equal. exact E'.
  - cbn [run fold_left]. unfold step. rewrite F. pose proof (find_change x o c i F) as F2. destruct (IH _ _ F2) as (b & a & i' & E & E' & G).
    assert (C : exists b0 a0, c = b0 ++ i :: a0 /\ change_input x (change_args o) c = b0 ++ change_args o i :: a0 /\ find_input x b0 = None /\ is_input x i = true).
    { clear - F. unfold find_input in *. induction c as [|j c IHc]; cbn in *; [discriminate|]. destruct (is_input x j) eqn:E.
      - injection F as ->. exists [], c. auto.
      - destruct (IHc F) as (b0 & a0 & -> & E2 & N & I). rewrite E2. exists (j :: b0), a0. cbn. rewrite E. auto. }
    destruct C as (b0 & a0 & -> & E2 & N & I).
    (* the changed list has only one such decomposition at its first input *)
    assert (R : forall h c j a1, find_input x c = None -> is_input x j = true -> exists j', fold_left (step x) h (c ++ j :: a1) = c ++ j' :: a1 /\
      forall m, m <> "holdTimeMillis"%string -> m <> "holdRepeat"%string -> get_arg m j' = get_arg m j).
    { clear. induction h as [|o h IH]; intros c j a1 N I; cbn [fold_left]; [exists j; auto|].
      assert (S : step x (c ++ j :: a1) o = c ++ change_args o j :: a1).
      { unfold step, find_input in *. assert (Fc : find (is_input x) (c ++ j :: a1) = Some j).
        { revert N. induction c as [|k c IHc]; cbn; [rewrite I; reflexivity|]. destruct (is_input x k); [discriminate|exact IHc]. }
        rewrite Fc. revert N. clear - I. induction c as [|k c IHc]; cbn; [rewrite I; reflexivity|]. destruct (is_input x k); [discriminate|]. intros N. rewrite IHc by exact N. reflexivity. }
      rewrite S. destruct (IH c (change_args o j) a1 N) as (j' & E & G); [rewrite change_is; exact I|]. exists j'. split; [exact E|]. intros m A B. rewrite G by assumption. apply change_get; assumption. }
    rewrite E2. destruct (R h b0 (change_args o i) a0 N) as (j' & EJ & GJ); [rewrite change_is; exact I|].
    exists b0, a0, j'. split; [reflexivity|]. split; [exact EJ|]. intros m A B. rewrite GJ by assumption. apply change_get; assumption.
Qed.
Print Assumptions C108_others.

(* The dialog shows what the firmware takes, if that is a time above 0. Missing for the full claim: 0 and code which is no number, refuted below. *)
Theorem C108_shown_partial : forall i, (forall n, used_time i = Some n -> 0 < n -> shown_time (Some i) = n) /\ (forall b, used_repeat i = Some b -> shown_repeat (Some i) = b).
Proof.
  intros i. split.
  - unfold used_time, shown_time. intros n. destruct (get_arg "holdTimeMillis" i) as [v|]; [|congruence]. intros H P. apply int_dec in H. subst v.
    destruct (String.eqb_spec (dec n) "") as [E|_]; [exfalso; apply (dec_nonempty n); [lia|exact E]|]. rewrite strip_dec, parse_dec by lia. destruct (Z.eqb_spec n 0); [lia|reflexivity].
  - unfold used_repeat, shown_repeat. intros b. destruct (get_arg "holdRepeat" i) as [v|]; [|congruence]. destruct (String.eqb v "True"); [congruence|]. destruct (String.eqb v "False"); congruence.
Qed.
Print Assumptions C108_shown_partial.

Definition sample : list args := [[("assignment", "PA_SWITCH_1"); ("actions", "[]")]; [("assignment", "PA_SWITCH_2"); ("actions", "[]"); ("holdTimeMillis", "0"); ("actionsHold", "[]")]]%string.

(* Finding: a hold time of 0 is shown as 600. *)
Theorem C108_zero_refuted : exists i, find_input "PA_SWITCH_2" sample = Some i /\ used_time i = Some 0 /\ shown_time (Some i) = 600.
Proof. eexists. vm_compute. auto. Qed.
Print Assumptions C108_zero_refuted.

(* Finding: if the field is cleared, the code contains NaN, which is no number for the firmware, while the dialog shows 600. *)
Theorem C108_empty_refuted : exists i, find_input "PA_SWITCH_1" (run "PA_SWITCH_1" sample [Time ""]) = Some i /\ get_arg "holdTimeMillis" i = Some "NaN"%string /\ used_time i = None /\ shown_time (Some i) = 600.
Proof. eexists. vm_compute. auto. Qed.
Print Assumptions C108_empty_refuted.

(* Finding: for a switch without actions, which is not in the configuration, nothing which is chosen in the dialog has any effect. *)
Theorem C108_missing_refuted : forall x c h, find_input x c = None -> run x c h = c.
Proof.
  intros x c h F. induction h as [|o h IH]; [reflexivity|]. cbn [run fold_left]. replace (step x c o) with c; [exact IH|]. unfold step. rewrite F. reflexivity.
Qed.
Print Assumptions C108_missing_refuted.

Example ex_settings : run "PA_SWITCH_1" sample [Time "250"; Repeat true; Time "1000"] =
  [[("assignment", "PA_SWITCH_1"); ("actions", "[]"); ("holdTimeMillis", "1000"); ("holdRepeat", "True")]; [("assignment", "PA_SWITCH_2"); ("actions", "[]"); ("holdTimeMillis", "0"); ("actionsHold", "[]")]]%string /\
  is_number "1000" 1000 /\ find_input "PA_SWITCH_3" sample = None.
Proof. split; [vm_compute; reflexivity|]. split; [split; [lia|reflexivity]|reflexivity]. Qed.
