(* Lemmas for C90. *)
From Coq Require Import String Lia.
From Verif.Lib Require Import Base.
From Verif.Model Require Import Session.
From Verif.Spec Require Import Session.
Open Scope string_scope.
Local Open Scope list_scope.

Lemma run_snoc es o : run (es ++ [o]) = step (run es) o. Proof. apply fold_left_app. Qed.
Lemma quiet_init es o : quiet (es ++ [o]) -> quiet es /\ (changes o = true -> s_saves (run es) = []).
Proof. intros Q. split; [intros b x a -> C; apply (Q b x (a ++ [o])); [rewrite <- app_assoc; reflexivity|exact C]|intros C; apply (Q es o []); [reflexivity|exact C]]. Qed.
Lemma nth_replace_same {A} n x (l : list A) d : (n < length l)%nat -> nth n (replace n x l) d = x.
Proof. revert n. induction l as [|y l IH]; intros n L; cbn [length] in L; [lia|]. destruct n; cbn; [reflexivity|]. apply IH. lia. Qed.
Lemma replace_length {A} n x (l : list A) : length (replace n x l) = length l.
Proof. revert n. induction l as [|y l IH]; intros n; [destruct n; reflexivity|]. destruct n; cbn; [reflexivity|]. rewrite IH. reflexivity. Qed.
Lemma replace_in {A} n (x : A) l y : In y (replace n x l) -> y = x \/ In y l.
Proof. revert n. induction l as [|z l IH]; intros n H; [destruct n; destruct H|]. destruct n; cbn in H; destruct H as [<-|H]; cbn; auto. destruct (IH _ H); auto. Qed.
Lemma remove_in {A} n (l : list A) y : In y (remove_nth n l) -> In y l.
Proof. revert n. induction l as [|z l IH]; intros n H; [destruct n; destruct H|]. destruct n; cbn in H; cbn; [auto|]. destruct H as [<-|H]; [auto|]. right. eauto. Qed.

Definition fresh (s : session) (v : save) : Prop :=
  v_ref v = s_ref s /\ (forall i, v_inputs v = Some i -> i = fst (current s)) /\ (forall d, v_display v = Some d -> d = snd (current s)) /\ (v_own v = None \/ v_own v = Some (s_id s)).
Definition Inv (s : session) : Prop :=
  (s_open s <> None -> (s_ref s < length (s_heap s))%nat) /\ Forall (fresh s) (s_saves s) /\ (s_open s = None -> s_saves s = []) /\ (s_open s <> None -> s_dirty s = false -> kept s)
  /\ (s_open s <> None -> (snd (fst (s_tabs s)) = false -> fst (fst (s_tabs s)) = fst (current s)) /\ (snd (snd (s_tabs s)) = false -> fst (snd (s_tabs s)) = snd (current s))).
Lemma load_inv p d s : s_saves s = [] -> Inv (load p d s).
Proof.
  intros E. unfold Inv. destruct d as [d|]; cbn [load apply_config s_open s_saves s_dirty s_tabs s_ref s_heap fst snd]; rewrite E; [|repeat split; try constructor; congruence].
  split; [intros _; rewrite app_length; cbn; lia|]. split; [constructor|]. split; [discriminate|].
  assert (current {| s_open := Some p; s_id := S (s_id s); s_heap := s_heap s ++ [d]; s_ref := length (s_heap s); s_dirty := false; s_marker := false; s_tabs := s_tabs s; s_saves := s_saves s; s_log := (p, d) :: s_log s |} = d) as Q.
  { unfold current, object. cbn [s_heap s_ref]. rewrite app_nth2, Nat.sub_diag by lia. reflexivity. }
  split; [|intros _; auto]. intros _ _. exists p. left. f_equal. symmetry. exact Q.
Qed.
Lemma inv es : quiet es -> Inv (run es).
Proof.
  induction es as [|es o IH] using rev_ind_snoc; intros Q; [unfold Inv; cbn; repeat split; try constructor; congruence|].
  apply quiet_init in Q. destruct Q as [Q C]. specialize (IH Q). rewrite run_snoc. set (s := run es) in *. clearbody s. clear Q es. pose proof IH as [HL [HF [HN [HK HT]]]].
  destruct o as [d|f t|f|i d| |own t|k|k|k|p d ans|d|p d]; cbn [changes] in C; unfold step.
  - destruct (s_open s) as [p|] eqn:E; [|exact IH]. specialize (C eq_refl). unfold gui_edit, Inv. cbn. rewrite C, E, app_length. cbn. split; [lia|]. split; [constructor|]. split; [congruence|]. split; [congruence|]. auto.
  - destruct (s_open s) as [p|] eqn:E; [|exact IH]. unfold Inv. cbn. rewrite E. split; [exact HL|]. split; [exact HF|]. split; [exact HN|]. split; [exact HK|]. intros N. destruct (HT N) as [A B]. destruct f; cbn; split; try discriminate; assumption.
  - destruct (s_open s) as [p|] eqn:E; [|exact IH]. specialize (C eq_refl). unfold code_edit, Inv. cbn. rewrite C, E, replace_length. split; [exact HL|]. split; [constructor|]. split; [congruence|]. split; [congruence|]. auto.
  - destruct (s_open s) as [p|] eqn:E; [|exact IH]. specialize (C eq_refl). unfold code_edit, Inv. cbn. rewrite C, E, replace_length. split; [exact HL|]. split; [constructor|]. split; [congruence|]. split; [congruence|]. auto.
  - destruct (s_open s) as [p|] eqn:E; [|exact IH]. unfold Inv. cbn. rewrite E. split; [exact HL|]. split; [exact HF|]. split; [exact HN|]. split; [exact HK|]. auto.
  - destruct (s_open s) as [p|] eqn:E; [|destruct own; exact IH]. destruct own; cbn [negb].
    + destruct (is_web p); [exact IH|]. unfold Inv. cbn. rewrite E. split; [exact HL|]. split; [apply Forall_app; split; [exact HF|constructor; [|constructor]]; unfold fresh; cbn; repeat split; try discriminate; auto|]. split; [congruence|]. auto.
    + destruct (is_web t); [exact IH|]. unfold Inv. cbn. rewrite E. split; [exact HL|]. split; [apply Forall_app; split; [exact HF|constructor; [|constructor]]; unfold fresh; cbn; repeat split; try discriminate; auto|]. split; [congruence|]. auto.
  - destruct (nth_error (s_saves s) k) as [v|] eqn:E; [|exact IH]. apply nth_error_In in E. unfold Inv. cbn. split; [exact HL|]. split; [|split; [intros N; rewrite (HN N) in E; destruct E|auto]].
    rewrite Forall_forall in HF. pose proof (HF v E) as V. apply Forall_forall. intros x Hx. apply replace_in in Hx. destruct Hx as [->|Hx]; [|exact (HF x Hx)].
    destruct V as [A [B [D F]]]. unfold read_part. destruct (v_target v), (v_inputs v) as [i|] eqn:I, (v_display v) as [d|] eqn:Di; try (unfold fresh; cbn; rewrite ?I, ?Di, ?A; fold (current s); repeat split; auto; try (intros ? W; injection W as <-; reflexivity); discriminate).
  - destruct (nth_error (s_saves s) k) as [v|] eqn:E; [|exact IH]. destruct (v_inputs v) as [i|] eqn:I; [|exact IH]. destruct (v_display v) as [d|] eqn:D; [|exact IH].
    apply nth_error_In in E. rewrite Forall_forall in HF. destruct (HF v E) as [A [B [F G]]]. pose proof (B _ I) as ->. pose proof (F _ D) as ->.
    assert (Forall (fresh s) (remove_nth k (s_saves s))) as HR by (apply Forall_forall; intros x Hx; apply HF; eapply remove_in; exact Hx).
    assert (In (v_target v, current s) ((v_target v, (fst (current s), snd (current s))) :: s_log s)) as HI by (left; destruct (current s); reflexivity).
    unfold finish. destruct G as [-> | ->]; cbn [s_id s_open with_marker with_log with_saves].
    + destruct (s_open s) as [p|] eqn:O; [|rewrite (HN eq_refl) in E; destruct E]. unfold Inv. cbn. rewrite O. split; [exact HL|]. split; [exact HR|]. split; [congruence|]. split; [intros _ _; exists (v_target v); exact HI|exact HT].
    + rewrite Nat.eqb_refl. unfold Inv. cbn. split; [exact HL|]. split; [exact HR|]. split; [intros N; rewrite (HN N) in E; destruct E|]. split; [intros _ _; exists (v_target v); exact HI|exact HT].
  - unfold Inv. cbn. split; [exact HL|]. split; [apply Forall_forall; intros x Hx; rewrite Forall_forall in HF; apply HF; eapply remove_in; exact Hx|]. split; [intros N; rewrite (HN N); destruct k; reflexivity|auto].
  - destruct (asks s && negb ans); [exact IH|]. apply load_inv, C. reflexivity.
  - destruct (s_open s) as [[]|] eqn:E; try exact IH. apply load_inv, C. reflexivity.
  - apply load_inv, C. reflexivity.
Qed.
Lemma finish_tabs i d v s : s_tabs (finish i d v s) = s_tabs s.
Proof. unfold finish. destruct (v_own v) as [c|]; [cbn; destruct (Nat.eqb c (s_id s)); reflexivity|]. destruct (s_open s) eqn:E; cbn; rewrite E; reflexivity. Qed.
Lemma finish_current i d v s : current (finish i d v s) = current s /\ s_open (finish i d v s) = s_open s.
Proof. unfold finish. destruct (v_own v) as [c|]; [cbn; destruct (Nat.eqb c (s_id s)); split; reflexivity|]. destruct (s_open s) eqn:E; cbn; rewrite E; split; try reflexivity; cbn; rewrite ?E; reflexivity. Qed.
Definition tabs_ok (s : session) : Prop := s_open s <> None -> forall f, snd (tab f s) = false -> fst (tab f s) = file f (current s).
Lemma load_tabs p d s : tabs_ok (load p d s).
Proof. unfold tabs_ok. destruct d as [d|]; [|cbn; congruence]. intros _ f _. destruct f; reflexivity. Qed.
Lemma tabs es : tabs_ok (run es).
Proof.
  induction es as [|es o IH] using rev_ind_snoc; [unfold tabs_ok; cbn; congruence|]. rewrite run_snoc. set (s := run es) in *. clearbody s. clear es.
  destruct o as [d|f t|f|i d| |own t|k|k|k|p d ans|d|p d]; unfold step.
  - destruct (s_open s) as [p|] eqn:E; [|exact IH]. intros _ f _. destruct f; reflexivity.
  - destruct (s_open s) as [p|] eqn:E; [|exact IH]. unfold tabs_ok in *. cbn [s_open with_tabs]. intros N g H. specialize (IH N g). destruct f, g; cbn in *; try discriminate; auto.
  - destruct (s_open s) as [p|] eqn:E; [|exact IH]. intros _ g _. destruct g; reflexivity.
  - destruct (s_open s) as [p|] eqn:E; [|exact IH]. intros _ g _. destruct g; reflexivity.
  - destruct (s_open s) as [p|] eqn:E; [|exact IH]. intros _ g _. destruct g; reflexivity.
  - destruct (s_open s) as [p|] eqn:E; [|destruct own; exact IH]. destruct own; [destruct (is_web p)|destruct (is_web t)]; exact IH.
  - destruct (nth_error (s_saves s) k); exact IH.
  - destruct (nth_error (s_saves s) k) as [v|]; [|exact IH]. destruct (v_inputs v) as [i|]; [|exact IH]. destruct (v_display v) as [d|]; [|exact IH]. unfold tabs_ok, tab. rewrite finish_tabs. destruct (finish_current i d v (with_saves (remove_nth k (s_saves s)) s)) as [-> ->]. exact IH.
  - exact IH.
  - destruct (asks s && negb ans); [exact IH|apply load_tabs].
  - destruct (s_open s) as [[]|] eqn:E; try exact IH; apply load_tabs.
  - apply load_tabs.
Qed.
Lemma leaves_tab f s o : leaves f o = true -> tab f (step s o) = tab f s.
Proof.
  intros L. destruct o as [d|g t|g|i d| |own t|k|k|k|p d ans|d|p d]; try discriminate L; unfold step.
  - destruct (s_open s); [|reflexivity]. destruct f, g; try discriminate L; reflexivity.
  - destruct (s_open s) as [p|]; [|destruct own; reflexivity]. destruct own; [destruct (is_web p)|destruct (is_web t)]; reflexivity.
  - destruct (nth_error (s_saves s) k); reflexivity.
  - destruct (nth_error (s_saves s) k) as [v|]; [|reflexivity]. destruct (v_inputs v) as [i|]; [|reflexivity]. destruct (v_display v) as [d|]; [|reflexivity]. unfold tab. rewrite finish_tabs. reflexivity.
  - reflexivity.
Qed.
Lemma replace_nil {A} n (x : A) l : replace n x l = [] -> l = [].
Proof. destruct l, n; cbn; congruence. Qed.
Lemma marker_inv es : quiet es -> no_failure es -> s_open (run es) <> None -> s_saves (run es) = [] -> s_marker (run es) = s_dirty (run es).
Proof.
  intros Q. pose proof (inv es Q) as J. revert Q J.
  induction es as [|es o IH] using rev_ind_snoc; intros Q _ F; [reflexivity|]. pose proof (quiet_init _ _ Q) as [Q' C]. pose proof (inv es Q') as J. assert (no_failure es) as F' by (intros k H; apply (F k), in_or_app; auto). specialize (IH Q' J F').
  assert (forall k, o <> OFail k) as NF by (intros k ->; apply (F k), in_or_app; right; left; reflexivity). clear F F' Q Q'. rewrite run_snoc. set (s := run es) in *. clearbody s. clear es. destruct J as [_ [HF [HN _]]].
  destruct o as [d|f t|f|i d| |own t|k|k|k|p d ans|d|p d]; cbn [changes] in C; unfold step.
  - destruct (s_open s) as [p|] eqn:E; [reflexivity|congruence].
  - destruct (s_open s) as [p|] eqn:E; [|congruence]. cbn. intros N. rewrite E in N. auto.
  - destruct (s_open s) as [p|] eqn:E; [reflexivity|congruence].
  - destruct (s_open s) as [p|] eqn:E; [reflexivity|congruence].
  - destruct (s_open s) as [p|] eqn:E; [|congruence]. cbn. intros N. rewrite E in N. auto.
  - destruct (s_open s) as [p|] eqn:E; [|destruct own; congruence]. destruct own; [destruct (is_web p)|destruct (is_web t)]; try (rewrite E; exact IH); cbn; intros _ H; destruct (s_saves s); discriminate H.
  - destruct (nth_error (s_saves s) k) as [v|] eqn:E; [|exact IH]. cbn. intros N H. apply replace_nil in H. auto.
  - destruct (nth_error (s_saves s) k) as [v|] eqn:E; [|exact IH]. destruct (v_inputs v) as [i|] eqn:I; [|exact IH]. destruct (v_display v) as [d|] eqn:D; [|exact IH]. intros N _.
    apply nth_error_In in E. rewrite Forall_forall in HF. destruct (HF v E) as [_ [_ [_ G]]]. unfold finish. destruct G as [-> | ->]; cbn [s_id s_open with_marker with_log with_saves].
    + destruct (s_open s) eqn:O; [reflexivity|]. rewrite (HN eq_refl) in E. destruct E.
    + rewrite Nat.eqb_refl. reflexivity.
  - destruct (NF k). reflexivity.
  - destruct (asks s && negb ans); [exact IH|]. destruct d; [reflexivity|cbn; congruence].
  - destruct (s_open s) as [[]|] eqn:E; try (rewrite ?E; exact IH). destruct d; [reflexivity|cbn; congruence].
  - destruct d; [reflexivity|cbn; congruence].
Qed.
Lemma finish_heap i d v s : s_heap (finish i d v s) = s_heap s /\ s_ref (finish i d v s) = s_ref s.
Proof. unfold finish. destruct (v_own v) as [c|]; [cbn; destruct (Nat.eqb c (s_id s)); split; reflexivity|]. destruct (s_open s) eqn:E; cbn; rewrite E; split; reflexivity. Qed.
Definition ref_ok (s : session) : Prop := s_open s <> None -> (s_ref s < length (s_heap s))%nat.
Lemma load_ref p d s : ref_ok (load p d s).
Proof. unfold ref_ok. destruct d as [d|]; [|cbn; congruence]. intros _. cbn. rewrite app_length. cbn. lia. Qed.
Lemma ref es : ref_ok (run es).
Proof.
  induction es as [|es o IH] using rev_ind_snoc; [unfold ref_ok; cbn; congruence|]. rewrite run_snoc. set (s := run es) in *. clearbody s. clear es.
  destruct o as [d|f t|f|i d| |own t|k|k|k|p d ans|d|p d]; unfold step.
  - destruct (s_open s) as [p|] eqn:E; [|exact IH]. unfold ref_ok. cbn. rewrite app_length. cbn. lia.
  - destruct (s_open s) as [p|] eqn:E; exact IH.
  - destruct (s_open s) as [p|] eqn:E; [|exact IH]. unfold ref_ok. cbn. rewrite replace_length. exact IH.
  - destruct (s_open s) as [p|] eqn:E; [|exact IH]. unfold ref_ok. cbn. rewrite replace_length. exact IH.
  - destruct (s_open s) as [p|] eqn:E; exact IH.
  - destruct (s_open s) as [p|] eqn:E; [|destruct own; exact IH]. destruct own; [destruct (is_web p)|destruct (is_web t)]; exact IH.
  - destruct (nth_error (s_saves s) k); exact IH.
  - destruct (nth_error (s_saves s) k) as [v|]; [|exact IH]. destruct (v_inputs v) as [i|]; [|exact IH]. destruct (v_display v) as [d|]; [|exact IH]. unfold ref_ok.
    destruct (finish_current i d v (with_saves (remove_nth k (s_saves s)) s)) as [_ ->]. destruct (finish_heap i d v (with_saves (remove_nth k (s_saves s)) s)) as [-> ->]. exact IH.
  - exact IH.
  - destruct (asks s && negb ans); [exact IH|apply load_ref].
  - destruct (s_open s) as [[]|] eqn:E; try exact IH; apply load_ref.
  - apply load_ref.
Qed.
Lemma leaves_open f s o : leaves f o = true -> s_open (step s o) = s_open s /\ current (step s o) = current s.
Proof.
  intros L. destruct o as [d|g t|g|i d| |own t|k|k|k|p d ans|d|p d]; try discriminate L; unfold step.
  - destruct (s_open s) eqn:E; [|auto]. auto.
  - destruct (s_open s) as [p|] eqn:E; [|destruct own; auto]. destruct own; [destruct (is_web p)|destruct (is_web t)]; auto.
  - destruct (nth_error (s_saves s) k); split; reflexivity.
  - destruct (nth_error (s_saves s) k) as [v|]; [|auto]. destruct (v_inputs v) as [i|]; [|auto]. destruct (v_display v) as [d|]; [|auto]. destruct (finish_current i d v (with_saves (remove_nth k (s_saves s)) s)) as [-> ->]. split; reflexivity.
  - split; reflexivity.
Qed.
