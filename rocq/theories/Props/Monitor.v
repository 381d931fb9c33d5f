(* C99: the MIDI monitor. *)
From Coq Require Import String.
From Verif.Lib Require Import Base.
From Verif.Model Require Import Monitor.
From Verif.Spec Require Import Monitor.
Open Scope Z_scope.
Local Open Scope list_scope.

Lemma compare_eq a : forall b, compare a b = true <-> a = b.
Proof.
  induction a as [|x a IH]; intros [|y b]; cbn; try (split; [reflexivity || discriminate | discriminate || reflexivity]).
  rewrite andb_true_iff, Z.eqb_eq, IH. split; [intros [-> ->]; reflexivity | intros [= -> ->]; auto].
Qed.
Lemma cleanup_last l : cleanup l = last_rows max_rows l.
Proof.
  unfold last_rows. induction l as [|r l IH]; [reflexivity|]. cbn [cleanup]. destruct (Nat.ltb_spec max_rows (List.length (r :: l))) as [H|H].
  - rewrite IH. cbn [List.length] in *. replace (S (List.length l) - max_rows)%nat with (S (List.length l - max_rows)) by lia. reflexivity.
  - replace (List.length (r :: l) - max_rows)%nat with O by lia. reflexivity.
Qed.
Lemma last_length n l : (List.length (last_rows n l) <= n)%nat.
Proof. unfold last_rows. rewrite skipn_length. lia. Qed.
Lemma last_in n l r : In r (last_rows n l) -> In r l.
Proof. unfold last_rows. intros H. rewrite <- (firstn_skipn (List.length l - n) l). apply in_or_app. right. exact H. Qed.

Lemma NoDup_app_comm_one {A} (l : list A) x : NoDup l -> ~ In x l -> NoDup (l ++ [x]).
Proof. intros H N. apply (NoDup_Add (a := x) (l := l)); [|split; assumption]. rewrite <- (app_nil_r l) at 1. apply Add_app. Qed.

Section Names.
Variable name : list Z -> option string.
Notation run := (run name). Notation step := (step name).

Definition item_ok (it : item) : Prop := i_name it = name (i_msg it).
Record good (s : monitor) : Prop := {
  g_store : m_store s = mkStore (m_run s) (m_exclude s);
  g_rows : forall out it, In (Msg out it) (m_rows s) -> item_ok it;
  g_ex : forall e, In e (m_exclude s) -> item_ok e;
  g_dup : NoDup (map i_msg (m_exclude s));
  g_len : (List.length (m_rows s) <= max_rows)%nat
}.
Lemma good_add s r : good s -> (forall out it, r = Msg out it -> item_ok it) -> good (add_row s r).
Proof.
  intros [G1 G2 G3 G4 G5] H. split; cbn; auto; rewrite cleanup_last; [|apply last_length].
  intros out it I. apply last_in in I. apply in_app_or in I as [I|[I|[]]]; eauto.
Qed.
Lemma good_run_flag s b : good s -> good (set_run s b).
Proof. intros [G1 G2 G3 G4 G5]. split; cbn; auto. rewrite G1. reflexivity. Qed.
Lemma good_stop s : good s -> good (stop s).
Proof. intros G. unfold stop. apply good_run_flag. destruct (m_run s); [apply good_add; [exact G | discriminate] | exact G]. Qed.
Lemma good_resume s : good s -> good (resume s).
Proof. intros G. unfold resume. apply good_run_flag. destruct (m_run s); [exact G | apply good_add; [exact G | discriminate]]. Qed.
Lemma shown_in s it : existsb (fun r => shown_item r it) (m_rows s) = true <-> exists out, In (Msg out it) (m_rows s).
Proof.
  rewrite existsb_exists. split.
  - intros (r & I & H). destruct r as [t|out i]; cbn in H; [discriminate|]. destruct (item_dec i it) as [->|]; [eauto | discriminate].
  - intros (out & I). exists (Msg out it). split; [exact I|]. cbn. destruct (item_dec it it); [reflexivity | contradiction].
Qed.
Lemma same_item a b : item_ok a -> item_ok b -> i_msg a = i_msg b -> a = b.
Proof. destruct a, b; unfold item_ok; cbn. congruence. Qed.

Lemma good_exclude s it : good s -> item_ok it -> good (exclude_message s it) /\ m_exclude (exclude_message s it) = if in_dec item_dec it (m_exclude s) then m_exclude s else m_exclude s ++ [it].
Proof.
  intros G Hit. pose proof G as [G1 G2 G3 G4 G5]. unfold exclude_message.
  destruct (existsb (fun e => compare (i_msg e) (i_msg it)) (m_exclude s)) eqn:E.
  - split; [exact G|]. apply existsb_exists in E as (e & I & C). apply compare_eq in C. rewrite <- (same_item e it (G3 e I) Hit C). destruct (in_dec item_dec e (m_exclude s)); [reflexivity | contradiction].
  - assert (N : ~ In (i_msg it) (map i_msg (m_exclude s))).
    { intros I. apply in_map_iff in I as (e & C & I). assert (existsb (fun e => compare (i_msg e) (i_msg it)) (m_exclude s) = true) by (apply existsb_exists; exists e; split; [exact I | apply compare_eq; exact C]). congruence. }
    split.
    + split; cbn; auto.
      * rewrite G1. reflexivity.
      * intros e I. apply in_app_or in I as [I|[<-|[]]]; auto.
      * rewrite map_app. cbn. apply NoDup_app_comm_one; assumption.
    + destruct (in_dec item_dec it (m_exclude s)) as [I|I]; [destruct N; apply in_map, I | reflexivity].
Qed.
Lemma good_include s it : good s -> good (include_message s it) /\ (forall e, In e (m_exclude (include_message s it)) <-> In e (m_exclude s) /\ i_msg e <> i_msg it).
Proof.
  intros [G1 G2 G3 G4 G5]. assert (F : forall e, In e (m_exclude (include_message s it)) <-> In e (m_exclude s) /\ i_msg e <> i_msg it).
  { intros e. cbn. rewrite filter_In, negb_true_iff. split; intros [A B]; split; auto.
    - intros C. apply compare_eq in C. congruence.
    - destruct (compare (i_msg e) (i_msg it)) eqn:C; [apply compare_eq in C; contradiction | reflexivity]. }
  split; [|exact F]. split; auto.
  - cbn. rewrite G1. reflexivity.
  - intros e I. apply F in I. apply G3, I.
  - cbn. clear - G4. induction (m_exclude s) as [|e l IH]; cbn; [constructor|]. inversion G4 as [|? ? A B]; subst. destruct (negb (compare (i_msg e) (i_msg it))); [|auto]. cbn. constructor; [|auto].
    intros I. apply A. apply in_map_iff in I as (e' & C & I). apply filter_In in I as [I _]. rewrite <- C. apply in_map, I.
Qed.

Lemma stop_exclude s : m_exclude (stop s) = m_exclude s.
Proof. unfold stop. destruct (m_run s); reflexivity. Qed.
Lemma resume_exclude s : m_exclude (resume s) = m_exclude s.
Proof. unfold resume. destruct (m_run s); reflexivity. Qed.

(* Each step keeps this, and only ignoring and restoring change what is ignored *)
Lemma good_step s o : good s -> good (step s o) /\
  (forall e, In e (m_exclude (step s o)) <->
     match o with
     | Ignore it => In e (m_exclude s) \/ (e = it /\ exists out, In (Msg out it) (m_rows s))
     | Restore it => In e (m_exclude s) /\ e <> it
     | _ => In e (m_exclude s)
     end).
Proof.
  intros G. pose proof G as [G1 G2 G3 G4 G5]. destruct o as [out m| | | | | |it|it|]; cbn [step Monitor.step].
  - unfold add_message. destruct (m_run s); cbn [negb]; [|split; [exact G | reflexivity]]. destruct (do_exclude s _); [split; [exact G | reflexivity]|].
    split; [|reflexivity]. apply good_add; [exact G|]. intros o it [= <- <-]. reflexivity.
  - destruct (m_run s) eqn:R; [split; [apply good_stop, G | intros e; rewrite stop_exclude; reflexivity] | split; [apply good_resume, G | intros e; rewrite resume_exclude; reflexivity]].
  - split; [apply good_resume, G | intros e; rewrite resume_exclude; reflexivity].
  - split; [apply good_stop, G | intros e; rewrite stop_exclude; reflexivity].
  - split; [apply good_stop, G | intros e; rewrite stop_exclude; reflexivity].
  - split; [|reflexivity]. split; cbn; auto; [intros ? ? []|lia].
  - destruct (existsb (fun r => shown_item r it) (m_rows s)) eqn:E.
    + apply shown_in in E as (out & I). destruct (good_exclude s it G (G2 out it I)) as [Ge Fe]. split; [apply good_stop, Ge|].
      intros e. rewrite stop_exclude, Fe. destruct (in_dec item_dec it (m_exclude s)) as [J|J].
      * split; [auto|]. intros [H|[-> _]]; auto.
      * rewrite in_app_iff. cbn. split; [intros [H|[<-|[]]]; eauto | intros [H|[-> _]]; auto].
    + split; [exact G|]. intros e. split; [auto|]. intros [H|[_ H]]; [exact H|]. apply shown_in in H. congruence.
  - destruct (in_dec item_dec it (m_exclude s)) as [J|J].
    + destruct (good_include s it G) as [Gi Fi]. split; [exact Gi|]. intros e. rewrite Fi. split; intros [A B]; split; auto; [congruence|].
      intros C. apply B. apply same_item; auto.
    + split; [exact G|]. intros e. split; [|tauto]. intros I. split; [exact I|]. intros ->. contradiction.
  - rewrite G1. split; [|reflexivity]. split; cbn; auto; [intros ? ? []|lia].
Qed.
Lemma good_run h : good (run h).
Proof.
  unfold Monitor.run. assert (H : forall s, good s -> good (fold_left step h s)) by (induction h as [|o h IH]; intros s G; [exact G | apply IH, good_step, G]).
  apply H. split; cbn; auto; try (intros; contradiction); [constructor | lia].
Qed.
Lemma run_snoc h o : run (h ++ [o]) = step (run h) o.
Proof. unfold Monitor.run. rewrite fold_left_app. reflexivity. Qed.
Lemma run_app h h' : run (h ++ h') = fold_left step h' (run h).
Proof. unfold Monitor.run. apply fold_left_app. Qed.

(* What is ignored is exactly what the user has chosen in a row, and not removed from the list since then; also when the page is loaded again *)
Theorem C99_list h e : In e (m_exclude (run h)) <->
  exists h1 h2, h = h1 ++ Ignore e :: h2 /\ (exists out, In (Msg out e) (m_rows (run h1))) /\ ~ In (Restore e) h2.
Proof.
  induction h as [|o h IH] using rev_ind; [split; [intros [] | intros ([|? ?] & h2 & H & _); discriminate H]|].
  rewrite run_snoc. destruct (good_step (run h) o (good_run h)) as [_ F]. rewrite F.
  assert (K : (forall it, o = Restore it -> it <> e) -> In e (m_exclude (run h)) -> exists h1 h2, h ++ [o] = h1 ++ Ignore e :: h2 /\ (exists out, In (Msg out e) (m_rows (run h1))) /\ ~ In (Restore e) h2).
  { intros N I. apply IH in I as (h1 & h2 & -> & S & R). exists h1, (h2 ++ [o]). split; [rewrite <- app_assoc; reflexivity|]. split; [exact S|]. intros J. apply in_app_or in J as [J|[J|[]]]; [exact (R J)|]. apply (N e J eq_refl). }
  assert (B : forall h1 h2, h ++ [o] = h1 ++ Ignore e :: h2 -> (exists out, In (Msg out e) (m_rows (run h1))) -> ~ In (Restore e) h2 ->
    (o = Ignore e /\ exists out, In (Msg out e) (m_rows (run h))) \/ (In e (m_exclude (run h)) /\ o <> Restore e)).
  { intros h1 h2 H S R. destruct h2 as [|x h2 _] using rev_ind.
    - apply app_inj_tail in H as [-> ->]. left. auto.
    - change (Ignore e :: h2 ++ [x]) with ((Ignore e :: h2) ++ [x]) in H. rewrite app_assoc in H. apply app_inj_tail in H as [-> ->]. right. split; [|intros ->; apply R; apply in_or_app; right; left; reflexivity].
      apply IH. exists h1, h2. split; [reflexivity|]. split; [exact S|]. intros J. apply R. apply in_or_app. left. exact J. }
  split.
  - destruct o as [out m| | | | | |it|it|]; try (apply K; discriminate).
    + intros [I|(-> & S)]; [apply K; [discriminate | exact I]|]. exists h, []. auto.
    + intros [I N]. apply K; [|exact I]. intros it' [= <-]. congruence.
  - intros (h1 & h2 & H & S & R). destruct (B h1 h2 H S R) as [(-> & S') | (I & N)].
    + right. auto.
    + destruct o; auto. split; [exact I | congruence].
Qed.

Lemma item_of h e : In e (m_exclude (run h)) -> e = mkItem (i_msg e) (name (i_msg e)).
Proof. intros I. pose proof (g_ex _ (good_run h) e I) as H. unfold item_ok in H. destruct e; cbn in *. congruence. Qed.

Lemma concerns_excludes e m : item_ok e -> (forall x, name x <> Some ""%string) -> concerns name (i_msg e) m -> excludes (mkItem m (name m)) e = true.
Proof.
  intros He Hn H. unfold concerns in H. unfold excludes. cbn [i_name i_msg]. unfold item_ok in He. rewrite He. destruct (name (i_msg e)) as [n|] eqn:N.
  - rewrite H. destruct (String.eqb_spec n ""); [subst n; destruct (Hn _ N)|]. cbn. apply String.eqb_refl.
  - subst m. rewrite N. apply compare_eq. apply firstn_all.
Qed.
(* An ignored message, and all others of its name, are not shown, whatever happens, until the user removes it from the list *)
Theorem C99_ignored h e out m : (forall x, name x <> Some ""%string) -> In e (m_exclude (run h)) -> concerns name (i_msg e) m -> run (h ++ [Message out m]) = run h.
Proof.
  intros Hn I C. rewrite run_snoc. cbn [Monitor.step]. unfold add_message. destruct (m_run (run h)); [|reflexivity]. cbn [negb].
  assert (do_exclude (run h) (mkItem m (name m)) = true) as ->; [|reflexivity].
  apply existsb_exists. exists e. split; [exact I|]. apply concerns_excludes; auto. exact (g_ex _ (good_run h) e I).
Qed.
End Names.

Lemma complete_prefix a b : complete a -> complete b -> firstn (List.length a) b = a -> a = b.
Proof.
  assert (S : forall l l', ~ In 247 l -> ~ In 247 l' -> firstn (List.length (l ++ [247])) (l' ++ [247]) = l ++ [247] -> l = l').
  { induction l as [|x l IH]; intros [|y l'] N N' H; [reflexivity| | |].
    - cbn in H. injection H as ->. destruct N'. left; reflexivity.
    - cbn in H. destruct (l ++ [247]); cbn in H; injection H as <-; destruct N; left; reflexivity.
    - cbn in H. injection H as Hx H. subst y. f_equal. apply IH; [cbn in N; tauto | cbn in N'; tauto | exact H]. }
  intros A B H. assert (E : hd 0 a = hd 0 b) by (rewrite <- H; destruct A, b; reflexivity).
  destruct A as [st x y R|st x R|l N|st R]; destruct B as [st' x' y' R'|st' x' R'|l' N'|st' R']; cbn [hd] in E; try (exfalso; lia).
  - cbn in H. congruence.
  - cbn in H. congruence.
  - cbn [List.length firstn] in H. injection H as H. f_equal. f_equal. apply S; auto.
  - cbn in H. congruence.
Qed.

Lemma run_complete name h : all_complete h -> (forall out it, In (Msg out it) (m_rows (run name h)) -> complete (i_msg it)) /\ (forall e, In e (m_exclude (run name h)) -> complete (i_msg e)).
Proof.
  induction h as [|o h IH] using rev_ind; intros A; [split; intros ? *; contradiction|].
  destruct IH as [I1 I2]; [intros out m J; apply (A out m), in_or_app; left; exact J|]. rewrite run_snoc. set (s := run name h) in *.
  assert (R : forall t, forall out it, In (Msg out it) (m_rows (add_row s (Comment t))) -> complete (i_msg it)).
  { intros t out it J. cbn in J. rewrite cleanup_last in J. apply last_in, in_app_or in J as [J|[J|[]]]; [eauto | discriminate]. }
  assert (St : forall s', m_rows s' = m_rows s -> forall out it, In (Msg out it) (m_rows (stop s')) -> complete (i_msg it)).
  { intros s' E out it. unfold stop. destruct (m_run s'); cbn; [rewrite E; apply R with (t := "stopped"%string) | rewrite E; apply I1]. }
  assert (Re : forall out it, In (Msg out it) (m_rows (resume s)) -> complete (i_msg it)).
  { intros out it. unfold resume. destruct (m_run s); cbn; [apply I1 | apply (R "resumed"%string)]. }
  split.
  - destruct o as [o m| | | | | |it|it|]; cbn [step].
    + unfold add_message. destruct (negb (m_run s)); [exact I1|]. destruct (do_exclude s _); [exact I1|]. intros out it J. cbn in J. rewrite cleanup_last in J. apply last_in, in_app_or in J as [J|[J|[]]]; [eauto|].
      injection J as <- <-. cbn. apply (A o m), in_or_app. right; left; reflexivity.
    + destruct (m_run s); [apply St; reflexivity | exact Re].
    + exact Re.
    + apply St; reflexivity.
    + apply St; reflexivity.
    + intros ? ? [].
    + destruct (existsb _ _); [|exact I1]. apply St. unfold exclude_message. destruct (existsb _ _); reflexivity.
    + destruct (in_dec _ _ _); exact I1.
    + intros ? ? [].
  - intros e J. destruct (good_step name s o (good_run name h)) as [_ F]. apply F in J. destruct o; auto; [|apply I2, J]. destruct J as [J|(-> & out & J)]; eauto.
Qed.

(* All other complete MIDI messages are shown, at the end of the list, with their direction and name, while the monitor runs. The list keeps its last 100 rows. *)
Theorem C99_shown_partial name h out m : all_complete h -> complete m -> m_run (run name h) = true -> (forall e, In e (m_exclude (run name h)) -> ~ concerns name (i_msg e) m) ->
  m_rows (run name (h ++ [Message out m])) = last_rows 100 (m_rows (run name h) ++ [row_of name out m]).
Proof.
  intros A C R N. rewrite run_snoc. cbn [step]. unfold add_message. rewrite R. cbn [negb].
  destruct (do_exclude (run name h) (mkItem m (name m))) eqn:E; [|cbn; apply cleanup_last]. exfalso. apply existsb_exists in E as (e & I & E). apply (N e I). clear N.
  pose proof (g_ex _ _ (good_run name h) e I) as Hi. unfold item_ok in Hi. destruct (run_complete name h A) as [_ Ce]. specialize (Ce e I).
  unfold excludes in E. cbn [i_name i_msg] in E. rewrite Hi in E. unfold concerns.
  assert (P : compare (firstn (List.length (i_msg e)) m) (i_msg e) = true -> i_msg e = m) by (intros H; apply compare_eq in H; apply complete_prefix; assumption).
  destruct (name m) as [n|] eqn:Nm; destruct (name (i_msg e)) as [n'|] eqn:Ne.
  - apply andb_true_iff in E as [_ E]. apply String.eqb_eq in E. congruence.
  - symmetry. auto.
  - apply P in E. congruence.
  - symmetry. auto.
Qed.
(* There are never more than 100 rows, nothing is added while the monitor is paused, and what is ignored survives loading the page again, as well as the running monitor *)
Theorem C99_window name h : (List.length (m_rows (run name h)) <= 100)%nat.
Proof. apply (g_len _ _ (good_run name h)). Qed.
Theorem C99_paused name h out m : m_run (run name h) = false -> run name (h ++ [Message out m]) = run name h.
Proof. intros R. rewrite run_snoc. cbn [step]. unfold add_message. rewrite R. reflexivity. Qed.
Theorem C99_reload name h : let s := run name (h ++ [Reload]) in m_exclude s = m_exclude (run name h) /\ m_run s = m_run (run name h).
Proof. cbv zeta. rewrite run_snoc. cbn [step]. rewrite (g_store _ _ (good_run name h)). auto. Qed.
(* Removing a message from the list shows it again, if nothing else in the list concerns it *)
Theorem C99_restored_partial name h e out m : all_complete h -> complete m -> m_run (run name h) = true -> (forall e', In e' (m_exclude (run name h)) -> e' <> e -> ~ concerns name (i_msg e') m) ->
  m_rows (run name (h ++ [Restore e; Message out m])) = last_rows 100 (m_rows (run name h) ++ [row_of name out m]).
Proof.
  intros A C R N. change [Restore e; Message out m] with ([Restore e] ++ [Message out m]). rewrite app_assoc.
  assert (F : m_rows (run name (h ++ [Restore e])) = m_rows (run name h) /\ m_run (run name (h ++ [Restore e])) = m_run (run name h)) by (rewrite run_snoc; cbn [step]; destruct (in_dec _ _ _); split; reflexivity).
  destruct F as [F1 F2]. rewrite <- F1. apply C99_shown_partial; auto.
  - intros o x J. apply in_app_or in J as [J|[J|[]]]; [eapply A, J | discriminate].
  - congruence.
  - intros e' J. rewrite run_snoc in J. destruct (good_step name (run name h) (Restore e) (good_run name h)) as [_ F]. apply F in J. apply N; apply J.
Qed.

(* Refuted: removing a message from the list does not show it again, if another one of its name has been ignored too (two rows of the same name can be ignored) *)
Definition by_status (m : list Z) : option string := match m with 176 :: _ => Some "Control Change"%string | _ => None end.
Theorem C99_restore_refuted : exists h e out m, m_run (run by_status h) = true /\ all_complete h /\ complete m /\ concerns by_status (i_msg e) m /\ In e (m_exclude (run by_status h)) /\
  m_rows (run by_status (h ++ [Restore e; Message out m])) = m_rows (run by_status h).
Proof.
  exists [Begin; Message true [176; 1; 5]; Message true [176; 1; 6]; Ignore (mkItem [176; 1; 5] (Some "Control Change"%string)); Ignore (mkItem [176; 1; 6] (Some "Control Change"%string)); Begin],
         (mkItem [176; 1; 5] (Some "Control Change"%string)), true, [176; 1; 5].
  split; [vm_compute; reflexivity|]. split; [intros out m J; cbn in J; destruct J as [J|[J|[J|[J|[J|[J|[]]]]]]]; try discriminate J; injection J as <- <-; apply c_three; lia|].
  split; [apply c_three; lia|]. split; [reflexivity|]. split; [vm_compute; auto|]. vm_compute. reflexivity.
Qed.
(* Refuted: ignoring a message pauses the monitor *)
Theorem C99_pause_refuted : exists h e, m_run (run by_status h) = true /\ (exists out, In (Msg out e) (m_rows (run by_status h))) /\ m_run (run by_status (h ++ [Ignore e])) = false.
Proof.
  exists [Begin; Message true [144; 1; 5]], (mkItem [144; 1; 5] None). split; [vm_compute; reflexivity|]. split; [exists true; vm_compute; auto|]. vm_compute. reflexivity.
Qed.
(* Refuted for data which are no complete messages: ignoring one also hides all which begin with it *)
Theorem C99_prefix_refuted : exists h e out m, m_run (run by_status h) = true /\ In e (m_exclude (run by_status h)) /\ (forall e', In e' (m_exclude (run by_status h)) -> ~ concerns by_status (i_msg e') m) /\
  run by_status (h ++ [Message out m]) = run by_status h.
Proof.
  exists [Begin; Message true [240; 1]; Ignore (mkItem [240; 1] None); Begin], (mkItem [240; 1] None), false, [240; 1; 2; 247].
  split; [vm_compute; reflexivity|]. split; [vm_compute; auto|]. split; [|vm_compute; reflexivity]. intros e' J. vm_compute in J. destruct J as [<-|[]]. cbn. discriminate.
Qed.
(* A message is ignored, another page view follows, and another one is shown *)
Example ex_monitor : let h := [Begin; Message true [176; 1; 5]; Message false [144; 60; 100]; Ignore (mkItem [176; 1; 5] (Some "Control Change"%string)); Reload; Begin] in
  all_complete h /\ m_run (run by_status h) = true /\ m_exclude (run by_status h) = [mkItem [176; 1; 5] (Some "Control Change"%string)] /\ (forall x, by_status x <> Some ""%string) /\
  m_rows (run by_status (h ++ [Message true [176; 2; 3]; Message false [144; 61; 0]])) = [Comment "resumed"; Msg false (mkItem [144; 61; 0] None)].
Proof.
  cbv zeta. split; [intros out m J; cbn in J; destruct J as [J|[J|[J|[J|[J|[J|[]]]]]]]; try discriminate J; injection J as <- <-; apply c_three; lia|].
  split; [vm_compute; reflexivity|]. split; [vm_compute; reflexivity|]. split; [|vm_compute; reflexivity].
  intros x. unfold by_status. destruct x as [|z x]; [discriminate|]. repeat (match goal with |- context [match ?p with _ => _ end] => destruct p end; try discriminate).
Qed.

Print Assumptions C99_list.
Print Assumptions C99_ignored.
Print Assumptions C99_shown_partial.
Print Assumptions C99_window.
Print Assumptions C99_paused.
Print Assumptions C99_reload.
Print Assumptions C99_restored_partial.
Print Assumptions C99_restore_refuted.
Print Assumptions C99_pause_refuted.
Print Assumptions C99_prefix_refuted.
