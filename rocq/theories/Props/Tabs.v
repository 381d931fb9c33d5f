(* C100: the tabs of the web application. *)
From Coq Require Import String Permutation.
From Verif.Lib Require Import Base.
From Verif.Model Require Import Tabs.
From Verif.Spec Require Import Tabs.
Open Scope string_scope.
Local Open Scope list_scope.

Definition names (s : tabs) : list string := map t_name (x_tabs s).
(* What holds of the list of tabs, also while it is updated *)
Record listed (s : tabs) : Prop := {
  l_ids : NoDup (map t_id (x_tabs s));
  l_next : forall t, In t (x_tabs s) -> (t_id t < x_next s)%nat;
  l_name : forall t, In t (x_tabs s) -> t_name t <> "";
  l_client : forall c, x_client s = Some c -> In c (x_tabs s) /\ t_own c = false;
  l_cur : st_current (x_store s) <> Some "";
  l_show : x_panel s = st_show (x_store s)
}.
Record good (s : tabs) : Prop := {
  g_listed : listed s;
  g_shown : forall i, In i (x_shown s) <-> x_active s = Some i;
  g_active : forall a, x_active s = Some a -> exists t, In t (x_tabs s) /\ t_id t = a /\ st_current (x_store s) = Some (t_name t);
  g_none : x_active s = None -> x_tabs s <> [] -> exists c, st_current (x_store s) = Some c /\ ~ In c (names s);
  g_but : x_buttons s = None \/ x_buttons s = x_active s;
  g_cbut : forall t, In t (x_tabs s) -> x_buttons s = Some (t_id t) -> t_own t = true
}.
Lemma same_tab s t t' : listed s -> In t (x_tabs s) -> In t' (x_tabs s) -> t_id t = t_id t' -> t = t'.
Proof.
  intros [L _ _ _ _ _]. revert L. induction (x_tabs s) as [|x l IH]; cbn; [tauto|]. intros N [->|I] [->|I'] E; auto; inversion N as [|? ? H1 H2]; subst.
  - destruct H1. rewrite E. apply in_map. exact I'.
  - destruct H1. rewrite <- E. apply in_map. exact I.
  - apply IH; auto.
Qed.
(* Before an update: nothing but tabs of the list is shown *)
Definition tame (s : tabs) : Prop := forall i, In i (x_shown s) -> exists t, In t (x_tabs s) /\ t_id t = i.
Lemma update_active_shown s : listed s -> tame s -> (forall a, x_active s = Some a -> exists t, In t (x_tabs s) /\ t_id t = a) ->
  forall i, In i (x_shown (update_active s)) <-> x_active s = Some i.
Proof.
  intros L T A i. unfold update_active. cbn. rewrite in_app_iff, filter_In, in_map_iff. split.
  - intros [[I N]|(t & <- & I)].
    + exfalso. destruct (T i I) as (t & It & E). rewrite negb_true_iff in N. assert (X : existsb (fun t => Nat.eqb (t_id t) i) (x_tabs s) = true); [|congruence].
      apply existsb_exists. exists t. split; [exact It | apply Nat.eqb_eq, E].
    + apply filter_In in I as [It E]. unfold is_active in E. destruct (x_active s) as [a|]; [|discriminate]. apply Nat.eqb_eq in E. congruence.
  - intros E. right. destruct (A i E) as (t & It & Ei). exists t. split; [exact Ei|]. apply filter_In. split; [exact It|]. unfold is_active. rewrite E. apply Nat.eqb_eq, Ei.
Qed.
Lemma good_set s t : listed s -> tame s -> In t (x_tabs s) -> good (set_active s t).
Proof.
  intros L T I. assert (U := update_active_shown (with_active s (Some (t_id t)))). destruct L as [L1 L2 L3 L4 L5 L6] eqn:EL.
  split; [split; cbn; auto| | | | |].
  - injection as E. revert E. apply L3, I.
  - intros i. apply U; [split; auto | exact T|]. cbn. intros a [= <-]. eauto.
  - cbn. intros a [= <-]. eauto.
  - cbn. discriminate.
  - cbn. destruct (t_own t); auto.
  - cbn. intros t' I' E. destruct (t_own t) eqn:Eo; [|discriminate]. injection E as E. replace t' with t; [exact Eo|]. apply (same_tab s); [split; auto | exact I | exact I' | exact E].
Qed.
Lemma good_update s : listed s -> tame s -> (forall a, x_active s = Some a -> exists t, In t (x_tabs s) /\ t_id t = a /\ st_current (x_store s) = Some (t_name t)) ->
  (x_buttons s = None \/ x_buttons s = x_active s) -> (forall t, In t (x_tabs s) -> x_buttons s = Some (t_id t) -> t_own t = true) -> good (update s).
Proof.
  intros L T A B C.
  assert (K : (x_active s = None -> x_tabs s <> [] -> exists c, st_current (x_store s) = Some c /\ ~ In c (names s)) -> good (update_active s)).
  { intros N. split; auto; [destruct L; split; auto|]. intros i. change (x_active (update_active s)) with (x_active s). revert i. apply update_active_shown; auto. intros a E. destruct (A a E) as (t & ? & ? & ?). eauto. }
  unfold update. destruct (x_tabs s) as [|t l] eqn:Et; [apply K; intros _ X; now elim X|]. destruct (x_active s) as [a|] eqn:Ea; [apply K; discriminate|].
  assert (I : In t (x_tabs s)) by (rewrite Et; left; reflexivity).
  destruct (st_current (x_store s)) as [c|] eqn:Ec; [|apply good_set; auto].
  destruct (String.eqb_spec c "") as [->|Nc]; [apply good_set; auto|]. unfold by_name.
  destruct (find (fun t0 => String.eqb (t_name t0) c) (x_tabs s)) as [t'|] eqn:F.
  - apply find_some in F as [F _]. apply good_set; auto.
  - apply K. intros _ _. exists c. split; [reflexivity|]. intros H. apply in_map_iff in H as (t' & <- & H). apply (find_none _ _ F) in H. cbn in H. rewrite String.eqb_refl in H. discriminate.
Qed.
Lemma tame_good s : good s -> tame s.
Proof. intros G i I. apply (g_shown s G) in I. destruct (g_active s G i I) as (t & ? & ? & ?). eauto. Qed.

Lemma nodup_filter {A B} (f : A -> B) p (l : list A) : NoDup (map f l) -> NoDup (map f (filter p l)).
Proof.
  induction l as [|x l IH]; cbn; [auto|]. intros N. inversion N as [|? ? H1 H2]; subst. destruct (p x); cbn; auto. constructor; auto. intros I. apply H1.
  apply in_map_iff in I as (y & <- & I). apply filter_In in I as [I _]. apply in_map. exact I.
Qed.
Lemma good_remove s c : good s -> x_client s = Some c -> good (remove (with_client s None) c).
Proof.
  intros G Ec. unfold remove.
  set (s1 := with_list (with_client s None) (x_tabs (with_client s None)) (filter (fun i => negb (Nat.eqb i (t_id c))) (x_shown (with_client s None)))).
  set (s2 := if is_active s1 c then with_active s1 None else s1).
  assert (E2 : x_tabs s2 = x_tabs s /\ x_shown s2 = x_shown s1 /\ x_store s2 = x_store s /\ x_buttons s2 = x_buttons s /\ x_panel s2 = x_panel s /\ x_next s2 = x_next s /\ x_client s2 = None) by (unfold s2; destruct (is_active s1 c); cbn; tauto).
  destruct E2 as (E2 & E3 & E4 & E5 & E6 & E7 & E8).
  assert (Ea : forall a, x_active s2 = Some a <-> x_active s = Some a /\ a <> t_id c).
  { intros a. unfold s2, is_active. cbn. destruct (x_active s) as [b|] eqn:Eb; [|cbn; rewrite Eb; split; [discriminate | intros [? _]; discriminate]].
    destruct (Nat.eqb_spec (t_id c) b) as [H|H]; cbn; [split; [discriminate | intros [[= <-] X]; congruence] | rewrite Eb; split; [intros [= <-]; auto | tauto]]. }
  assert (I3 : forall t, In t (filter (fun t' => negb (Nat.eqb (t_id t') (t_id c))) (x_tabs s2)) <-> In t (x_tabs s) /\ t_id t <> t_id c).
  { intros t. rewrite E2, filter_In, negb_true_iff, Nat.eqb_neq. tauto. }
  assert (S := same_tab s). destruct G as [L G2 G3 G4 G5 G6]. specialize (fun t t' => S t t' L). destruct L as [L1 L2 L3 L4 L5 L6]. apply good_update; cbn [with_list x_tabs x_active x_shown x_buttons x_store x_client x_next x_panel].
  - split; cbn [with_list x_tabs x_active x_shown x_buttons x_store x_client x_next x_panel].
    + rewrite E2. apply nodup_filter, L1.
    + rewrite E7. intros t I. apply L2, I3, I.
    + intros t I. apply L3, I3, I.
    + rewrite E8. discriminate.
    + rewrite E4. exact L5.
    + rewrite E4, E6. exact L6.
  - intros i. cbn [with_list x_tabs x_shown]. rewrite E3. unfold s1. cbn. rewrite filter_In, negb_true_iff, Nat.eqb_neq. intros [I N]. apply G2 in I. destruct (G3 i I) as (t & It & <- & _). exists t. split; [|reflexivity]. apply I3. tauto.
  - intros a E. apply Ea in E as [E N]. destruct (G3 a E) as (t & It & <- & Es). exists t. rewrite E4. split; [apply I3; tauto|]. tauto.
  - rewrite E5. destruct G5 as [G5|G5]; [auto|]. destruct (x_buttons s) as [b|] eqn:Eb; [|auto]. right. symmetry. apply Ea. split; [auto|]. intros ->. destruct (L4 c Ec) as [Ic Oc]. rewrite (G6 c Ic eq_refl) in Oc. discriminate.
  - rewrite E5. intros t I. apply I3 in I as [I _]. apply G6, I.
Qed.
Lemma good_add s t : good s -> x_client s = None \/ t_own t = true -> t_name t <> "" -> ~ (exists t', In t' (x_tabs s) /\ t_id t' = t_id t) -> (t_id t < x_next s)%nat ->
  good (add (if t_own t then s else with_client s (Some t)) t).
Proof.
  intros G C N F Lt. unfold add. set (s0 := if t_own t then s else with_client s (Some t)).
  assert (E : x_tabs s0 = x_tabs s /\ x_active s0 = x_active s /\ x_shown s0 = x_shown s /\ x_store s0 = x_store s /\ x_buttons s0 = x_buttons s /\ x_panel s0 = x_panel s /\ x_next s0 = x_next s) by (unfold s0; destruct (t_own t); cbn; tauto).
  destruct E as (E1 & E2 & E3 & E4 & E5 & E6 & E7). assert (T := tame_good s G). destruct G as [[L1 L2 L3 L4 L5 L6] G2 G3 G4 G5 G6].
  assert (I : forall t', In t' (x_tabs s ++ [t]) <-> In t' (x_tabs s) \/ t' = t) by (intros t'; rewrite in_app_iff; cbn; intuition).
  apply good_update; cbn [with_list x_tabs x_active x_shown x_buttons x_store x_client x_next x_panel]; rewrite ?E1, ?E2, ?E3, ?E4, ?E5.
  - split; cbn [with_list x_tabs x_active x_shown x_buttons x_store x_client x_next x_panel]; rewrite ?E1, ?E2, ?E3, ?E4, ?E5, ?E6, ?E7; auto.
    + rewrite map_app. cbn. apply (NoDup_Add (a := t_id t) (l := map t_id (x_tabs s))); [rewrite <- (app_nil_r (map t_id (x_tabs s))) at 1; apply Add_app|]. split; [exact L1|].
      intros H. apply in_map_iff in H as (t' & Et & It). apply F. eauto.
    + intros t' H. apply I in H as [H| ->]; auto.
    + intros t' H. apply I in H as [H| ->]; auto.
    + intros c. unfold s0. destruct (t_own t) eqn:Eo; cbn.
      * intros Ec. rewrite I. split; [left; apply L4, Ec | apply L4, Ec].
      * intros [= <-]. rewrite I. auto.
  - intros i. cbn [with_list x_tabs x_shown]. rewrite ?E1, ?E3, in_app_iff. cbn. intros [H|[<-|[]]].
    + destruct (T i H) as (t' & ? & ?). exists t'. rewrite I. auto.
    + exists t. rewrite I. auto.
  - intros a Ha. destruct (G3 a Ha) as (t' & ? & ? & ?). exists t'. rewrite I. auto.
  - exact G5.
  - intros t' H Hb. apply I in H as [H| ->]; [auto|]. destruct G5 as [G5|G5]; [congruence|]. exfalso. rewrite G5 in Hb. destruct (G3 _ Hb) as (t' & ? & ? & ?). apply F. eauto.
Qed.
Lemma good_next s own n : good s -> good (snd (new_tab s n own)).
Proof. intros [[L1 L2 L3 L4 L5 L6] G2 G3 G4 G5 G6]. split; auto. split; cbn; auto. intros t I. apply L2 in I. lia. Qed.
Lemma fresh s : good s -> ~ (exists t', In t' (x_tabs s) /\ t_id t' = x_next s).
Proof. intros G (t & I & E). apply (l_next s (g_listed s G)) in I. lia. Qed.
Lemma good_new s n : good s -> n <> "" -> good (add_new s n).
Proof.
  intros G N. apply (good_add (snd (new_tab s n true)) (mkTab (x_next s) n true)); cbn; auto; [exact (good_next s true n G) | apply fresh, G].
Qed.
Lemma good_news l : forall s, good s -> (forall n, In n l -> n <> "") -> good (fold_left add_new l s).
Proof. induction l as [|n l IH]; intros s G N; cbn [fold_left]; [exact G|]. apply IH; [apply good_new; [exact G | apply N; left; reflexivity] | intros m I; apply N; right; exact I]. Qed.
Lemma base_nonempty n : In n base_names -> n <> "".
Proof. cbn. intuition congruence. Qed.
Lemma good_base s : good s -> good (with_base s).
Proof. intros [[L1 L2 L3 L4 L5 L6] G2 G3 G4 G5 G6]. split; auto. split; auto. Qed.
Lemma good_panel s b : good s -> good (set_panel s b).
Proof. intros [[L1 L2 L3 L4 L5 L6] G2 G3 G4 G5 G6]. split; auto. split; auto. Qed.
Lemma good_load d : st_current d <> Some "" -> good (load d).
Proof. intros H. split; cbn; auto; try (split; cbn; auto; try easy; constructor); try easy. Qed.
Lemma good_click s t : good s -> In t (x_tabs s) -> good (set_active s t).
Proof. intros G I. apply good_set; [apply G | apply tame_good, G | exact I]. Qed.
Lemma client_update s : x_client (update s) = x_client s.
Proof. unfold update. destruct (x_tabs s), (x_active s); auto. destruct (st_current (x_store s)) as [c|]; auto. destruct (String.eqb c ""); auto. destruct (by_name s c); auto. Qed.
Lemma client_remove s c : x_client (remove (with_client s None) c) = None.
Proof. unfold remove. rewrite client_update. cbn [with_list x_client]. destruct (is_active _ c); reflexivity. Qed.
Lemma good_step s o : good s -> good (step s o).
Proof.
  intros G. destruct o as [|n ui|k| | | |]; cbn [step]; try (apply good_panel, G).
  - unfold apply_config. destruct (x_base s); [exact G|]. apply good_base, good_news; [exact G | apply base_nonempty].
  - unfold show_client. set (s1 := match x_client s with Some t => _ | None => s end).
    assert (G1 : good s1 /\ x_client s1 = None).
    { unfold s1. destruct (x_client s) as [c|] eqn:Ec; [|auto]. split; [apply good_remove; auto | apply client_remove]. }
    destruct G1 as [G1 C1]. destruct n as [n|]; [|exact G1]. destruct ui; [|exact G1].
    apply (good_add (snd (new_tab s1 (if String.eqb n "" then "Virtual Client" else n) false)) (mkTab (x_next s1) (if String.eqb n "" then "Virtual Client" else n) false)); cbn; auto; [exact (good_next s1 false n G1) | | apply fresh, G1].
    destruct (String.eqb_spec n ""); [discriminate | auto].
  - destruct (nth_error (x_tabs s) k) as [t|] eqn:E; [|exact G]. apply good_click; [exact G | apply nth_error_In in E; exact E].
  - unfold set_active_by_name, by_name. destruct (find _ _) as [t|] eqn:E; [|apply good_panel, G]. apply good_click; [apply good_panel, G | apply find_some in E; apply E].
  - apply good_load, G.
Qed.
Lemma good_run h : good (run h).
Proof. unfold run. induction h as [|o h IH] using rev_ind; [apply good_load; discriminate|]. rewrite fold_left_snoc. apply good_step, IH. Qed.

(* What is seen, by the active tab *)
Lemma seen_active s t : good s -> In t (x_tabs s) -> (seen s t <-> x_active s = Some (t_id t)).
Proof.
  intros G I. unfold seen. rewrite <- (g_shown s G). split.
  - intros (_ & H & _). apply H; auto.
  - intros H. split; [exact I|]. assert (A := H). apply (g_shown s G) in A. split.
    + intros t' I'. rewrite (g_shown s G). split; [|intros ->; exact A]. intros A'. apply (same_tab s); auto; [apply G|]. congruence.
    + intros b E. destruct (g_but s G) as [B|B]; congruence.
Qed.
Lemma seen_dec s : good s -> match x_active s with Some a => exists t, seen s t /\ t_id t = a /\ st_current (x_store s) = Some (t_name t) | None => none_seen s end.
Proof.
  intros G. destruct (x_active s) as [a|] eqn:E.
  - destruct (g_active s G a E) as (t & I & <- & C). exists t. split; [apply seen_active; auto | auto].
  - split; [|destruct (g_but s G); congruence]. intros t _ H. apply (g_shown s G) in H. congruence.
Qed.
Lemma none_active s : good s -> none_seen s -> x_active s = None.
Proof. intros G [N _]. destruct (x_active s) as [a|] eqn:E; [|reflexivity]. destruct (g_active s G a E) as (t & I & <- & C). elim (N t I). apply (g_shown s G), E. Qed.

(* At any time at most one tab can be seen: its content, and its buttons *)
Theorem C100_one h : (none_seen (run h) /\ (forall t, ~ seen (run h) t)) \/ (exists t, seen (run h) t /\ forall t', seen (run h) t' -> t' = t).
Proof.
  assert (G := good_run h). assert (D := seen_dec _ G). destruct (x_active (run h)) as [a|] eqn:E.
  - right. destruct D as (t & H & Ea & _). exists t. split; [exact H|]. intros t' H'. destruct H' as (I' & H1 & H2). destruct H as (I & H3 & H4). apply H3; auto. apply H1; auto.
  - left. split; [exact D|]. intros t H. assert (I := proj1 H). apply (seen_active _ _ G I) in H. congruence.
Qed.

(* Unless the user chooses, what is remembered stays *)
Lemma cur_keep s n : st_current (x_store s) = Some n -> n <> "" -> st_current (x_store (update s)) = Some n.
Proof.
  intros C N. unfold update. destruct (x_tabs s), (x_active s) eqn:E; auto. rewrite C. destruct (String.eqb_spec n ""); [congruence|]. unfold by_name. destruct (find _ _) as [t'|] eqn:F; [|exact C].
  apply find_some in F as [_ F]. apply String.eqb_eq in F. cbn. congruence.
Qed.
Lemma cur_remove s t n : st_current (x_store s) = Some n -> n <> "" -> st_current (x_store (remove s t)) = Some n.
Proof. intros C N. unfold remove. apply cur_keep; [|exact N]. cbn. destruct (is_active _ t); exact C. Qed.
Lemma cur_base s : st_current (x_store (with_base s)) = st_current (x_store s).
Proof. reflexivity. Qed.
Lemma cur_news l n : n <> "" -> forall s, st_current (x_store s) = Some n -> st_current (x_store (fold_left add_new l s)) = Some n.
Proof. intros N. induction l as [|m l IH]; cbn [fold_left]; auto. intros s C. apply IH. unfold add_new, add. cbn [new_tab]. apply cur_keep; auto. Qed.
Lemma cur_step s o n : choice o = false -> st_current (x_store s) = Some n -> n <> "" -> st_current (x_store (step s o)) = Some n.
Proof.
  intros H C N. destruct o as [|c ui|k| | | |]; try discriminate; cbn [step]; auto.
  - unfold apply_config. destruct (x_base s); [exact C|]. rewrite cur_base. apply cur_news; auto.
  - unfold show_client. assert (C1 : st_current (x_store match x_client s with Some t => remove (with_client s None) t | None => s end) = Some n).
    { destruct (x_client s); [apply cur_remove; auto | exact C]. }
    destruct c as [c|]; [|exact C1]. destruct ui; [|exact C1]. cbn [new_tab]. unfold add. apply cur_keep; auto.
Qed.
Lemma cur_steps s h n : existsb choice h = false -> st_current (x_store s) = Some n -> n <> "" -> st_current (x_store (fold_left step h s)) = Some n.
Proof. revert s. induction h as [|o h IH]; intros s; cbn; auto. rewrite orb_false_iff. intros [H1 H2] C N. apply IH; auto. apply cur_step; auto. Qed.

(* A tab which has been seen stays the one which is seen, also if the page is loaded again, until the user chooses another one. It is missing only while there is no tab of this name. *)
Theorem C100_kept h h2 n : seen_name (run h) n -> existsb choice h2 = false ->
  seen_name (run (h ++ h2)) n \/ (none_seen (run (h ++ h2)) /\ forall t, In t (x_tabs (run (h ++ h2))) -> t_name t <> n).
Proof.
  intros (t & S & <-) H. assert (G0 := good_run h). assert (G := good_run (h ++ h2)).
  assert (C : st_current (x_store (run h)) = Some (t_name t)).
  { assert (I := proj1 S). apply (seen_active _ _ G0 I) in S. destruct (g_active _ G0 _ S) as (t' & I' & E & C). rewrite C. f_equal. f_equal. apply (same_tab (run h)); auto. apply G0. }
  assert (N : t_name t <> "") by (apply (l_name _ (g_listed _ G0)), S).
  assert (C2 : st_current (x_store (run (h ++ h2))) = Some (t_name t)) by (unfold run; rewrite fold_left_app; apply cur_steps; auto).
  assert (D := seen_dec _ G). destruct (x_active (run (h ++ h2))) as [a|] eqn:E.
  - left. destruct D as (t' & S' & _ & C'). exists t'. split; [exact S' | congruence].
  - right. split; [exact D|]. intros t' I' E'. destruct (g_none _ G E) as (c & Cc & Nc); [intros X; rewrite X in I'; exact I'|]. apply Nc. replace c with (t_name t') by congruence. apply in_map. exact I'.
Qed.

Lemma seen_cur s n : good s -> seen_name s n -> st_current (x_store s) = Some n.
Proof. intros G (t & S & <-). assert (I := proj1 S). apply (seen_active _ _ G I) in S. destruct (g_active _ G _ S) as (t' & I' & E & C). rewrite C. f_equal. f_equal. apply (same_tab s); auto. apply G. Qed.
(* What is remembered changes only to the name of the tab which is seen *)
Definition moved (s s' : tabs) : Prop := (x_active s <> None -> x_active s' <> None) /\ (st_current (x_store s') = st_current (x_store s) \/ x_active s' <> None).
Lemma moved_refl s : moved s s.
Proof. split; auto. Qed.
Lemma moved_trans a b c : moved a b -> moved b c -> moved a c.
Proof. intros [A1 A2] [B1 B2]. split; auto. destruct B2 as [B2|B2]; auto. destruct A2 as [A2|A2]; [left; congruence | auto]. Qed.
Lemma moved_update s : moved s (update s).
Proof.
  unfold moved. destruct (x_active s) as [a|] eqn:E.
  - assert (U : update s = update_active s) by (unfold update; rewrite E; destruct (x_tabs s); reflexivity). rewrite U. cbn. rewrite E. split; auto.
  - split; [congruence|]. unfold update. rewrite E. destruct (x_tabs s) as [|t l]; [left; reflexivity|].
    destruct (st_current (x_store s)) as [c|] eqn:C; [|right; discriminate]. destruct (String.eqb c ""); [right; discriminate|]. destruct (by_name s c); [right; discriminate | left; exact C].
Qed.
Lemma moved_news l : forall s, moved s (fold_left add_new l s).
Proof. induction l as [|n l IH]; intros s; cbn [fold_left]; [apply moved_refl|]. apply (moved_trans _ (add_new s n)); [|apply IH]. unfold add_new, add. cbn [new_tab]. exact (moved_update (with_list (snd (new_tab s n true)) (x_tabs s ++ [mkTab (x_next s) n true]) (x_shown s ++ [x_next s]))). Qed.
Lemma active_base s : x_active (with_base s) = x_active s.
Proof. reflexivity. Qed.
Lemma cur_moved s o : st_current (x_store (step s o)) = st_current (x_store s) \/ x_active (step s o) <> None.
Proof.
  destruct o as [|c ui|k| | | |]; cbn [step]; auto.
  - unfold apply_config. destruct (x_base s); auto. rewrite cur_base, active_base. apply (moved_news base_names s).
  - unfold show_client. assert (C1 : st_current (x_store match x_client s with Some t => remove (with_client s None) t | None => s end) = st_current (x_store s) \/ x_active match x_client s with Some t => remove (with_client s None) t | None => s end <> None).
    { destruct (x_client s) as [t|]; [|auto]. unfold remove. match goal with |- context [update ?x] => destruct (proj2 (moved_update x)) as [M|M] end; [|right; exact M].
      left. rewrite M. cbn [with_list x_store]. destruct (is_active _ t); reflexivity. }
    destruct c as [c|]; [|exact C1]. destruct ui; [|exact C1]. cbn [new_tab]. set (s1 := match x_client s with Some t => remove (with_client s None) t | None => s end) in *. clearbody s1. unfold add.
    match goal with |- context [update ?x] => destruct (moved_update x) as [M1 M2] end. destruct M2 as [M|M]; [|right; exact M]. destruct C1 as [C1|C1]; [left; rewrite M; exact C1 | right; apply M1; exact C1].
  - destruct (nth_error (x_tabs s) k); auto. right. discriminate.
  - unfold set_active_by_name. destruct (by_name _ _); auto. right. discriminate.
Qed.
Lemma cur_last h n : st_current (x_store (run h)) = Some n -> last_seen h n.
Proof.
  induction h as [|o h IH] using rev_ind; [discriminate|]. intros C. assert (G := good_run (h ++ [o])). assert (D := seen_dec _ G).
  destruct (x_active (run (h ++ [o]))) as [a|] eqn:E.
  - destruct D as (t & S & _ & C'). exists (h ++ [o]), []. rewrite app_nil_r. split; [reflexivity|]. split; [exists t; split; [exact S | congruence]|].
    intros h3 h4 n' Eh S'. destruct h3; [|discriminate]. rewrite app_nil_r in S'. apply (seen_cur _ _ G) in S'. congruence.
  - assert (Er : run (h ++ [o]) = step (run h) o) by (unfold run; apply fold_left_snoc). destruct (cur_moved (run h) o) as [M|M]; [|rewrite <- Er in M; congruence].
    rewrite Er, M in C. destruct (IH C) as (h1 & h2 & -> & S & L). exists h1, (h2 ++ [o]). rewrite app_assoc. split; [reflexivity|]. split; [exact S|].
    intros h3 h4 n' Eh S'. destruct h4 as [|o' h4] using rev_ind.
    + rewrite app_nil_r in Eh. subst h3. rewrite app_assoc in S'. destruct S' as (t & S' & _). assert (I := proj1 S'). apply (seen_active _ _ G I) in S'. congruence.
    + rewrite app_assoc in Eh. apply app_inj_tail in Eh as [Eh _]. eapply L; eauto.
Qed.
(* As long as there are tabs, one of them is seen, unless the one which has been seen last is not there any more *)
Theorem C100_some_partial h : x_tabs (run h) <> [] ->
  (exists t, seen (run h) t) \/ (none_seen (run h) /\ exists n, last_seen h n /\ forall t, In t (x_tabs (run h)) -> t_name t <> n).
Proof.
  intros N. assert (G := good_run h). assert (D := seen_dec _ G). destruct (x_active (run h)) as [a|] eqn:E; [left; destruct D as (t & S & _); eauto|].
  right. split; [exact D|]. destruct (g_none _ G E N) as (c & C & X). exists c. split; [apply cur_last, C|]. intros t I <-. apply X. apply in_map. exact I.
Qed.

(* Choosing a tab shows it *)
Lemma seen_set s t : good s -> In t (x_tabs s) -> seen (set_active s t) t.
Proof. intros G I. apply seen_active; [apply good_click; auto | exact I | reflexivity]. Qed.
Theorem C100_click h k t : nth_error (x_tabs (run h)) k = Some t -> seen (run (h ++ [Click k])) t /\ x_tabs (run (h ++ [Click k])) = x_tabs (run h).
Proof.
  intros E. unfold run at 1 2. rewrite !fold_left_snoc. fold (run h). cbn [step]. rewrite E. split; [|reflexivity]. apply seen_set; [apply good_run | apply nth_error_In in E; exact E].
Qed.

Lemma tabs_update s : x_tabs (update s) = x_tabs s /\ x_base (update s) = x_base s /\ x_panel (update s) = x_panel s.
Proof. unfold update. destruct (x_tabs s) as [|t l] eqn:E, (x_active s); cbn; rewrite ?E; auto. destruct (st_current (x_store s)) as [c|]; cbn; rewrite ?E; auto. destruct (String.eqb c ""); cbn; rewrite ?E; auto. destruct (by_name s c); cbn; rewrite ?E; auto. Qed.
Lemma news_facts l : forall s, names (fold_left add_new l s) = names s ++ l /\ x_client (fold_left add_new l s) = x_client s /\ x_panel (fold_left add_new l s) = x_panel s.
Proof.
  induction l as [|n l IH]; intros s; cbn [fold_left]; [rewrite app_nil_r; auto|]. destruct (IH (add_new s n)) as (E1 & E2 & E3). rewrite E1, E2, E3. unfold add_new, add, names. cbn [new_tab].
  match goal with |- context [update ?x] => destruct (tabs_update x) as (U1 & _ & U3); rewrite U1, U3, (client_update x) end. cbn. rewrite map_app, <- app_assoc. auto.
Qed.
Lemma base_facts s : names (with_base s) = names s /\ x_client (with_base s) = x_client s /\ x_panel (with_base s) = x_panel s /\ x_base (with_base s) = true.
Proof. repeat split. Qed.
Lemma remove_names l c : In c l -> NoDup (map t_id l) -> Permutation (map t_name l) (map t_name (filter (fun t' => negb (Nat.eqb (t_id t') (t_id c))) l) ++ [t_name c]).
Proof.
  induction l as [|t l IH]; [intros []|]. cbn. intros I N. inversion N as [|? ? H1 H2]; subst. destruct (Nat.eqb_spec (t_id t) (t_id c)) as [E|E]; cbn.
  - assert (t = c) as ->. { destruct I as [I|I]; [exact I|]. elim H1. rewrite E. apply in_map. exact I. }
    rewrite Permutation_app_comm. cbn. constructor. replace (filter _ l) with l; [reflexivity|]. symmetry. clear IH N I H2. induction l as [|x l IH]; [reflexivity|]. cbn in *.
    destruct (Nat.eqb_spec (t_id x) (t_id c)) as [X|X]; [elim H1; left; exact X|]. cbn. f_equal. apply IH. tauto.
  - constructor. apply IH; [destruct I; congruence | exact H2].
Qed.
Lemma remove_facts s c : x_tabs (remove (with_client s None) c) = filter (fun t' => negb (Nat.eqb (t_id t') (t_id c))) (x_tabs s) /\ x_base (remove (with_client s None) c) = x_base s /\ x_panel (remove (with_client s None) c) = x_panel s.
Proof. unfold remove. match goal with |- context [update ?x] => destruct (tabs_update x) as (U1 & U2 & U3); rewrite U1, U2, U3 end. cbn [with_list x_tabs x_base x_panel]. destruct (is_active _ c); auto. Qed.
Definition name_of (o : option tab) : list string := match o with Some c => [t_name c] | None => [] end.
Lemma base_same : base_names = base.
Proof. reflexivity. Qed.
Lemma tabs_inv h : Permutation (names (run h)) ((if snd (present h) then base else []) ++ client_tab (fst (present h))) /\ x_base (run h) = snd (present h) /\ name_of (x_client (run h)) = client_tab (fst (present h)).
Proof.
  induction h as [|o h IH] using rev_ind; [cbn; auto|].
  assert (Er : run (h ++ [o]) = step (run h) o) by (unfold run; apply fold_left_snoc). rewrite Er. clear Er. unfold present. rewrite fold_left_snoc. fold (present h). assert (G := good_run h).
  set (s := run h) in *. clearbody s. destruct (present h) as [c b]. cbn [fst snd] in IH. destruct IH as (P & B & N). destruct o as [|n ui|k| | | |]; cbn [step fst snd]; auto.
  - unfold apply_config. destruct (x_base s) eqn:Eb; subst b; [auto|]. destruct (base_facts (fold_left add_new base_names s)) as (E1 & E2 & _ & E4). rewrite E1, E2, E4. destruct (news_facts base_names s) as (F1 & F2 & _). rewrite F1, F2.
    cbn [app] in P. rewrite base_same. split; [|auto]. rewrite P. apply Permutation_app_comm.
  - unfold show_client. set (s1 := match x_client s with Some t => remove (with_client s None) t | None => s end).
    assert (F : Permutation (names s1) (if b then base else []) /\ x_base s1 = b /\ x_client s1 = None).
    { unfold s1. destruct (x_client s) as [t|] eqn:Ec; cbn [name_of] in N; rewrite <- N in P; [|rewrite app_nil_r in P; auto].
      destruct (remove_facts s t) as (E1 & E2 & _). unfold names. rewrite E1, E2, client_remove. split; [|auto].
      assert (R := remove_names (x_tabs s) t (proj1 (l_client _ (g_listed _ G) _ Ec)) (l_ids _ (g_listed _ G))). unfold names in P. rewrite P in R. symmetry. apply Permutation_app_inv_r in R. exact R. }
    destruct F as (F1 & F2 & F3). clearbody s1. destruct ui; [|destruct n; cbn [client_tab]; rewrite app_nil_r, F3; auto]. destruct n as [n|]; [|cbn [client_tab]; rewrite app_nil_r, F3; auto].
    cbn [new_tab]. unfold add. match goal with |- context [update ?x] => destruct (tabs_update x) as (U1 & U2 & U3); unfold names; rewrite U1, U2, (client_update x) end. cbn. rewrite map_app. cbn.
    split; [apply Permutation_app_tail; exact F1 | auto].
  - destruct (nth_error (x_tabs s) k); auto.
  - unfold set_active_by_name. destruct (by_name _ _); auto.
Qed.
(* The tabs are those for the files, the monitor and the settings, once a configuration has been loaded, and that of the client, if it has one *)
Theorem C100_tabs h : Permutation (map t_name (x_tabs (run h))) ((if snd (present h) then base else []) ++ client_tab (fst (present h))).
Proof. apply tabs_inv. Qed.

Lemma panel_step s o : x_panel s = st_show (x_store s) -> x_panel (step s o) = match o with Source => true | Toggle => negb (x_panel s) | Close => false | _ => x_panel s end.
Proof.
  intros H. destruct o as [|n ui|k| | | |]; cbn [step]; auto.
  - unfold apply_config. destruct (x_base s); auto. destruct (base_facts (fold_left add_new base_names s)) as (_ & _ & E & _). rewrite E. apply news_facts.
  - unfold show_client. set (s1 := match x_client s with Some t => remove (with_client s None) t | None => s end).
    assert (E1 : x_panel s1 = x_panel s) by (unfold s1; destruct (x_client s); [apply remove_facts | reflexivity]). clearbody s1. destruct n as [n|]; [|exact E1]. destruct ui; [|exact E1].
    cbn [new_tab]. unfold add. match goal with |- context [update ?x] => destruct (tabs_update x) as (U1 & U2 & U3); rewrite U3 end. exact E1.
  - destruct (nth_error (x_tabs s) k); auto.
  - unfold set_active_by_name. destruct (by_name _ _); auto.
Qed.
(* The panel is open as the user has left it, also after the page has been loaded again *)
Theorem C100_panel h : x_panel (run h) = open h.
Proof.
  induction h as [|o h IH] using rev_ind; [reflexivity|].
  assert (Er : run (h ++ [o]) = step (run h) o) by (unfold run; apply fold_left_snoc). rewrite Er. unfold open. rewrite fold_left_snoc. fold (open h). rewrite panel_step by (apply good_run). rewrite IH. destruct o; reflexivity.
Qed.
(* The link to the source code opens the panel with the tab for inputs.py *)
Theorem C100_source h : snd (present h) = true -> seen_name (run (h ++ [Source])) "inputs.py" /\ x_panel (run (h ++ [Source])) = true.
Proof.
  intros B. split; [|rewrite C100_panel; unfold open; rewrite fold_left_snoc; reflexivity].
  assert (Er : run (h ++ [Source]) = step (run h) Source) by (unfold run; apply fold_left_snoc). rewrite Er. cbn [step]. unfold set_active_by_name.
  assert (P := C100_tabs h). rewrite B in P. assert (I : In "inputs.py" (map t_name (x_tabs (run h)))) by (eapply Permutation_in; [symmetry; exact P | left; reflexivity]).
  unfold by_name. destruct (find _ _) as [t|] eqn:F.
  - apply find_some in F as [F E]. apply String.eqb_eq in E. exists t. split; [|exact E]. apply seen_set; [apply good_panel, good_run | exact F].
  - exfalso. apply in_map_iff in I as (t & E & I). apply (find_none _ _ F) in I. cbn in I. rewrite E in I. discriminate.
Qed.

(* Not proved, because it does not hold: as long as there are tabs, one of them is seen *)
Theorem C100_some_refuted : ~ (forall h, x_tabs (run h) <> [] -> exists t, seen (run h) t).
Proof.
  intros H. destruct (H [Client (Some "Kemper") true; Config; Click 0; Client None false]) as (t & I & S & _); [vm_compute; discriminate|].
  vm_compute in I, S. assert (X := proj2 (S t I) eq_refl). exact X.
Qed.
(* A run: the tab of the client is chosen, the client is connected again (its tab comes back), the page is loaded again, another tab is chosen *)
Example ex_tabs :
  seen_name (run [Client (Some "Kemper") true; Config; Click 0; Client (Some "Kemper") true]) "Kemper"
  /\ seen_name (run [Client (Some "Kemper") true; Config; Click 0; Reload; Config; Client (Some "Kemper") true]) "Kemper"
  /\ x_shown (run [Client (Some "Kemper") true; Config; Click 0; Client None false]) = []
  /\ map t_name (x_tabs (run [Client (Some "Kemper") true; Config; Client (Some "Other") true])) = base ++ ["Other"]
  /\ seen_name (run [Config; Click 2; Client (Some "Kemper") true; Reload; Config; Source]) "inputs.py"
  /\ open [Toggle; Reload] = true /\ x_panel (run [Toggle; Reload]) = true.
Proof.
  assert (K : forall h n t, In t (x_tabs (run h)) -> x_active (run h) = Some (t_id t) -> t_name t = n -> seen_name (run h) n).
  { intros h n t I A E. exists t. split; [apply seen_active; [apply good_run | exact I | exact A] | exact E]. }
  split; [apply (K _ _ (mkTab 5 "Kemper" false)); vm_compute; auto 6|].
  split; [apply (K _ _ (mkTab 4 "Kemper" false)); vm_compute; auto 6|].
  split; [vm_compute; reflexivity|]. split; [vm_compute; reflexivity|].
  split; [apply (K _ _ (mkTab 0 "inputs.py" true)); vm_compute; auto 6|]. split; vm_compute; reflexivity.
Qed.
Print Assumptions C100_one. Print Assumptions C100_kept. Print Assumptions C100_some_partial. Print Assumptions C100_click. Print Assumptions C100_tabs. Print Assumptions C100_panel. Print Assumptions C100_source. Print Assumptions C100_some_refuted.
