(* C120: icons of actions in the web application. *)
From Coq Require Import String Lia.
From Verif.Lib Require Import Base.
From Verif.Model Require Import PageColors.
From Verif.Spec Require Import PageColors.
Local Open Scope list_scope.
Local Open Scope string_scope.
Local Open Scope nat_scope.

Lemma run_snoc h q : run (h ++ [q]) = fst (ask (run h) (fst q) (snd q)).
Proof. unfold run. rewrite fold_left_app. reflexivity. Qed.
Lemma seen_snoc h q : seen (h ++ [q]) = if existsb (String.eqb (append (fst q) (snd q))) (seen h) then seen h else (seen h ++ [append (fst q) (snd q)])%list.
Proof. unfold seen. rewrite fold_left_app. reflexivity. Qed.
Lemma in_eqb x l : existsb (String.eqb x) l = true <-> In x l.
Proof. rewrite existsb_exists. split; [intros (y & I & E); apply String.eqb_eq in E; subst; exact I|]. intros I. exists x. split; [exact I|apply String.eqb_refl]. Qed.
Lemma inv h : next (run h) = length (seen h) mod 5 /\ NoDup (seen h) /\ (forall k, look k (colors (run h)) = None <-> ~ In k (seen h)) /\
  (forall i k, nth_error (seen h) i = Some k -> look k (colors (run h)) = Some (i mod 5)).
Proof.
  induction h as [|q h (N & D & L & C)] using rev_ind; [split; [reflexivity|]; split; [constructor|]; split; [intros k; split; [intros _ []|reflexivity]|intros [|i] k H; discriminate]|].
  rewrite run_snoc, seen_snoc. unfold ask. set (k := append (fst q) (snd q)). destruct (existsb (String.eqb k) (seen h)) eqn:E.
  - apply in_eqb in E. destruct (look k (colors (run h))) eqn:K; [cbn; auto|]. apply L in K. contradiction.
  - assert (NI : ~ In k (seen h)) by (intros I; apply in_eqb in I; congruence). rewrite (proj2 (L k) NI). cbn [fst colors next]. split; [|split; [|split]].
    + rewrite app_length, N. cbn [length]. pose proof (Nat.mod_upper_bound (length (seen h)) 5 ltac:(lia)) as B. rewrite <- (Nat.add_mod_idemp_l (length (seen h)) 1 5) by lia.
      set (r := length (seen h) mod 5) in *. clearbody r. do 5 (destruct r as [|r]; [reflexivity|]). lia.
    + clear - D NI. induction (seen h) as [|x l IH]; cbn; [repeat constructor; intros []|]. inversion D; subst. constructor; [|apply IH; [assumption|intros I; apply NI; right; exact I]].
      rewrite in_app_iff. intros [I|[I|[]]]; [contradiction|]. apply NI. left. symmetry. exact I.
    + intros y. cbn [look]. rewrite in_app_iff. destruct (String.eqb_spec k y) as [<-|X]; [split; [discriminate|intros H; exfalso; apply H; right; left; reflexivity]|]. rewrite L. cbn [In]. intuition.
    + intros i y H. cbn [look]. destruct (Nat.lt_ge_cases i (length (seen h))) as [B|B].
      * rewrite nth_error_app1 in H by exact B. destruct (String.eqb_spec k y) as [<-|X]; [apply nth_error_In in H; contradiction|]. apply C. exact H.
      * rewrite nth_error_app2 in H by exact B. destruct (i - length (seen h)) as [|j] eqn:J; [|destruct j; discriminate]. injection H as <-. rewrite String.eqb_refl, N. do 2 f_equal. lia.
Qed.

(* The pages get the five colors in turn, in the order in which they come first. *)
Theorem C120_color : forall h pager page i, nth_error (seen (h ++ [(pager, page)])) i = Some (append pager page) -> color h pager page = i mod 5.
Proof.
  intros h pager page i H. rewrite seen_snoc in H. cbn [fst snd] in H. unfold color, ask. destruct (inv h) as (N & D & L & C). destruct (existsb _ (seen h)) eqn:E.
  - rewrite (C i _ H). reflexivity.
  - assert (NI : ~ In (append pager page) (seen h)) by (intros I; apply in_eqb in I; congruence). rewrite (proj2 (L _) NI). cbn [snd]. rewrite N. f_equal.
    destruct (Nat.lt_ge_cases i (length (seen h))) as [B|B]; [rewrite nth_error_app1 in H by exact B; apply nth_error_In in H; contradiction|].
    rewrite nth_error_app2 in H by exact B. destruct (i - length (seen h)) as [|j] eqn:J; [lia|destruct j; discriminate].
Qed.
Print Assumptions C120_color.
(* A page keeps its color. *)
Theorem C120_kept : forall h w pager page, color (h ++ (pager, page) :: w) pager page = color h pager page.
Proof.
  intros h w pager page.
  assert (K : forall w s k c, look k (colors s) = Some c -> look k (colors (fold_left (fun s q => fst (ask s (fst q) (snd q))) w s)) = Some c).
  { clear. induction w as [|q w IH]; intros s k c H; [exact H|]. cbn [fold_left]. apply IH. unfold ask. destruct (look (append (fst q) (snd q)) (colors s)) eqn:E; [exact H|]. cbn.
    destruct (String.eqb_spec (append (fst q) (snd q)) k) as [X|X]; [rewrite X in E; congruence|exact H]. }
  unfold color. unfold run at 1. rewrite fold_left_app. cbn [fold_left fst snd]. fold (run h).
  assert (A : look (append pager page) (colors (fst (ask (run h) pager page))) = Some (snd (ask (run h) pager page))).
  { unfold ask. destruct (look (append pager page) (colors (run h))) eqn:E; [exact E|]. cbn. rewrite String.eqb_refl. reflexivity. }
  unfold ask at 1. rewrite (K w _ _ _ A). reflexivity.
Qed.
Print Assumptions C120_kept.
(* There are five colors, and five pages which follow each other have different ones. *)
Theorem C120_apart_partial : forall h i j a b p q, nth_error (seen h) i = Some (append a p) -> nth_error (seen h) j = Some (append b q) -> i < j < i + 5 ->
  color h a p <> color h b q /\ color h a p < 5 /\ color h b q < 5.
Proof.
  intros h i j a b p q A B R. destruct (inv h) as (_ & _ & _ & C). unfold color, ask. rewrite (C i _ A), (C j _ B). cbn [snd]. split; [|split; apply Nat.mod_upper_bound; lia].
  intros E. pose proof (Nat.div_mod i 5 ltac:(lia)) as X. pose proof (Nat.div_mod j 5 ltac:(lia)) as Y. lia.
Qed.
Print Assumptions C120_apart_partial.
(* "Different pages of few are different in color" is false: page 12 of pager P is taken for page 2 of pager P1. *)
Theorem C120_mixed_refuted : color [("P", "12")] "P" "12" = color [("P", "12")] "P1" "2" /\ length (seen [("P", "12"); ("P1", "2")]) = 1.
Proof. split; vm_compute; reflexivity. Qed.
Print Assumptions C120_mixed_refuted.

Lemma given_spec o v : given o = Some v <-> says o v.
Proof. unfold says. destruct o as [[|c s]|]; cbn; split; try discriminate; try (intros [E N]; congruence). intros E. split; [exact E|]. injection E as <-. discriminate. Qed.
Lemma given_none o : given o = None <-> o = None \/ o = Some "".
Proof. destruct o as [[|c s]|]; cbn; split; auto; try discriminate. intros [X|X]; discriminate. Qed.
(* What the icons say: LEDs by the argument or else by the default, the display, a page or else a callback, and the assignment; each at most once. *)
Theorem C120_icons : forall a,
  (In Leds (icons a) <-> says (a_leds a) "True" \/ ((a_leds a = None \/ a_leds a = Some "") /\ a_default a = Some "True")) /\
  (forall d, In (Display d) (icons a) <-> says (a_display a) d /\ d <> "None") /\
  (In Page (icons a) <-> a_page a <> "") /\
  (In Callback (icons a) <-> a_page a = "" /\ exists e, says (a_enable a) e /\ e <> "None") /\
  (In Assigned (icons a) <-> a_assign a = true) /\ NoDup (icons a).
Proof.
  intros a. unfold icons.
  assert (U : uses_leds a = true <-> says (a_leds a) "True" \/ ((a_leds a = None \/ a_leds a = Some "") /\ a_default a = Some "True")).
  { unfold uses_leds. rewrite <- given_none, <- given_spec. destruct (given (a_leds a)) as [v|].
    - rewrite String.eqb_eq. split; [intros ->; auto|]. intros [E|[E _]]; congruence.
    - destruct (a_default a) as [v|]; [rewrite String.eqb_eq|]; split; try discriminate; [intros ->; auto|intros [E|[_ E]]; congruence|intros [E|[_ E]]; congruence]. }
  set (A := if uses_leds a then [Leds] else []). set (B := match given (a_display a) with Some d => _ | None => _ end).
  set (C := if negb (String.eqb (a_page a) "") then [Page] else _). set (D := if a_assign a then [Assigned] else []).
  assert (HA : forall x, In x A <-> x = Leds /\ uses_leds a = true) by (intros x; subst A; destruct (uses_leds a); cbn; intuition congruence).
  assert (HB : forall x, In x B <-> exists d, x = Display d /\ says (a_display a) d /\ d <> "None").
  { intros x. subst B. destruct (given (a_display a)) as [d|] eqn:G.
    - apply given_spec in G. destruct (String.eqb_spec d "None") as [E|E]; cbn; split; try contradiction.
      + intros (d' & _ & [S _] & N). destruct G as [G _]. congruence.
      + intros [<-|[]]. exists d. auto.
      + intros (d' & -> & [S _] & N). left. destruct G as [G _]. congruence.
    - cbn. split; [contradiction|]. intros (d & _ & S & _). apply given_spec in S. congruence. }
  assert (HC : forall x, In x C <-> (x = Page /\ a_page a <> "") \/ (x = Callback /\ a_page a = "" /\ exists e, says (a_enable a) e /\ e <> "None")).
  { intros x. subst C. destruct (String.eqb_spec (a_page a) "") as [E|E]; cbn [negb].
    - destruct (given (a_enable a)) as [e|] eqn:G.
      + apply given_spec in G. destruct (String.eqb_spec e "None") as [X|X]; cbn; split; try contradiction.
        * intros [[_ H]|(_ & _ & e' & [S _] & N)]; [contradiction|]. destruct G as [G _]. congruence.
        * intros [<-|[]]. right. eauto.
        * intros [[_ H]|(-> & _)]; [contradiction|auto].
      + cbn. split; [contradiction|]. intros [[_ H]|(_ & _ & e & S & _)]; [contradiction|]. apply given_spec in S. congruence.
    - cbn. split; [intros [<-|[]]; auto|]. intros [[-> _]|(_ & H & _)]; [auto|contradiction]. }
  assert (HD : forall x, In x D <-> x = Assigned /\ a_assign a = true) by (intros x; subst D; destruct (a_assign a); cbn; intuition congruence).
  assert (All : forall x, In x (A ++ B ++ C ++ D)%list <-> In x A \/ In x B \/ In x C \/ In x D) by (intros x; rewrite !in_app_iff; tauto).
  split; [|split; [|split; [|split; [|split]]]].
  - rewrite All, HA, HB, HC, HD, <- U. split; [intros [[_ H]|[(d & H & _)|[[[H _]|[H _]]|[H _]]]]; [exact H|discriminate..]|auto].
  - intros d. rewrite All, HA, HB, HC, HD. split; [intros [[H _]|[(d' & H & S)|[[[H _]|[H _]]|[H _]]]]; try discriminate; injection H as ->; exact S|]. intros S. right. left. exists d. split; [reflexivity|exact S].
  - rewrite All, HA, HB, HC, HD. split; [intros [[H _]|[(d' & H & S)|[[[_ H]|[H _]]|[H _]]]]; try discriminate; exact H|]. intros H. right. right. left. left. auto.
  - rewrite All, HA, HB, HC, HD. split; [intros [[H _]|[(d' & H & S)|[[[H _]|[_ H]]|[H _]]]]; try discriminate; exact H|]. intros H. right. right. left. right. auto.
  - rewrite All, HA, HB, HC, HD. split; [intros [[H _]|[(d' & H & S)|[[[H _]|[H _]]|[_ H]]]]; try discriminate; exact H|]. intros H. right. right. right. auto.
  - clear. subst A B C D. destruct (uses_leds a), (given (a_display a)) as [d|], (String.eqb (a_page a) ""), (given (a_enable a)) as [e|], (a_assign a); cbn; try destruct (String.eqb d "None"); try destruct (String.eqb e "None"); cbn;
      repeat constructor; cbn; intuition discriminate.
Qed.
Print Assumptions C120_icons.

Example ex_colors : map (fun p => color [("P", "1"); ("P", "2"); ("Q", "1"); ("P", "1"); ("Q", "2"); ("Q", "3"); ("Q", "4")] (fst p) (snd p)) [("P", "1"); ("P", "2"); ("Q", "1"); ("Q", "2"); ("Q", "3"); ("Q", "4")] = [0; 1; 2; 3; 4; 0] /\
  icons {| a_display := Some "DISPLAY_HEADER_1"; a_leds := None; a_enable := Some "_pager.enable_callback"; a_page := "1"; a_assign := false; a_default := Some "True" |} = [Leds; Display "DISPLAY_HEADER_1"; Page].
Proof. split; vm_compute; reflexivity. Qed.
