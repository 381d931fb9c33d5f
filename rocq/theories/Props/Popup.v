(* C101: popups. *)
From Verif.Lib Require Import Base.
From Verif.Model Require Import Popup.
From Verif.Spec Require Import Popup.
Local Open Scope list_scope.

Section Options.
Variables confirms closes : nat -> bool.
Notation run := (run confirms closes). Notation step := (step confirms closes). Notation confirm_and_hide := (confirm_and_hide confirms closes).

Lemma run_snoc h o : run (h ++ [o]) = step (run h) o.
Proof. unfold Popup.run. apply fold_left_snoc. Qed.
Lemma others_in p l q : In q (others p l) <-> In q l /\ q <> p.
Proof. unfold others. rewrite filter_In, negb_true_iff, Nat.eqb_neq. tauto. Qed.
Lemma others_not p l : ~ In p l -> others p l = l.
Proof. unfold others. induction l as [|q l IH]; cbn; [auto|]. intros N. destruct (Nat.eqb_spec q p) as [->|]; cbn; [elim N; auto|]. rewrite IH; auto. Qed.
Lemma others_app p l l' : others p (l ++ l') = others p l ++ others p l'.
Proof. unfold others. apply filter_app. Qed.
Lemma others_nodup p l : NoDup l -> NoDup (others p l).
Proof. apply NoDup_filter. Qed.
Lemma nodup_snoc {A} (l : list A) x : NoDup l -> ~ In x l -> NoDup (l ++ [x]).
Proof. intros H N. apply (NoDup_Add (a := x) (l := l)); [|split; assumption]. rewrite <- (app_nil_r l) at 1. apply Add_app. Qed.

(* Between events, the handlers are those of the popups which are open *)
Record calm (s : window) : Prop := { c_keys : w_keys s = w_open s; c_clicks : w_clicks s = w_open s; c_timers : w_timers s = []; c_dup : NoDup (w_open s) }.
Lemma calm_hide b p s : calm s -> calm (hide closes b p s).
Proof. intros [K C T D]. split; cbn; rewrite ?K, ?C; auto. apply others_nodup, D. Qed.
Lemma hide_open b p s : w_open (hide closes b p s) = others p (w_open s).
Proof. reflexivity. Qed.
Lemma confirm_open yes s p : w_open (confirm_and_hide yes s p) = if closes_now confirms yes p then others p (w_open s) else w_open s.
Proof. unfold Popup.confirm_and_hide, closes_now. destruct (confirms p), (yes p); reflexivity. Qed.
Lemma confirm_calls yes s p : w_calls (confirm_and_hide yes s p) = w_calls s ++ closing confirms closes yes p.
Proof. unfold Popup.confirm_and_hide, closing, closes_now. destruct (confirms p), (yes p); cbn; destruct (closes p); cbn; rewrite ?app_nil_r, <- ?app_assoc; reflexivity. Qed.
Lemma calm_confirm yes s p : calm s -> calm (confirm_and_hide yes s p).
Proof. intros C. unfold Popup.confirm_and_hide. assert (calm (mkWindow (w_open s) (w_visible s) (w_keys s) (w_clicks s) (w_timers s) (w_calls s ++ [Asked p]))) by (destruct C; split; auto). destruct (confirms p), (yes p); auto using calm_hide. Qed.
Lemma fold_confirm yes l : forall s, calm s -> calm (fold_left (confirm_and_hide yes) l s)
  /\ w_calls (fold_left (confirm_and_hide yes) l s) = w_calls s ++ flat_map (closing confirms closes yes) l
  /\ (forall q, In q (w_open (fold_left (confirm_and_hide yes) l s)) <-> In q (w_open s) /\ (In q l -> closes_now confirms yes q = false)).
Proof.
  induction l as [|p l IH]; intros s C; cbn [fold_left flat_map].
  - rewrite app_nil_r. split; [exact C|]. split; [reflexivity|]. cbn. tauto.
  - destruct (IH _ (calm_confirm yes s p C)) as (H1 & H2 & H3). split; [exact H1|]. split; [rewrite H2, confirm_calls, <- app_assoc; reflexivity|].
    intros q. rewrite H3, confirm_open. cbn [In]. destruct (closes_now confirms yes p) eqn:E.
    + rewrite others_in. split; [intros [[A B] X]; split; auto; intros [->|I]; [congruence | auto] | intros [A X]; split; [split; auto | auto]]. intros ->. rewrite X in E; [discriminate | auto].
    + split; [intros [A X]; split; auto; intros [->|I]; auto | intros [A X]; split; auto].
Qed.
Lemma calm_step s o : calm s -> (forall p, o <> Show p) -> calm (step s o).
Proof.
  intros C N. destruct o as [p|p| |yes| |yes|p yes]; cbn [Popup.step].
  - now elim (N p).
  - apply calm_hide, C.
  - unfold timer. rewrite (c_timers s C). exact C.
  - apply fold_confirm, C.
  - destruct C; split; auto.
  - apply fold_confirm, C.
  - destruct (existsb _ _ && _); [apply calm_confirm, C | exact C].
Qed.
Lemma calm_show s p : calm s -> calm (timer (show closes p s)) /\ w_open (timer (show closes p s)) = others p (w_open s) ++ [p] /\ w_visible (timer (show closes p s)) = true /\ w_calls (timer (show closes p s)) = w_calls s.
Proof.
  intros [K C T D]. unfold show, timer. cbn. rewrite T, K, C. cbn. rewrite app_nil_r. split; [|auto]. split; cbn; auto. apply nodup_snoc; [apply others_nodup, D|]. rewrite others_in. tauto.
Qed.
Lemma run_show h p : run (h ++ [Show p; Timer]) = timer (show closes p (run h)).
Proof. change [Show p; Timer] with ([Show p] ++ [Timer]). rewrite app_assoc, !run_snoc. reflexivity. Qed.
Lemma calm_run h : settled h -> calm (run h).
Proof.
  induction 1 as [|h p S IH|h o S IH N].
  - split; auto. constructor.
  - rewrite run_show. apply calm_show, IH.
  - rewrite run_snoc. apply calm_step; auto.
Qed.

(* A popup which has been opened can be seen *)
Theorem C101_open h p : settled h -> seen (run (h ++ [Show p; Timer])) p.
Proof. intros S. rewrite run_show. destruct (calm_show (run h) p (calm_run h S)) as (_ & E & V & _). split; [rewrite E, in_app_iff; right; left; reflexivity | exact V]. Qed.
(* The escape key and clicks outside try to close each popup which is open once, in the order of opening, and no others; those which ask and get no for an answer stay open *)
Theorem C101_close h yes o : settled h -> o = Escape yes \/ o = Outside yes ->
  w_calls (run (h ++ [o])) = w_calls (run h) ++ flat_map (closing confirms closes yes) (w_open (run h))
  /\ (forall p, In p (w_open (run (h ++ [o]))) <-> In p (w_open (run h)) /\ closes_now confirms yes p = false) /\ NoDup (w_open (run h)).
Proof.
  intros S E. assert (C := calm_run h S). rewrite run_snoc. destruct (fold_confirm yes (w_open (run h)) (run h) C) as (_ & H2 & H3).
  assert (X : step (run h) o = fold_left (confirm_and_hide yes) (w_open (run h)) (run h)) by (destruct E as [-> | ->]; cbn [Popup.step]; rewrite ?(c_keys _ C), ?(c_clicks _ C); reflexivity).
  rewrite X. split; [exact H2|]. split; [|apply C]. intros p. rewrite H3. tauto.
Qed.
(* The close button tries to close its popup only *)
Theorem C101_button h p yes : settled h -> seen (run h) p ->
  w_calls (run (h ++ [Button p yes])) = w_calls (run h) ++ closing confirms closes yes p
  /\ forall q, In q (w_open (run (h ++ [Button p yes]))) <-> In q (w_open (run h)) /\ (q = p -> closes_now confirms yes p = false).
Proof.
  intros S [I V]. rewrite run_snoc. cbn [Popup.step]. assert (E : existsb (Nat.eqb p) (w_open (run h)) = true) by (apply existsb_exists; exists p; split; [exact I | apply Nat.eqb_refl]).
  rewrite E, V. cbn. split; [apply confirm_calls|]. intros q. rewrite confirm_open. destruct (closes_now confirms yes p).
  - rewrite others_in. split; [intros [A B]; split; auto; congruence | intros [A B]; split; auto; intros ->; now discriminate B].
  - tauto.
Qed.
(* The return key reaches the popups which are open, once, and no others *)
Theorem C101_enter h : settled h -> w_calls (run (h ++ [Enter])) = w_calls (run h) ++ map Returned (w_open (run h)) /\ w_open (run (h ++ [Enter])) = w_open (run h).
Proof. intros S. rewrite run_snoc. cbn. rewrite (c_keys _ (calm_run h S)). auto. Qed.

(* As long as no popup is opened while another one is open, the one which is open is seen *)
Definition shown (s : window) : Prop := (forall p q, In p (w_open s) -> In q (w_open s) -> p = q) /\ (forall p, In p (w_open s) -> w_visible s = true).
Lemma shown_hide b p s : shown s -> shown (hide closes b p s) \/ exists q, In q (w_open s) /\ q <> p.
Proof.
  intros [U V]. destruct (others p (w_open s)) as [|q l] eqn:E.
  - left. split; cbn; rewrite E; cbn; tauto.
  - right. exists q. apply others_in. rewrite E. left. reflexivity.
Qed.
Lemma shown_confirm yes s p : shown s -> In p (w_open s) -> shown (confirm_and_hide yes s p).
Proof.
  intros [U V] I. unfold Popup.confirm_and_hide. set (s' := mkWindow (w_open s) (w_visible s) (w_keys s) (w_clicks s) (w_timers s) (w_calls s ++ [Asked p])). assert (S' : shown s') by (split; auto).
  assert (K : forall x, shown x -> w_open x = w_open s -> shown (hide closes false p x)).
  { intros x Sx Ex. destruct (shown_hide false p x Sx) as [H|(q & Iq & Nq)]; [exact H|]. rewrite Ex in Iq. elim Nq. auto. }
  destruct (confirms p), (yes p); auto; apply K; auto; split; auto.
Qed.
Lemma alone_prefix h h' : alone confirms closes (h ++ h') -> alone confirms closes h.
Proof. intros A h1 o h2 p E. apply (A h1 o (h2 ++ h')). rewrite E, <- app_assoc. reflexivity. Qed.
Lemma few s : calm s -> shown s -> w_open s = [] \/ exists p, w_open s = [p].
Proof.
  intros [_ _ _ D] [U _]. destruct (w_open s) as [|p [|q l]] eqn:E; eauto. exfalso. assert (p = q) as -> by (apply U; cbn; auto). inversion D as [|? ? N _]. apply N. left. reflexivity.
Qed.
Lemma shown_run h : settled h -> alone confirms closes h -> shown (run h).
Proof.
  intros S. assert (C := fun h => calm_run h). induction S as [|h p S IH|h o S IH N]; intros A.
  - split; cbn; tauto.
  - assert (O : forall q, In q (w_open (run h)) -> q = p) by (apply (A h (Show p) [Timer] p); auto). rewrite run_show. destruct (calm_show (run h) p (C h S)) as (_ & E & V & _).
    assert (X : others p (w_open (run h)) = []). { destruct (others p (w_open (run h))) as [|q l] eqn:F; [reflexivity|]. assert (In q (others p (w_open (run h)))) as I by (rewrite F; left; reflexivity). apply others_in in I as [I Nq]. elim Nq. auto. }
    rewrite X in E. split; rewrite E; cbn; [intuition congruence | intros _ _; exact V].
  - specialize (IH (alone_prefix _ _ A)). rewrite run_snoc. assert (K : forall yes l, l = w_open (run h) -> shown (fold_left (confirm_and_hide yes) l (run h))).
    { intros yes l ->. destruct (few _ (C h S) IH) as [E|(p & E)]; rewrite E; cbn [fold_left]; [exact IH|]. apply shown_confirm; [exact IH | rewrite E; left; reflexivity]. }
    destruct o as [p|p| |yes| |yes|p yes]; cbn [Popup.step].
    + now elim (N p).
    + destruct (shown_hide false p _ IH) as [H|(q & I & Nq)]; [exact H|]. elim Nq. apply (A h (Hide p) [] p); auto.
    + unfold timer. rewrite (c_timers _ (C h S)). exact IH.
    + apply K, (c_keys _ (C h S)).
    + exact IH.
    + apply K, (c_clicks _ (C h S)).
    + destruct (existsb (Nat.eqb p) (w_open (run h)) && w_visible (run h)) eqn:E; [|exact IH]. apply andb_true_iff in E as [E _]. apply existsb_exists in E as (q & I & E). apply Nat.eqb_eq in E as <-. apply shown_confirm; auto.
Qed.
Theorem C101_seen_partial h p : settled h -> alone confirms closes h -> In p (w_open (run h)) -> seen (run h) p.
Proof. intros S A I. split; [exact I|]. eapply (proj2 (shown_run h S A)), I. Qed.
End Options.

(* Not proved, because it does not hold: a popup which is open is seen. Closing one popup makes the others invisible; a click then asks whether to close a popup nobody sees. *)
Theorem C101_seen_refuted : ~ (forall confirms closes h p, settled h -> In p (w_open (run confirms closes h)) -> seen (run confirms closes h) p).
Proof.
  intros H. specialize (H (fun _ => true) (fun _ => true) [Show 0; Timer; Show 1; Timer; Hide 1] 0%nat)%nat. destruct H as [_ V].
  - apply (settled_other [Show 0; Timer; Show 1; Timer]%nat (Hide 1%nat)); [|discriminate]. exact (settled_show [Show 0; Timer]%nat 1%nat (settled_show [] 0%nat settled_nil)).
  - left. reflexivity.
  - discriminate.
Qed.
(* Not proved, because it does not hold: only popups which are open are told to have been closed. A popup closed before its timeout is told again with the next click. *)
Theorem C101_late_refuted : ~ (forall confirms closes h yes p, ~ In p (w_open (run confirms closes h)) -> ~ In (Closed p) (skipn (List.length (w_calls (run confirms closes h))) (w_calls (run confirms closes (h ++ [Outside yes]))))).
Proof. intros H. apply (H (fun _ => false) (fun _ => true) [Show 0; Hide 0; Timer]%nat (fun _ => true) 0%nat); cbn; tauto. Qed.
(* A popup which asks (0) and one which does not (1): the first stays if the user says no *)
Example ex_popup :
  let confirms := Nat.eqb 0 in let closes := fun _ : nat => true in
  w_calls (run confirms closes [Show 0; Timer; Escape (fun _ => false); Outside (fun _ => true)]) = [Asked 0; Asked 0; Closed 0]%nat
  /\ w_open (run confirms closes [Show 0; Timer; Show 1; Timer; Escape (fun _ => false)]) = [0]%nat
  /\ w_calls (run confirms closes [Show 0; Timer; Show 1; Timer; Enter; Button 1 (fun _ => false)]) = [Returned 0; Returned 1; Closed 1]%nat
  /\ w_calls (run confirms closes [Show 1; Timer; Hide 1; Outside (fun _ => true)]) = [Closed 1]%nat.
Proof. vm_compute. auto. Qed.
Example ex_popup_alone : settled [Show 0; Timer; Escape (fun _ => true); Show 1; Timer]%nat /\ alone (Nat.eqb 0) (fun _ => true) [Show 0; Timer; Escape (fun _ => true); Show 1; Timer]%nat.
Proof.
  split.
  - assert (A : settled [Show 0; Timer]%nat) by exact (settled_show [] 0%nat settled_nil).
    assert (B : settled [Show 0; Timer; Escape (fun _ => true)]%nat) by (apply (settled_other [Show 0; Timer]%nat (Escape (fun _ => true)) A); discriminate).
    exact (settled_show [Show 0; Timer; Escape (fun _ => true)]%nat 1%nat B).
  - intros h1 o h2 p E [-> | ->] q I; (destruct h1 as [|a1 [|a2 [|a3 [|a4 [|a5 h1]]]]]; try discriminate; injection E; intros; subst; vm_compute in I; try tauto; try (destruct h1; discriminate)).
Qed.
Print Assumptions C101_open. Print Assumptions C101_close. Print Assumptions C101_button. Print Assumptions C101_enter. Print Assumptions C101_seen_partial. Print Assumptions C101_seen_refuted. Print Assumptions C101_late_refuted.
