(* C105: tabs with code. *)
From Coq Require Import String.
From Verif.Lib Require Import Base.
From Verif.Model Require Import CodeTab.
From Verif.Spec Require Import CodeTab.
Local Open Scope list_scope.

Lemma run_snoc h o : run (h ++ [o]) = step (run h) o.
Proof. unfold run. apply fold_left_snoc. Qed.
Lemma run_two h o : run (h ++ [o; Fire]) = fire (step (run h) o).
Proof. change [o; Fire] with ([o] ++ [Fire]). rewrite app_assoc, !run_snoc. reflexivity. Qed.

(* The mark tells exactly whether there is something typed which has not been applied, whatever happens *)
Theorem C105_mark h : k_mark (run h) = snd (unapplied false h).
Proof.
  assert (X : fst (unapplied false h) = (match k_code (run h) with Some _ => true | None => false end) /\ snd (unapplied false h) = k_mark (run h)); [|symmetry; apply X].
  induction h as [|o h [IH1 IH2]] using rev_ind; [split; reflexivity|]. rewrite run_snoc. unfold unapplied in *. rewrite fold_left_snoc. destruct (fold_left _ h (false, false)) as [b1 b2]. cbn [fst snd] in *. subst b1 b2.
  destruct o as [c|t| | |[]]; cbn [step]; auto.
  - unfold fire. destruct (k_timers (run h)) as [|c l]; [auto|]. cbn. destruct (k_mark (run h)), (k_code (run h)); split; reflexivity.
  - destruct (k_code (run h)) eqn:E; cbn; rewrite ?E; auto.
  - destruct (k_code (run h)) eqn:E; cbn; rewrite ?E; auto.
Qed.
(* Applying takes over what is in the tab, also if the parser does not accept it *)
Theorem C105_apply h ok : k_code (run h) <> None -> k_code (run (h ++ [Apply ok])) = Some (k_text (run h)).
Proof. intros N. rewrite run_snoc. cbn [step]. destruct (k_code (run h)); [|congruence]. destruct ok; reflexivity. Qed.
(* Nothing else the user does in the tab changes the code *)
Theorem C105_only h o : (forall c, o <> Open c) -> (forall ok, o <> Apply ok) -> k_code (run (h ++ [o])) = k_code (run h).
Proof.
  intros N1 N2. rewrite run_snoc. destruct o as [c|t| | |ok]; cbn [step]; auto; [now elim (N1 c) | | now elim (N2 ok)]. unfold fire. destruct (k_timers (run h)); reflexivity.
Qed.
Record quiet (h : list op) (s : tab) : Prop := { q_timers : k_timers s = []; q_text : k_text s = expected h; q_code : forall c, k_code s = Some c -> k_mark s = false -> k_text s = c }.
Lemma expected_snoc h o : expected (h ++ [o]) = match o with Open c => c | Type_ t => t | _ => expected h end.
Proof. unfold expected. rewrite fold_left_snoc. reflexivity. Qed.
Lemma expected_two h o : expected (h ++ [o; Fire]) = expected (h ++ [o]).
Proof. change [o; Fire] with ([o] ++ [Fire]). rewrite app_assoc. rewrite (expected_snoc (h ++ [o])). reflexivity. Qed.
Lemma quiet_run h : calm h -> quiet h (run h).
Proof.
  induction 1 as [|h t C [T X K]|h o C [T X K]].
  - split; auto. discriminate.
  - rewrite run_snoc. split; cbn [step k_timers k_text k_code k_mark]; [exact T | rewrite expected_snoc; reflexivity | discriminate].
  - rewrite run_two. destruct o as [c|t| | |ok]; cbn [step].
    + unfold fire, set_config. cbn. rewrite T. cbn. split; cbn; [reflexivity | rewrite expected_two, expected_snoc; reflexivity | intros c' [= <-]; reflexivity].
    + unfold fire. cbn. rewrite T. split; cbn; [auto | rewrite expected_two, expected_snoc; reflexivity | discriminate].
    + unfold fire. cbn. rewrite T. cbn. split; cbn; [reflexivity | rewrite expected_two, expected_snoc; exact X | destruct (k_mark (run h)); [discriminate | exact K]].
    + unfold fire. rewrite T. cbv beta iota. rewrite ?T. split; [auto | rewrite expected_two, expected_snoc; exact X | exact K].
    + destruct (k_code (run h)) as [c|] eqn:Ec.
      * destruct ok; unfold fire, set_config; cbn; rewrite T; cbn; (split; cbn; [first [reflexivity | exact T] | rewrite expected_two, expected_snoc; exact X | intros c' [= <-]; reflexivity]).
      * unfold fire. rewrite T. split; [exact T | rewrite expected_two, expected_snoc; exact X | congruence].
Qed.
(* A tab contains what the user has typed, or the code which has been opened since *)
Theorem C105_text_partial h : calm h -> k_text (run h) = expected h.
Proof. intros C. apply quiet_run, C. Qed.
(* A tab which is not marked contains the code of the configuration *)
Theorem C105_shown_partial h c : calm h -> k_code (run h) = Some c -> k_mark (run h) = false -> k_text (run h) = c.
Proof. intros C. apply (q_code h _ (quiet_run h C)). Qed.

(* Not proved, because it does not hold: what is typed stays. If it is typed after the tab has been chosen and before its timeout, it is overwritten. *)
Theorem C105_text_refuted : ~ (forall h, k_timers (run h) = [] -> k_text (run h) = expected h).
Proof. intros H. specialize (H [Open "a"; Fire; Show; Type_ "b"; Fire]%string eq_refl). vm_compute in H. discriminate. Qed.
(* Not proved, because it does not hold: a tab which is not marked contains the code of the configuration. If it is chosen between opening a configuration and the timeout, the code of the former one appears;
   applying it then overwrites the code of the new one. *)
Theorem C105_shown_refuted : ~ (forall h c, k_timers (run h) = [] -> k_code (run h) = Some c -> k_mark (run h) = false -> k_text (run h) = c).
Proof. intros H. specialize (H [Open "a"; Fire; Open "b"; Show; Fire; Fire] "b" eq_refl eq_refl eq_refl)%string. vm_compute in H. discriminate. Qed.
Example ex_code : let h := [Open "a"; Fire; Show; Fire; Type_ "ab"; Apply false; Fire; Type_ "abc"; Apply true; Fire; Open "d"; Fire; Type_ "e"]%string in
  calm h /\ k_text (run h) = "e"%string /\ k_code (run h) = Some "d"%string /\ k_mark (run h) = true.
Proof.
  cbv zeta. split; [|vm_compute; auto]. assert (H := calm_nil). apply (calm_other _ (Open "a")) in H. apply (calm_other _ Show) in H. apply (calm_type _ "ab") in H. apply (calm_other _ (Apply false)) in H. apply (calm_type _ "abc") in H. apply (calm_other _ (Apply true)) in H. apply (calm_other _ (Open "d")) in H. apply (calm_type _ "e") in H. exact H.
Qed.
Print Assumptions C105_mark. Print Assumptions C105_apply. Print Assumptions C105_only. Print Assumptions C105_text_partial. Print Assumptions C105_shown_partial. Print Assumptions C105_text_refuted. Print Assumptions C105_shown_refuted.
