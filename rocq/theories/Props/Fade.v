(* C116: morphing in the virtual Kemper. *)
From Coq Require Import QArith Qround Qabs Lia.
From Verif.Lib Require Import Base.
From Verif.Model Require Import Fade.
From Verif.Spec Require Import Fade.
Local Open Scope list_scope.
Local Open Scope Z_scope.

Lemma run_snoc bug h o : run bug (h ++ [o]) = step bug (run bug h) o.
Proof. unfold run. rewrite fold_left_app. reflexivity. Qed.

(* The step is 409.6 *)
Lemma step_value : (fade_step 4 == 2048 # 5)%Q.
Proof. reflexivity. Qed.
Lemma near d : negb (Qle_bool (fade_step 4) (Qabs (inject_Z d))) = (Z.abs d <=? 409).
Proof.
  destruct (Z.leb_spec (Z.abs d) 409) as [L|L].
  - apply negb_true_iff. destruct (Qle_bool _ _) eqn:E; [|reflexivity]. apply Qle_bool_iff in E. rewrite step_value in E. unfold Qle, inject_Z in E. cbn in E. lia.
  - apply negb_false_iff. apply Qle_bool_iff. rewrite step_value. unfold Qle, inject_Z. cbn. lia.
Qed.
Lemma up v : round (inject_Z v + fade_step 4) = v + 410.
Proof. unfold round. rewrite step_value. unfold Qfloor, Qplus, inject_Z. cbn [Qnum Qden]. rewrite !Z.mul_1_r. cbn. symmetry. apply Z.div_unique with 1; lia. Qed.
Lemma down v : round (inject_Z v + - fade_step 4) = v - 410.
Proof. unfold round. rewrite step_value. unfold Qfloor, Qplus, Qopp, inject_Z. cbn [Qnum Qden]. rewrite !Z.mul_1_r. cbn. symmetry. apply Z.div_unique with 9; lia. Qed.
Lemma update_value s : update s = match target s with
  | None => s
  | Some t => if value s =? t then set_target None s else set_value (if Z.abs (t - value s) <=? 409 then t else if 0 <? t - value s then value s + 410 else value s - 410) s end.
Proof.
  unfold update. destruct (target s) as [t|]; [|reflexivity]. destruct (value s =? t); [reflexivity|]. cbn zeta. rewrite near.
  destruct (Z.abs (t - value s) <=? 409); [reflexivity|]. destruct (0 <? t - value s); [rewrite up|rewrite down]; reflexivity.
Qed.

(* The morph state is always one of 0 to 16383. *)
Theorem C116_range : forall bug h, Forall sensible h -> 0 <= value (run bug h) <= 16383.
Proof.
  intros bug h F. assert (H : 0 <= value (run bug h) <= 16383 /\ (target (run bug h) = None \/ target (run bug h) = Some 0 \/ target (run bug h) = Some 16383)); [|apply H].
  induction h as [|o h IH] using rev_ind; [cbn; split; [lia|auto]|]. apply Forall_app in F. destruct F as [F G]. inversion G as [|? ? S _]; subst. destruct (IH F) as [V T]. clear IH F G.
  rewrite run_snoc. set (s := run bug h) in *. clearbody s.
  assert (Tr : 0 <= value (trigger bug s) <= 16383 /\ (target (trigger bug s) = None \/ target (trigger bug s) = Some 0 \/ target (trigger bug s) = Some 16383)).
  { unfold trigger. destruct bug; [auto|]. cbn. split; [exact V|]. destruct (8191 <? value s); auto. }
  destruct o as [| |r|v|b]; cbn [step].
  - rewrite update_value. destruct (target s) as [t|] eqn:E; [|rewrite E; auto]. assert (R : 0 <= t <= 16383) by (destruct T as [T|[T|T]]; [discriminate|injection T as ->; lia|injection T as ->; lia]).
    destruct (Z.eqb_spec (value s) t); cbn; [split; [lia|auto]|]. rewrite E. split; [|destruct T as [T|T]; [discriminate|auto]].
    destruct (Z.leb_spec (Z.abs (t - value s)) 409); [exact R|]. destruct (Z.ltb_spec 0 (t - value s)); lia.
  - exact Tr.
  - cbn zeta. destruct (match last s with Some l => l =? r | None => false end); rewrite ?andb_true_r, ?andb_false_r; [destruct (rig_morph s)|]; cbn; [exact Tr|auto|split; [lia|exact T]].
  - cbn in *. auto.
  - cbn. auto.
Qed.
Print Assumptions C116_range.

(* With the option the web application uses, the morph state is what was given directly, or 0 after a rig was changed: morph buttons do nothing. *)
Theorem C116_bug : forall h, value (run true h) = fst (given h).
Proof.
  assert (H : forall h, target (run true h) = None /\ (value (run true h), last (run true h)) = given h).
  { induction h as [|o h [T G]] using rev_ind; [auto|]. rewrite run_snoc. unfold given in *. rewrite fold_left_app. cbn [fold_left]. rewrite <- G. set (s := run true h) in *. clearbody s.
    destruct o as [| |r|v|b]; cbn [step fst snd]; try (cbn; auto).
    - rewrite update_value, T. auto.
    - cbn zeta. unfold trigger. destruct (last s) as [l|]; cbn [andb]; [destruct (l =? r)|]; rewrite ?andb_true_r, ?andb_false_r; try destruct (rig_morph s); cbn; auto. }
  intros h. destruct (H h) as [_ <-]. reflexivity.
Qed.
Print Assumptions C116_bug.

Lemma fade s n : 0 <= value s <= 16383 -> let t := if 8191 <? value s then 0 else 16383 in let u := Nat.iter n update (trigger false s) in
  value u = faded (value s) n /\ (target u = Some t \/ target u = None /\ value u = t).
Proof.
  intros R t. induction n as [|n IH]; cbn zeta in *.
  - change (Nat.iter 0 update (trigger false s)) with (trigger false s). split; [|auto]. cbn. unfold faded. destruct (8191 <? value s); lia.
  - change (Nat.iter (S n) update (trigger false s)) with (update (Nat.iter n update (trigger false s))). set (u := Nat.iter n update (trigger false s)) in *. clearbody u.
    destruct IH as [E T]. rewrite update_value. unfold faded in *. subst t. destruct (8191 <? value s).
    + destruct T as [T|[T A]]; rewrite T; [|split; [lia|auto]]. destruct (Z.eqb_spec (value u) 0) as [A|A]; cbn [value target set_target set_value]; [split; [lia|auto]|].
      split; [|auto]. destruct (Z.leb_spec (Z.abs (0 - value u)) 409); [lia|]. destruct (Z.ltb_spec 0 (0 - value u)); lia.
    + destruct T as [T|[T A]]; rewrite T; [|split; [lia|auto]]. destruct (Z.eqb_spec (value u) 16383) as [A|A]; cbn [value target set_target set_value]; [split; [lia|auto]|].
      split; [|auto]. destruct (Z.leb_spec (Z.abs (16383 - value u)) 409); [lia|]. destruct (Z.ltb_spec 0 (16383 - value u)); lia.
Qed.
Lemma updates bug n : forall s, fold_left (step bug) (repeat Update n) s = Nat.iter n update s.
Proof. induction n as [|n IH]; intros s; [reflexivity|]. cbn [repeat fold_left step]. rewrite IH. clear. induction n as [|n IH]; [reflexivity|]. cbn [Nat.iter] in *. change (update (Nat.iter n update (update s)) = update (update (Nat.iter n update s))). rewrite IH. reflexivity. Qed.

(* Without the bug, after any history, pressing the morph button fades to the end which is farther away, in even steps, and stays there. *)
Theorem C116_fade : forall h n, Forall sensible h -> value (run false (h ++ Press :: repeat Update n)) = faded (value (run false h)) n.
Proof.
  intros h n F. unfold run at 1. rewrite fold_left_app. cbn [fold_left step]. rewrite updates. apply (fade (run false h) n). apply C116_range. exact F.
Qed.
Print Assumptions C116_fade.

(* It is there after 40 updates, and pressing again leads back. *)
Theorem C116_end : forall h n m, Forall sensible h -> (40 <= n)%nat -> (40 <= m)%nat -> let v := if 8191 <? value (run false h) then 0 else 16383 in
  value (run false (h ++ Press :: repeat Update n)) = v /\ value (run false ((h ++ Press :: repeat Update n) ++ Press :: repeat Update m)) = 16383 - v.
Proof.
  intros h n m F N M. cbn zeta. pose proof (C116_range false h F) as R.
  assert (A : value (run false (h ++ Press :: repeat Update n)) = if 8191 <? value (run false h) then 0 else 16383).
  { rewrite C116_fade by exact F. unfold faded. destruct (Z.ltb_spec 8191 (value (run false h))); lia. }
  split; [exact A|]. rewrite C116_fade.
  - rewrite A. unfold faded. destruct (8191 <? value (run false h)); match goal with |- context [8191 <? ?x] => destruct (Z.ltb_spec 8191 x) end; lia.
  - apply Forall_app. split; [exact F|]. constructor; [exact I|]. apply Forall_forall. intros x X. apply repeat_spec in X. subst. exact I.
Qed.
Print Assumptions C116_end.

Lemma kept bug h : last (run bug h) = last_rig h /\ rig_morph (run bug h) = option_on h.
Proof.
  induction h as [|o h [A B]] using rev_ind; [auto|]. rewrite run_snoc. unfold last_rig, option_on in *. rewrite !fold_left_app. cbn [fold_left]. set (s := run bug h) in *. clearbody s.
  destruct o as [| |r|v|b]; cbn [step].
  - rewrite update_value. destruct (target s); [|auto]. destruct (value s =? z); cbn; auto.
  - unfold trigger. destruct bug; cbn; auto.
  - cbn zeta. split; [reflexivity|]. destruct (match last s with Some l => l =? r | None => false end); destruct (rig_morph s) eqn:E; unfold trigger; destruct bug; cbn; congruence.
  - cbn. auto.
  - cbn. auto.
Qed.
(* The button of the current rig acts as the morph button, if the option is on, and does nothing otherwise. The button of another one begins at 0. *)
Theorem C116_rig : forall bug h r,
  (last_rig h = Some r -> option_on h = true -> value (run bug (h ++ [Rig r])) = value (run bug h) /\ target (run bug (h ++ [Rig r])) = target (run bug (h ++ [Press]))) /\
  (last_rig h = Some r -> option_on h = false -> run bug (h ++ [Rig r]) = run bug h) /\
  (last_rig h <> Some r -> value (run bug (h ++ [Rig r])) = 0).
Proof.
  intros bug h r. destruct (kept bug h) as [A B]. rewrite !run_snoc. set (s := run bug h) in *. clearbody s. cbn [step]. cbn zeta. rewrite A, B. split; [intros L O|split; [intros L O|intros L]].
  - rewrite L, Z.eqb_refl, O. cbn. unfold trigger. destruct bug; split; reflexivity.
  - rewrite L, Z.eqb_refl, O. cbn. destruct s. cbn in *. congruence.
  - destruct (last_rig h) as [l|]; [|rewrite andb_false_r; reflexivity]. destruct (Z.eqb_spec l r); [subst; contradiction|]. rewrite andb_false_r. reflexivity.
Qed.
Print Assumptions C116_rig.

(* The full claim fails. A fade does not take 4 seconds: the virtual client is updated every 5 milliseconds, so it is over after 200. *)
Theorem C116_time_refuted : ~ (forall h n, Forall sensible h -> value (run false h) = 0 -> Z.of_nat n * 5 < 4000 -> value (run false (h ++ Press :: repeat Update n)) < 16383).
Proof. intros H. specialize (H [] 40%nat (Forall_nil _) eq_refl ltac:(lia)). revert H. vm_compute. discriminate. Qed.
(* A fade goes on when another rig is selected. *)
Theorem C116_new_rig_refuted : ~ (forall h r n, Forall sensible h -> last_rig h <> Some r -> value (run false (h ++ Rig r :: repeat Update n)) = 0).
Proof. intros H. specialize (H [Rig 1; Press] 2 40%nat ltac:(repeat constructor) ltac:(discriminate)). revert H. vm_compute. discriminate. Qed.
(* The checkbox is not checked although the option is on. *)
Theorem C116_checkbox_refuted : ~ (forall bug h, checked (run bug h) = option_on h).
Proof. intros H. specialize (H true []). discriminate. Qed.
Print Assumptions C116_time_refuted.
Print Assumptions C116_new_rig_refuted.
Print Assumptions C116_checkbox_refuted.

Example ex_fade : let h := [Rig 3; Slide 1000; Rig 3; Update; Update; Slide 9000; Check false; Rig 3] in Forall sensible h /\ last_rig h = Some 3 /\ option_on h = false /\
  value (run false h) = 9000 /\ value (run false [Rig 3; Slide 1000; Rig 3; Update; Update]) = 1820 /\ value (run false (h ++ Press :: repeat Update 3)) = 7770 /\ value (run true (h ++ [Press; Update; Update])) = 9000.
Proof. cbn zeta. split; [repeat constructor; cbn; lia|]. vm_compute. repeat split; reflexivity. Qed.
