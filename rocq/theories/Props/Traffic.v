(* C112: the traffic of the virtual Kemper. *)
From Verif.Lib Require Import Base.
From Verif.Model Require Import Traffic.
From Verif.Spec Require Import Traffic.
Local Open Scope list_scope.
Local Open Scope Z_scope.

Section Props.
Context {message : Type}.
Variable proto param def : message -> bool.
Notation run := (run proto param def).
Notation step := (step proto param def).
Implicit Types h : list (event (message := message)).

Lemma run_snoc t h e : run t (h ++ [e]) = step (run t h) e.
Proof. unfold Traffic.run. rewrite fold_left_app. reflexivity. Qed.
Lemma step_in s m : step s (In_ m) = message_received m s.
Proof. simpl. unfold do_send, parse_parameters. destruct (proto m), (param m), (def m); reflexivity. Qed.
Lemma ins_app a b : @ins message (a ++ b) = ins a ++ ins b.
Proof. induction a as [|[m|m|n] a IH]; simpl; congruence. Qed.
Lemma outs_app a b : @outs message (a ++ b) = outs a ++ outs b.
Proof. induction a as [|[m|m|n] a IH]; simpl; congruence. Qed.

(* C112: every message, whatever the virtual Kemper makes of it, is shown exactly once, in order: those which have been told and those which wait for the timer are all of them *)
Theorem C112_all t h : concat (map messages_received (shown (run t h))) ++ received (run t h) = ins h /\ concat (map messages_sent (shown (run t h))) ++ sent (run t h) = outs h.
Proof.
  induction h as [|e h [A B]] using rev_ind; [split; reflexivity|]. rewrite run_snoc, ins_app, outs_app, <- A, <- B. destruct e as [m|m|n].
  - rewrite step_in. simpl. rewrite app_assoc, app_nil_r. split; reflexivity.
  - simpl. rewrite app_assoc, app_nil_r. split; reflexivity.
  - simpl. rewrite !map_app, !concat_app. simpl. rewrite !app_nil_r. split; reflexivity.
Qed.

(* C112: at the timer, the messages since the last one are told *)
Lemma fold_quiet w : forall s, no_timer w -> fold_left step w s = {| sent := sent s ++ outs w; received := received s ++ ins w; last_time := last_time s; shown := shown s |}.
Proof.
  induction w as [|e w IH]; intros s N; [simpl; rewrite !app_nil_r; destruct s; reflexivity|]. cbn [fold_left]. rewrite IH by (intros n I; apply (N n); right; exact I).
  destruct e as [m|m|n]; [rewrite step_in| |destruct (N n); left; reflexivity]; simpl; rewrite <- app_assoc; reflexivity.
Qed.
Theorem C112_batch t h a w b : no_timer w ->
  exists d, shown (run t (h ++ Timer a :: w ++ [Timer b])) = shown (run t (h ++ [Timer a])) ++ [d] /\ messages_received d = ins w /\ messages_sent d = outs w /\
  receive_rate d = rate (length (ins w)) b a /\ send_rate d = rate (length (outs w)) b a.
Proof.
  intros N. replace (h ++ Timer a :: w ++ [Timer b]) with (((h ++ [Timer a]) ++ w) ++ [Timer b]) by (rewrite <- !app_assoc; reflexivity). rewrite run_snoc.
  assert (E : run t ((h ++ [Timer a]) ++ w) = fold_left step w (run t (h ++ [Timer a]))) by (unfold Traffic.run; rewrite fold_left_app; reflexivity).
  rewrite E, fold_quiet by exact N. rewrite run_snoc. simpl. eexists. split; [reflexivity|]. simpl. auto.
Qed.

(* C112: the rates are right if the timer comes after exactly one second *)
Theorem C112_rate_partial t h a w : no_timer w -> exists l d, shown (run t (h ++ Timer a :: w ++ [Timer (a + 1000)])) = l ++ [d] /\
  receive_rate d = Z.of_nat (length (ins w)) /\ send_rate d = Z.of_nat (length (outs w)) /\
  per_second (length (ins w)) 1000 (receive_rate d) /\ per_second (length (outs w)) 1000 (send_rate d).
Proof.
  intros N. destruct (C112_batch t h a w (a + 1000) N) as (d & A & _ & _ & R & S). exists (shown (run t (h ++ [Timer a]))), d. split; [exact A|].
  assert (X : forall n, rate n (a + 1000) a = Z.of_nat n).
  { intros n. unfold rate, js_round. replace (a + 1000 - a) with 1000 by lia. replace (2 * (Z.of_nat n * 1000) + 1000) with (Z.of_nat n * (2 * 1000) + 1000) by lia.
    rewrite Z.div_add_l by lia. rewrite (Z.div_small 1000) by lia. lia. }
  rewrite R, S, !X. unfold per_second. repeat split; lia.
Qed.

(* C112 (refuted): in all other cases the factor is upside down: a late timer shows too many messages per second instead of the same number or less *)
Theorem C112_rate_refuted n d : (0 < n)%nat -> 2000 <= d -> forall a, Z.of_nat n * 2 <= rate n (a + d) a /\ ~ per_second n d (rate n (a + d) a).
Proof.
  intros N D a. assert (L : Z.of_nat n * 2 <= rate n (a + d) a).
  { unfold rate, js_round. replace (a + d - a) with d by lia. apply Z.div_le_lower_bound; [lia|]. nia. }
  split; [exact L|]. unfold per_second. intros P. nia.
Qed.
End Props.
Print Assumptions C112_all.
Print Assumptions C112_batch.
Print Assumptions C112_rate_partial.
Print Assumptions C112_rate_refuted.

(* Ten messages in two seconds (the browser slows down timers of tabs in the background) are shown as 20 per second *)
Example ex_traffic : let h := repeat (In_ 7%nat) 10 in
  map receive_rate (shown (run (fun _ => false) (fun m => Nat.eqb m 7) (fun _ => false) 5000 (h ++ [Timer 7000] ++ h ++ [Timer 8000]))) = [0; 20; 10] /\
  map receive_rate (shown (run (fun _ => false) (fun _ => false) (fun _ => false) 5000 ([Out 1%nat; In_ 2%nat; Timer 6000]))) = [0; 1].
Proof. vm_compute. split; reflexivity. Qed.
