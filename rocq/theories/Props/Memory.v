(* C111: watching the memory. *)
From Coq Require Import String Ascii DecimalString DecimalZ DecimalFacts.
From Verif.Lib Require Import Base.
From Verif.Model Require Import Memory.
From Verif.Spec Require Import Memory.
Local Open Scope list_scope.
Local Open Scope Z_scope.

Lemma sapp_assoc a b c : ((a ++ b) ++ c = a ++ (b ++ c))%string.
Proof. induction a; simpl; congruence. Qed.
Lemma sapp_nil a : (a ++ "" = a)%string.
Proof. induction a; simpl; congruence. Qed.
Lemma slen_app a b : String.length (a ++ b) = (String.length a + String.length b)%nat.
Proof. induction a; simpl; congruence. Qed.
Fixpoint times (c : ascii) (n : nat) : string := match n with O => EmptyString | S n => String c (times c n) end.
Lemma fill_times s n c : fill s n c = (s ++ times c n)%string.
Proof. revert s; induction n as [|n IH]; intros s; simpl; [symmetry; apply sapp_nil|]. rewrite IH, sapp_assoc. reflexivity. Qed.
Lemma times_len c n : String.length (times c n) = n.
Proof. induction n; simpl; congruence. Qed.
Lemma times_get c n i x : String.get i (times c n) = Some x -> x = c.
Proof. revert i; induction n as [|n IH]; intros i; simpl; [discriminate|]. destruct i; [congruence|apply IH]. Qed.

(* C111: filling up keeps the text, appends only the character, and reaches exactly the length if the text is shorter *)
Theorem C111_fill s n c : exists t, fill_up_to s n c = (s ++ t)%string /\ (forall i x, String.get i t = Some x -> x = c) /\
  Z.of_nat (String.length (fill_up_to s n c)) = Z.max (Z.of_nat (String.length s)) n.
Proof.
  unfold fill_up_to. destruct (n <=? 0) eqn:E.
  - exists EmptyString. rewrite sapp_nil. split; [reflexivity|]. split; [intros [|i]; discriminate|lia].
  - exists (times c (Z.to_nat n - String.length s)). rewrite fill_times. split; [reflexivity|]. split; [apply times_get|]. rewrite slen_app, times_len. lia.
Qed.
Print Assumptions C111_fill.

Lemma decimal_digits n : decimal n (digits n).
Proof.
  exists (Z.to_int n). split; [|apply DecimalZ.of_to]. apply NilZero.isi; intros H; pose proof (DecimalZ.of_to n) as R; rewrite H in R; cbn in R; subst n; discriminate.
Qed.
Lemma nearest_spec a b : 0 <= a -> 0 < b -> 2 * Z.abs (a - nearest a b * b) <= b /\ 0 <= nearest a b.
Proof.
  intros A B. unfold nearest. pose proof (Z.div_mod a b ltac:(lia)) as D. pose proof (Z.mod_pos_bound a b B) as M. pose proof (Z.div_pos a b A B) as P.
  destruct (2 * (a mod b) <? b) eqn:E1; [split; [|exact P]; apply Z.ltb_lt in E1; rewrite Z.abs_eq; nia|]. apply Z.ltb_ge in E1.
  destruct (b <? 2 * (a mod b)) eqn:E2; [apply Z.ltb_lt in E2; split; [|lia]; rewrite Z.abs_neq; nia|]. apply Z.ltb_ge in E2.
  destruct (Z.even (a / b)); [split; [rewrite Z.abs_eq; nia|exact P]|split; [rewrite Z.abs_neq; nia|lia]].
Qed.
Lemma digit_len t : String.length (digits (t mod 10)) = 1%nat.
Proof. assert (M := Z.mod_pos_bound t 10 ltac:(lia)). assert (C : t mod 10 = 0 \/ t mod 10 = 1 \/ t mod 10 = 2 \/ t mod 10 = 3 \/ t mod 10 = 4 \/ t mod 10 = 5 \/ t mod 10 = 6 \/ t mod 10 = 7 \/ t mod 10 = 8 \/ t mod 10 = 9) by lia.
  repeat (destruct C as [->|C]; [reflexivity|]). rewrite C. reflexivity. Qed.
Lemma one_says n scale k u e : nth_error units k = Some (e ++ u)%string -> says (n <? 0) (nearest (10 * Z.abs n) scale) k (one_decimal n scale ++ e ++ u).
Proof.
  intros U. unfold says, one_decimal. set (t := nearest (10 * Z.abs n) scale). exists (digits (t / 10)), (digits (t mod 10)), (e ++ u)%string. split; [exact U|].
  split; [apply decimal_digits|]. split; [apply decimal_digits|]. split; [apply digit_len|]. rewrite !sapp_assoc. reflexivity.
Qed.

(* C111: a size is shown with the right sign, rounded to the nearest tenth, in the largest unit of which it is at least one *)
Theorem C111_size n : exists k t, says (n <? 0) t k (format_size n 0) /\ 0 <= t /\ (k <= 8)%nat /\
  2 * Z.abs (10 * Z.abs n - t * 1024 ^ Z.of_nat k) <= 1024 ^ Z.of_nat k /\ (k = 0%nat \/ 1024 ^ Z.of_nat k <= Z.abs n) /\ (k = 8%nat \/ Z.abs n < 1024 ^ (Z.of_nat k + 1)).
Proof.
  assert (G : forall us k, (k + length us = 8)%nat ->
    (forall i u, nth_error us i = Some u -> nth_error units (k + i) = Some (" " ++ u ++ "B")%string) -> (k = 0%nat \/ 1024 ^ Z.of_nat k <= Z.abs n) ->
    exists k t, says (n <? 0) t k (size_loop us n (1024 ^ Z.of_nat (8 - length us)) 0) /\ 0 <= t /\ (k <= 8)%nat /\
    2 * Z.abs (10 * Z.abs n - t * 1024 ^ Z.of_nat k) <= 1024 ^ Z.of_nat k /\ (k = 0%nat \/ 1024 ^ Z.of_nat k <= Z.abs n) /\ (k = 8%nat \/ Z.abs n < 1024 ^ (Z.of_nat k + 1))).
  { induction us as [|u us IH]; intros k L U K.
    - assert (k = 8%nat) as -> by (cbn [length] in L; lia). exists 8%nat, (nearest (10 * Z.abs n) (1024 ^ Z.of_nat 8)). cbn [size_loop length Nat.sub fill_up_to].
      destruct (nearest_spec (10 * Z.abs n) (1024 ^ Z.of_nat 8) ltac:(lia) ltac:(reflexivity)) as [A B].
      split; [apply (one_says n (1024 ^ Z.of_nat 8) 8 "YiB" ""); reflexivity|]. split; [exact B|]. split; [lia|]. split; [exact A|]. split; [right; destruct K as [K|K]; [discriminate|exact K]|left; reflexivity].
    - assert (E : (8 - length (u :: us))%nat = k) by (cbn [length] in *; lia). rewrite E. cbn [size_loop]. assert (P : 0 < 1024 ^ Z.of_nat k) by (apply Z.pow_pos_nonneg; lia).
      destruct (Z.abs n <? 1024 * 1024 ^ Z.of_nat k) eqn:Lt.
      + apply Z.ltb_lt in Lt. exists k, (nearest (10 * Z.abs n) (1024 ^ Z.of_nat k)). cbn [fill_up_to].
        destruct (nearest_spec (10 * Z.abs n) (1024 ^ Z.of_nat k) ltac:(lia) P) as [A B]. change (fill_up_to ?s 0 ?c) with s.
        split; [apply (one_says n _ k (u ++ "B") " "); specialize (U 0%nat u eq_refl); rewrite Nat.add_0_r in U; exact U|]. split; [exact B|]. split; [cbn [length] in L; lia|]. split; [exact A|]. split; [exact K|].
        right. rewrite Z.pow_add_r by lia. lia.
      + apply Z.ltb_ge in Lt. assert (E2 : 1024 ^ Z.of_nat k * 1024 = 1024 ^ Z.of_nat (8 - length us)).
        { replace (8 - length us)%nat with (S k) by (cbn [length] in *; lia). rewrite Nat2Z.inj_succ, Z.pow_succ_r by lia. lia. }
        rewrite E2. apply (IH (S k)); [cbn [length] in *; lia| |].
        * intros i v I. specialize (U (S i) v I). rewrite Nat.add_succ_r in U. exact U.
        * right. rewrite Nat2Z.inj_succ, Z.pow_succ_r by lia. lia. }
  apply (G [""; "Ki"; "Mi"; "Gi"; "Ti"; "Pi"; "Ei"; "Zi"]%string 0%nat); [reflexivity| |left; reflexivity].
  intros i u I. repeat (destruct i as [|i]; [injection I as <-; reflexivity|]). destruct i; discriminate.
Qed.
Print Assumptions C111_size.

(* C111 (refuted): "less than 1024 of a unit is shown": sizes shortly below the next unit are rounded up to 1024.0 *)
Theorem C111_size_refuted : format_size 1048535 0 = "1024.0 KiB"%string /\ 1048535 < 1024 * 1024 /\ format_size 1048576 0 = "1.0 MiB"%string.
Proof. split; [|split]; [vm_compute; reflexivity|lia|vm_compute; reflexivity]. Qed.
Print Assumptions C111_size_refuted.

(* C111: the line says in words if memory was allocated, released or neither, and the amount, in 12 characters or more *)
Theorem C111_words a : exists t, allocated_text a = ((if (a =? 0)%Z then "          " else if (a <? 0)%Z then "Released  " else "Allocated ") ++ t)%string /\
  (a = 0 -> forall i x, String.get i t = Some x -> x = " "%char) /\ (a <> 0 -> t = format_size a 12).
Proof.
  unfold allocated_text. destruct (Z.eqb_spec a 0) as [->|N]; [eexists; split; [reflexivity|]; split; [|congruence]|].
  - intros _ i x H. do 12 (destruct i as [|i]; [injection H as <-; reflexivity|]). destruct i; discriminate.
  - exists (format_size a 12). split; [|split; [congruence|reflexivity]]. destruct (Z.ltb_spec 0 a), (Z.ltb_spec a 0); try lia; reflexivity.
Qed.
Print Assumptions C111_words.

Lemma run_snoc h c : run (h ++ [c]) = step (run h) c.
Proof. unfold run. rewrite fold_left_app. reflexivity. Qed.
Lemma total_cases h : total (run h) = -1 /\ Forall is_watch h /\ lines (run h) = [] \/ ~ Forall is_watch h.
Proof.
  induction h as [|c h IH] using rev_ind; [left; repeat split; constructor|]. destruct IH as [(T & W & L)|N].
  - destruct c as [f a|o f].
    + right. rewrite Forall_app. intros [_ F]. inversion F as [|x y Q]. destruct Q.
    + left. rewrite run_snoc. simpl. rewrite T. simpl. split; [exact T|]. split; [apply Forall_app; split; [exact W|repeat constructor]|exact L].
  - right. rewrite Forall_app. tauto.
Qed.

(* C111: nothing is printed, whatever is watched, unless watching has been started *)
Theorem C111_silent h : Forall is_watch h -> lines (run h) = [].
Proof. intros W. destruct (total_cases h) as [(_ & _ & L)|N]; [exact L|contradiction]. Qed.
Print Assumptions C111_silent.

(* C111: after the start, each call prints one line with the current free memory, except those only for changes if it is the same as in the last line *)
Theorem C111_lines h f a w only g : Forall is_watch w -> 0 <= f + a ->
  let m := run (h ++ Start f a :: w) in
  exists d, lines (run ((h ++ Start f a :: w) ++ [Watch only g])) = lines m ++ d /\
    ((d = [] /\ only = true /\ g = free_of (last (lines m) (Starting 0 0))) \/ (exists x, d = [Watched x g] /\ x = free_of (last (lines m) (Starting 0 0)) - g /\ (only = true -> g <> free_of (last (lines m) (Starting 0 0))))).
Proof.
  intros W P m. subst m.
  assert (I : total (run (h ++ Start f a :: w)) = a + f /\ free_of (last (lines (run (h ++ Start f a :: w))) (Starting 0 0)) = last_free (run (h ++ Start f a :: w))).
  { induction w as [|c w IH] using rev_ind.
    - rewrite run_snoc. simpl. rewrite last_last. split; reflexivity.
    - apply Forall_app in W. destruct W as [W Wc]. specialize (IH W). destruct IH as [T L]. change (h ++ Start f a :: w ++ [c]) with (h ++ (Start f a :: w) ++ [c]). rewrite app_assoc, run_snoc.
      inversion Wc as [|x y Q]; subst. destruct c as [f' a'|o f']; [destruct Q|]. simpl. destruct (total (run (h ++ Start f a :: w)) <? 0) eqn:N; [split; assumption|].
      destruct (o && _)%bool; [split; assumption|]. simpl. rewrite last_last. split; [exact T|reflexivity]. }
  destruct I as [T L]. rewrite run_snoc. simpl. rewrite T, L. assert (N : (a + f <? 0) = false) by (apply Z.ltb_ge; lia). rewrite N.
  destruct only; simpl.
  - destruct (Z.eqb_spec g (last_free (run (h ++ Start f a :: w)))) as [E|E].
    + exists []. split; [rewrite List.app_nil_r; reflexivity|]. left. auto.
    + simpl. eexists. split; [reflexivity|]. right. eexists. split; [reflexivity|]. split; [reflexivity|]. intros _; exact E.
  - eexists. split; [reflexivity|]. right. eexists. split; [reflexivity|]. split; [reflexivity|]. discriminate.
Qed.
Print Assumptions C111_lines.

Lemma sum_app a b : sum_allocated (a ++ b) = sum_allocated a + sum_allocated b.
Proof. induction a as [|x a IH]; simpl; [lia|]. destruct x; lia. Qed.
(* C111: no memory is lost in the lines: the amounts of all lines since a start add up to what is less now than at the start *)
Theorem C111_balance h f a w : Forall is_watch w -> 0 <= f + a ->
  exists d, lines (run (h ++ Start f a :: w)) = lines (run h) ++ Starting f (a + f) :: d /\ sum_allocated d = f - free_of (last (Starting f (a + f) :: d) (Starting 0 0)).
Proof.
  intros W P.
  enough (exists d, lines (run (h ++ Start f a :: w)) = lines (run h) ++ Starting f (a + f) :: d /\ sum_allocated d = f - last_free (run (h ++ Start f a :: w)) /\
    free_of (last (Starting f (a + f) :: d) (Starting 0 0)) = last_free (run (h ++ Start f a :: w))) as (d & A & B & C) by (exists d; split; [exact A|]; rewrite C; exact B).
  induction w as [|c w IH] using rev_ind.
  - exists []. rewrite run_snoc. simpl. repeat split. lia.
  - apply Forall_app in W. destruct W as [W Wc]. destruct (IH W) as (d & A & B & C). change (h ++ Start f a :: w ++ [c]) with (h ++ (Start f a :: w) ++ [c]). rewrite app_assoc, run_snoc.
    inversion Wc as [|x y Q]; subst. destruct c as [f' a'|o f']; [destruct Q|]. simpl. destruct (total (run (h ++ Start f a :: w)) <? 0); [exists d; auto|].
    destruct (o && _)%bool; [exists d; auto|]. simpl. exists (d ++ [Watched (last_free (run (h ++ Start f a :: w)) - f') f']). rewrite A.
    split; [rewrite <- app_assoc; reflexivity|]. rewrite sum_app, B. split; [simpl; lia|]. simpl. rewrite ?last_last. destruct d; reflexivity.
Qed.
Print Assumptions C111_balance.

Example ex_memory : lines (run [Watch false 5; Start 1000 24; Watch true 1000; Watch true 900; Watch false 900; Watch true 950]) =
    [Starting 1000 1024; Watched 100 900; Watched 0 900; Watched (-50) 950] /\
  allocated_text (-2048) = "Released  -2.0 KiB    "%string /\ format_size 1536 0 = "1.5 KiB"%string /\ format_size 0 0 = "0.0 B"%string.
Proof. vm_compute. repeat split; reflexivity. Qed.
