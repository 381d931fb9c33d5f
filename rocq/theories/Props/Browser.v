(* C102: the browser popup. *)
From Coq Require Import String Sorted.
From Verif.Lib Require Import Base.
From Verif.Model Require Import Browser.
From Verif.Spec Require Import Browser.
Local Open Scope list_scope.

Section Options.
Variable le : string -> string -> bool.
Variable stays : bool.
Notation run := (run le stays). Notation step := (step le stays). Notation listing := (listing le).

Lemma run_snoc h o : run (h ++ [o]) = step (run h) o.
Proof. unfold Browser.run. apply fold_left_snoc. Qed.
Lemma at_app pos : forall t pos', entry_at t (pos ++ pos') = match entry_at t pos with Some e => entry_at e pos' | None => None end.
Proof. induction pos as [|i pos IH]; intros t pos'; cbn; [reflexivity|]. destruct (nth_error (children t) i); auto. Qed.
Lemma at_firstn n pos : forall t e, entry_at t pos = Some e -> exists e', entry_at t (firstn n pos) = Some e'.
Proof. intros t e H. rewrite <- (firstn_skipn n pos), at_app in H. destruct (entry_at t (firstn n pos)); [eauto | discriminate]. Qed.

(* The listing *)
Lemma indexed_in l : forall n i e, In (i, e) (indexed n l) <-> (n <= i)%nat /\ nth_error l (i - n) = Some e.
Proof.
  induction l as [|x l IH]; intros n i e; cbn [indexed In].
  - split; [tauto|]. intros [_ H]. destruct (i - n)%nat; discriminate.
  - rewrite IH. split.
    + intros [E|[L E]]; [injection E as -> ->; rewrite Nat.sub_diag; split; [lia | reflexivity]|]. split; [lia|]. replace (i - n)%nat with (S (i - S n)) by lia. exact E.
    + intros [L E]. destruct (Nat.eq_dec i n) as [->|N]; [rewrite Nat.sub_diag in E; injection E as ->; auto|]. right. split; [lia|]. replace (i - n)%nat with (S (i - S n)) in E by lia. exact E.
Qed.
Lemma insert_in x l y : In y (insert le x l) <-> y = x \/ In y l.
Proof. induction l as [|z l IH]; cbn; [intuition congruence|]. destruct (le _ _); cbn; [intuition congruence|]. rewrite IH. intuition congruence. Qed.
Lemma sort_in l y : In y (sort le l) <-> In y l.
Proof. induction l as [|z l IH]; cbn [sort fold_right]; [tauto|]. fold (sort le l). rewrite insert_in, IH. cbn. intuition congruence. Qed.
Definition before_key (le : string -> string -> bool) (x y : nat * entry) : Prop :=
  le (sort_string (snd x)) (sort_string (snd y)) = true /\ (le (sort_string (snd y)) (sort_string (snd x)) = true -> (fst x < fst y)%nat).
Lemma sorts_by_key e : sorts_by e (sort_string e).
Proof. destruct e as [v t [[|c r]|] b l]; cbn; eauto. Qed.
Lemma before_before x y : before_key le x y -> before le x y.
Proof. intros [A B]. exists (sort_string (snd x)), (sort_string (snd y)). auto using sorts_by_key. Qed.
Lemma sorted_before l : StronglySorted (before_key le) l -> StronglySorted (before le) l.
Proof. induction 1 as [|x l S IH F]; constructor; [exact IH|]. eapply Forall_impl; [|exact F]. intros y. apply before_before. Qed.
Lemma before_key_trans : order le -> forall x y z, before_key le x y -> before_key le y z -> before_key le x z.
Proof.
  intros [T R] x y z [A A'] [B B']. split; [eauto|]. intros C. assert (fst x < fst y)%nat by (apply A'; eauto). assert (fst y < fst z)%nat by (apply B'; eauto). lia.
Qed.
Lemma insert_sorted x l : order le -> StronglySorted (before_key le) l -> Forall (fun y => (fst x < fst y)%nat) l -> StronglySorted (before_key le) (insert le x l).
Proof.
  intros O. induction l as [|y l IH]; intros S F; cbn [insert].
  - constructor; constructor.
  - inversion S as [|? ? S' B]; subst. inversion F as [|? ? Fy F']; subst. destruct (le (sort_string (snd x)) (sort_string (snd y))) eqn:E.
    + constructor; [exact S|]. assert (before_key le x y) by (split; auto). constructor; [assumption|]. eapply Forall_impl; [|exact B]. intros z. apply before_key_trans; auto.
    + constructor; [auto|]. apply Forall_forall. intros z I. apply insert_in in I as [->|I]; [|eapply Forall_forall in B; eauto]. destruct (proj1 O (sort_string (snd x)) (sort_string (snd y))) as [K|K]; [congruence|]. split; [exact K|]. congruence.
Qed.
Lemma indexed_ge l n : Forall (fun y : nat * entry => (n <= fst y)%nat) (indexed n l).
Proof. apply Forall_forall. intros [i e] I. apply indexed_in in I as [L _]. exact L. Qed.
Lemma sort_sorted f l : order le -> forall n, StronglySorted (before_key le) (sort le (filter f (indexed n l))).
Proof.
  intros O. induction l as [|e l IH]; intros n; cbn [indexed filter]; [constructor|]. destruct (f (n, e)); [|apply IH]. cbn [sort fold_right]. fold (sort le (filter f (indexed (S n) l))). apply insert_sorted; [exact O | apply IH |].
  apply Forall_forall. intros y I. apply sort_in, filter_In in I as [I _]. pose proof (indexed_ge l (S n)) as G. eapply Forall_forall in G; [|exact I]. cbn in G |- *. lia.
Qed.
Lemma listing_in e i c : In (i, c) (listing e) <-> nth_error (children e) i = Some c /\ (callable c = true \/ children c <> []).
Proof.
  unfold Browser.listing. rewrite sort_in, filter_In, indexed_in. unfold listed. cbn [snd]. rewrite Nat.sub_0_r, orb_true_iff, negb_true_iff. destruct (children c); intuition (congruence || lia || auto).
Qed.

(* Every listing shows the children which can be chosen or have children themselves, each once, sorted *)
Theorem C102_listing e : order le -> StronglySorted (before le) (listing e) /\ NoDup (listing e)
  /\ forall i c, In (i, c) (listing e) <-> nth_error (children e) i = Some c /\ (callable c = true \/ children c <> []).
Proof.
  intros O. assert (S : StronglySorted (before_key le) (listing e)) by (apply sort_sorted, O). split; [apply sorted_before, S|]. split; [|apply listing_in].
  induction S as [|x l S IH F]; constructor; [|exact IH]. intros I. destruct (proj1 (Forall_forall _ _) F _ I) as [A B]. specialize (B A). lia.
Qed.

(* What is shown is an entry of its tree which cannot be called, and it is remembered *)
Record sane (s : browser) : Prop := { s_place : forall t pos, b_shown s = Some (t, pos) -> exists e, entry_at t pos = Some e /\ callable e = false /\ b_last s = Some (path t pos) }.
Lemma sane_browse s t pos : sane s -> sane (browse stays s t pos).
Proof.
  intros [P]. unfold browse. destruct (entry_at t pos) as [e|] eqn:E; [|split; exact P]. destruct (callable e) eqn:C.
  - split; cbn. destruct stays; [exact P | discriminate].
  - split; cbn. intros t' pos' [= <- <-]. eauto.
Qed.
Lemma sane_run h : sane (run h).
Proof.
  induction h as [|o h IH] using rev_ind; [split; discriminate|]. rewrite run_snoc. destruct o as [t|i|n|]; cbn [Browser.step].
  - apply sane_browse, IH.
  - destruct (b_shown (run h)) as [[t pos]|]; [|exact IH]. destruct (entry_at t pos); [|exact IH]. destruct (nth_error _ i) as [[k c]|]; [apply sane_browse|]; exact IH.
  - destruct (b_shown (run h)) as [[t pos]|]; [apply sane_browse|]; exact IH.
  - split; discriminate.
Qed.
Lemma at_snoc t pos e i c : entry_at t pos = Some e -> nth_error (children e) i = Some c -> entry_at t (pos ++ [i]) = Some c.
Proof. intros E N. rewrite at_app, E. cbn. rewrite N. reflexivity. Qed.

(* Choosing an entry of the listing calls it, if it can be called, and closes the browser unless told otherwise; if not, it is the one shown. Nothing else is called. *)
Theorem C102_choose h t pos e i k c : place (run h) t pos e -> nth_error (listing e) i = Some (k, c) ->
  if callable c then b_calls (run (h ++ [Choose i])) = b_calls (run h) ++ [c] /\ b_shown (run (h ++ [Choose i])) = if stays then b_shown (run h) else None
  else b_calls (run (h ++ [Choose i])) = b_calls (run h) /\ place (run (h ++ [Choose i])) t (pos ++ [k]) c.
Proof.
  intros [S E] N. rewrite run_snoc. cbn [Browser.step]. rewrite S, E, N. unfold browse. assert (A : entry_at t (pos ++ [k]) = Some c) by (eapply at_snoc; [exact E|]; apply nth_error_In, listing_in in N; tauto).
  rewrite A. destruct (callable c); [rewrite <- S; auto|]. split; [reflexivity|]. split; [reflexivity | exact A].
Qed.
(* The links of the path show the entries above: those on the way down to the one shown. They call nothing unless an entry with children can itself be called. *)
Theorem C102_up h t pos e n : place (run h) t pos e -> exists a, entry_at t (firstn n pos) = Some a
  /\ (callable a = false -> b_calls (run (h ++ [Up n])) = b_calls (run h) /\ place (run (h ++ [Up n])) t (firstn n pos) a).
Proof.
  intros [S E]. destruct (at_firstn n pos t e E) as (a & A). exists a. split; [exact A|]. intros C. rewrite run_snoc. cbn [Browser.step]. rewrite S. unfold browse. rewrite A, C. split; [reflexivity|]. split; [reflexivity | exact A].
Qed.

(* Opening again *)
Lemma find_first tok l i c : NoDup (map text l) -> nth_error l i = Some c -> text c = tok -> find_text tok l = Some i.
Proof.
  revert i. induction l as [|x l IH]; intros i D N T; [destruct i; discriminate|]. inversion D as [|? ? Nx D']; subst. destruct i as [|i]; cbn in *.
  - injection N as ->. rewrite String.eqb_refl. reflexivity.
  - destruct (String.eqb_spec (text x) (text c)) as [E|_]; [|rewrite (IH i); auto]. elim Nx. rewrite E. apply in_map. eapply nth_error_In, N.
Qed.
Lemma distinct_child t i c : distinct t -> nth_error (children t) i = Some c -> distinct c.
Proof. intros D N. inversion D as [? ? ? ? l _ F]; subst. cbn in N. eapply Forall_forall; [exact F|]. eapply nth_error_In, N. Qed.
Lemma distinct_texts t : distinct t -> NoDup (map text (children t)).
Proof. intros D. inversion D; subst. assumption. Qed.
Lemma path_way t pos : forall e, entry_at t pos = Some e -> way t (tl (path t pos)) e.
Proof.
  revert t. induction pos as [|i pos IH]; intros t e E; cbn in *; [injection E as ->; constructor|]. destruct (nth_error (children t) i) as [c|] eqn:N; [|discriminate].
  specialize (IH c e E). destruct pos; cbn in *; (apply way_cons; [eapply nth_error_In, N | exact IH]).
Qed.
Lemma resolve_way t p e : way t p e -> distinct t -> forall q, exists pos, resolve t (p ++ q) = pos ++ resolve e q /\ entry_at t pos = Some e /\ tl (path t pos) = p.
Proof.
  induction 1 as [e|t c p e I W IH]; intros D q; cbn [app resolve].
  - exists []. auto.
  - apply In_nth_error in I as (i & N). rewrite (find_first (text c) _ i c (distinct_texts t D) N eq_refl), N. destruct (IH (distinct_child t i c D N) q) as (pos & R & A & T). exists (i :: pos). cbn. rewrite N, R. split; [reflexivity|]. split; [exact A|].
    rewrite <- T. destruct pos; reflexivity.
Qed.
Lemma way_fun t p e : way t p e -> distinct t -> forall e', way t p e' -> e' = e.
Proof.
  intros W D e' W'. destruct (resolve_way t p e W D []) as (pos & R & A & _). destruct (resolve_way t p e' W' D []) as (pos' & R' & A' & _). cbn in *. rewrite !app_nil_r in R, R'. congruence.
Qed.
(* Opening the browser again shows the same entry, found by its texts, also if the entries have changed elsewhere in the meantime; nothing is called *)
Theorem C102_again_partial h t pos e t' e' : place (run h) t pos e -> distinct t' -> way t' (tl (path t pos)) e' -> callable e' = false ->
  exists pos', place (run (h ++ [Hide; Open t'])) t' pos' e' /\ path t' pos' = text t' :: tl (path t pos) /\ b_calls (run (h ++ [Hide; Open t'])) = b_calls (run h).
Proof.
  intros [S E] D W C. destruct (s_place _ (sane_run h) t pos S) as (e0 & _ & _ & L). change [Hide; Open t'] with ([Hide] ++ [Open t'])%list. rewrite app_assoc, !run_snoc. cbn [Browser.step b_last].
  rewrite L. unfold resolve_path. destruct (resolve_way t' _ _ W D []) as (pos' & R & A & T). cbn [resolve] in R. rewrite !app_nil_r in R. rewrite R. unfold browse. rewrite A, C. exists pos'. split; [split; [reflexivity | exact A]|]. split; [|reflexivity].
  rewrite <- T. destruct pos'; reflexivity.
Qed.
Theorem C102_same_partial h t pos e : place (run h) t pos e -> distinct t -> exists pos', place (run (h ++ [Hide; Open t])) t pos' e /\ b_calls (run (h ++ [Hide; Open t])) = b_calls (run h).
Proof.
  intros P D. destruct (s_place _ (sane_run h) t pos (proj1 P)) as (e0 & A & C & _). assert (e0 = e) as -> by (destruct P; congruence).
  destruct (C102_again_partial h t pos e t e P D (path_way t pos e A) C) as (pos' & X & _ & Y). eauto.
Qed.
(* If it is not there any more, the last entry on the way which still is there is shown, if none of the other texts appears among its children *)
Lemma resolve_none e q : (forall c, In c (children e) -> ~ In (text c) q) -> resolve e q = [].
Proof.
  induction q as [|x q IH]; intros N; cbn; [reflexivity|]. destruct (find_text x (children e)) as [i|] eqn:F; [|apply IH; intros c I J; apply (N c I); right; exact J]. exfalso.
  assert (X : exists c, In c (children e) /\ text c = x).
  { clear N IH. revert i F. induction (children e) as [|c l IHl]; cbn; [discriminate|]. intros i. destruct (String.eqb_spec (text c) x) as [Ex|_]; [eauto|]. destruct (find_text x l) as [j|]; [|discriminate]. intros _. destruct (IHl j eq_refl) as (c' & I & T). eauto. }
  destruct X as (c & I & T). apply (N c I). left. auto.
Qed.
Theorem C102_nearest_partial h t pos e t' p q e' : place (run h) t pos e -> distinct t' -> tl (path t pos) = p ++ q -> way t' p e' -> (forall c, In c (children e') -> ~ In (text c) q) -> callable e' = false ->
  exists pos', place (run (h ++ [Hide; Open t'])) t' pos' e' /\ b_calls (run (h ++ [Hide; Open t'])) = b_calls (run h).
Proof.
  intros [S E] D PQ W N C. destruct (s_place _ (sane_run h) t pos S) as (e0 & _ & _ & L). change [Hide; Open t'] with ([Hide] ++ [Open t'])%list. rewrite app_assoc, !run_snoc. cbn [Browser.step b_last].
  rewrite L. unfold resolve_path. rewrite PQ. destruct (resolve_way t' _ _ W D q) as (pos' & R & A & T). rewrite R, (resolve_none e' q N), app_nil_r. unfold browse. rewrite A, C. exists pos'. split; [split; [reflexivity | exact A] | reflexivity].
Qed.
(* The first time, the root is shown *)
Theorem C102_first t : callable t = false -> place (run [Open t]) t [] t /\ b_calls (run [Open t]) = [].
Proof. intros C. unfold Browser.run. cbn. unfold browse. cbn. rewrite C. repeat split. Qed.
End Options.

Local Open Scope string_scope.
Definition folder (v : nat) (t : string) (l : list entry) : entry := Entry v t None false l.
Definition leaf (v : nat) (t : string) : entry := Entry v t None true [].
(* Not proved, because it does not hold: opening the browser calls nothing. If a folder has the same text as an entry before it, opening the browser again calls that entry. *)
Theorem C102_again_refuted : ~ (forall le stays h t pos e, place (run le stays h) t pos e -> b_calls (run le stays (h ++ [Hide; Open t])) = b_calls (run le stays h)).
Proof.
  intros H. pose (t := folder 0 "" [leaf 1 "rig"; folder 2 "rig" [leaf 3 "a"]]).
  specialize (H (fun _ _ => true) false [Open t; Choose 1] t [1%nat] (folder 2 "rig" [leaf 3 "a"])). assert (X := H (conj eq_refl eq_refl)). vm_compute in X. discriminate.
Qed.
(* Not proved, because it does not hold: if the entry shown last is not there any more, one on the way to it is shown. Its texts are looked for at any depth: here, the folder b has been removed, and a/c, not a, is shown instead of a/b/c. *)
Theorem C102_nearest_refuted : ~ (forall le stays h t pos e t' pos' e', place (run le stays h) t pos e -> distinct t' -> place (run le stays (h ++ [Hide; Open t'])) t' pos' e' -> exists n, path t' pos' = firstn n (path t pos)).
Proof.
  intros H. pose (f := fun v => folder v "c" [leaf 9 "x"]). pose (t := folder 0 "" [folder 1 "a" [folder 2 "b" [f 3%nat]; f 4%nat]]). pose (t' := folder 0 "" [folder 1 "a" [f 4%nat]]).
  destruct (H (fun _ _ => true) false [Open t; Choose 0; Choose 0; Choose 0] t [0; 0; 0]%nat (f 3%nat) t' [0; 0]%nat (f 4%nat)) as (n & E).
  - split; reflexivity.
  - repeat (constructor; cbn; intuition).
  - split; reflexivity.
  - destruct n as [|[|[|[|n]]]]; vm_compute in E; discriminate.
Qed.
(* A tree with folders and files, sorted by length here *)
Definition ex_tree : entry := folder 0 "" [folder 1 "examples" [leaf 2 "looper"; leaf 3 "rig"]; folder 4 "empty" []; leaf 5 "mine"].
Definition ex_le (a b : string) : bool := Nat.leb (String.length a) (String.length b).
Example ex_browser :
  map fst (listing ex_le ex_tree) = [2; 0]%nat
  /\ map value (b_calls (run ex_le false [Open ex_tree; Choose 1; Choose 0])) = [3]%nat
  /\ b_shown (run ex_le false [Open ex_tree; Choose 1; Hide; Open ex_tree]) = Some (ex_tree, [0%nat])
  /\ b_shown (run ex_le false [Open ex_tree; Choose 1; Choose 0; Open ex_tree; Up 0]) = Some (ex_tree, []).
Proof. vm_compute. auto. Qed.
Example ex_order : order ex_le /\ distinct ex_tree.
Proof.
  split; [|repeat (constructor; cbn; intuition discriminate || auto)].
  split; intros *; unfold ex_le; rewrite !Nat.leb_le; lia.
Qed.
Print Assumptions C102_listing. Print Assumptions C102_choose. Print Assumptions C102_up. Print Assumptions C102_again_partial. Print Assumptions C102_same_partial. Print Assumptions C102_nearest_partial. Print Assumptions C102_first. Print Assumptions C102_again_refuted. Print Assumptions C102_nearest_refuted.
