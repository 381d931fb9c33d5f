From Verif.Lib Require Import Base.
From Verif.Model Require Import Midi Pager.
From Verif.Spec Require Import Pager.

Lemma page_index_some pages id i : page_index pages id = Some i <-> first_with pages id i.
Proof.
  revert i. induction pages as [|p pages IH]; intros i; cbn.
  - split; [discriminate|]. intros [(p & H & _) _]. destruct i; discriminate.
  - destruct (pg_id p =? id) eqn:E.
    + split.
      * intros [= <-]. split; [exists p; cbn; split; [reflexivity|lia]|]. intros j q Hj. lia.
      * intros [(q & Hq & Hid) Hf]. destruct i as [|i]; [reflexivity|]. exfalso. apply (Hf 0%nat p); [lia|reflexivity|lia].
    + destruct (page_index pages id) as [j|] eqn:Ej; cbn.
      * split.
        -- intros [= <-]. destruct (proj1 (IH j) eq_refl) as [(q & Hq & Hid) Hf]. split; [exists q; auto|].
           intros k r Hk Hr. destruct k as [|k]; cbn in Hr; [injection Hr as <-; lia|]. apply (Hf k r); [lia|auto].
        -- intros [(q & Hq & Hid) Hf]. destruct i as [|i]; cbn in Hq; [injection Hq as <-; lia|].
           f_equal. f_equal. assert (H : Some j = Some i); [|congruence]. apply IH. split; [exists q; auto|].
           intros k r Hk Hr. apply (Hf (S k) r); [lia|auto].
      * split; [discriminate|]. intros [(q & Hq & Hid) Hf]. destruct i as [|i]; cbn in Hq; [injection Hq as <-; lia|].
        exfalso. assert (H : None = Some i); [|discriminate]. apply IH. split; [exists q; auto|].
        intros k r Hk Hr. apply (Hf (S k) r); [lia|auto].
Qed.

Lemma page_index_bound pages id i : page_index pages id = Some i -> (i < length pages)%nat.
Proof. intros H. apply page_index_some in H. destruct H as [(p & H & _) _]. apply nth_error_Some. congruence. Qed.

Lemma page_index_has pages id : (exists p, In p pages /\ pg_id p = id) -> exists i, page_index pages id = Some i.
Proof.
  induction pages as [|p pages IH]; intros (q & Hin & Hid); [destruct Hin|]. cbn. destruct (pg_id p =? id) eqn:E; [eauto|].
  destruct Hin as [-> |Hin]; [lia|]. destruct IH as (i & Hi); [exists q; auto|]. rewrite Hi. cbn. eauto.
Qed.

Definition good_index (pages : list page) (o : option nat) : Prop := match o with Some i => (i < length pages)%nat | None => True end.

Lemma sel_good pages sel : good_index pages (g_sel (pager_of pages sel)).
Proof.
  unfold pager_of, pager_config. cbn. destruct sel as [id|]; [|exact I]. destruct (id =? 0); [exact I|].
  destruct (page_index pages id) eqn:E; [|exact I]. cbn. eapply page_index_bound; eauto.
Qed.

Lemma proxy_good pages ids : Forall (fun y => good_index pages (y_index y)) (proxies_of pages ids).
Proof.
  unfold proxies_of. apply Forall_forall. intros y Hy. apply in_map_iff in Hy. destruct Hy as ((id & a) & <- & _).
  unfold make_proxy. cbn. destruct (page_index pages id) eqn:E; [|exact I]. cbn. eapply page_index_bound; eauto.
Qed.

Lemma proxy_draw_ok c s k y en : good_index (g_pages c) (y_index y) -> exists e, proxy_draw c s k y en = Ok e.
Proof.
  intros H. unfold proxy_draw. destruct (y_switch y); cbn; [|eauto]. destruct (y_index y) as [i|]; [|eauto]. destruct en; cbn; [|eauto].
  cbn in H. apply nth_error_Some in H. destruct (nth_error (g_pages c) i); [eauto|congruence].
Qed.

Lemma proxies_draw_ok c s ys en : Forall (fun y => good_index (g_pages c) (y_index y)) ys -> forall k, exists e, proxies_draw c s k ys en = Ok e.
Proof.
  induction 1 as [|y ys Hy Hys IH]; intros k; cbn; [eauto|].
  destruct (proxy_draw_ok c s k y (en k) Hy) as (e1 & ->). destruct (IH (S k)) as (e2 & ->). eauto.
Qed.

Lemma pager_draw_ok c s ys es en : good_index (g_pages c) (g_sel c) -> Forall (fun y => good_index (g_pages c) (y_index y)) ys ->
  good_index (g_pages c) (h_index s) -> exists e, pager_draw c s ys es en = Ok e.
Proof.
  intros H1 H2 H3. unfold pager_draw. destruct (g_pages c) as [|p0 ps] eqn:Ep; [eauto|]. rewrite <- Ep in *.
  destruct (h_index s) as [i|]; [|eauto]. destruct es; cbn [negb]; [|eauto].
  cbn in H3. apply nth_error_Some in H3. destruct (nth_error (g_pages c) i); [|congruence].
  destruct (proxies_draw_ok c s ys en H2 0) as (e & ->). destruct (g_sel c) as [j|]; [|eauto].
  cbn in H1. apply nth_error_Some in H1. destruct (nth_error (g_pages c) j); [eauto|congruence].
Qed.

(* invariant of a pager with pages *)
Definition pinv (pages : list page) (s : pager) : Prop :=
  h_switch s = true /\ (pages = [] -> h_id s = None) /\ (pages <> [] -> exists i p, current_page pages s i p).

Lemma id_at_ok pages j : pages <> [] -> (j < length pages)%nat -> exists p, nth_error pages j = Some p /\ id_at pages j = Ok (Some (pg_id p)).
Proof.
  intros H Hj. apply nth_error_Some in Hj. destruct (nth_error pages j) as [p|] eqn:E; [|congruence].
  exists p. split; auto. unfold id_at. destruct pages; [congruence|]. rewrite E. reflexivity.
Qed.

Lemma init_inv pages sel : exists s, pager_init (pager_of pages sel) = Ok s /\ pinv pages s /\ (pages <> [] -> h_index s = Some 0%nat).
Proof.
  unfold pager_init. cbn. destruct pages as [|p ps]; cbn.
  - eexists. split; [reflexivity|]. split; [|congruence]. split; [reflexivity|]. split; [reflexivity|congruence].
  - eexists. split; [reflexivity|]. split; [|reflexivity]. split; [reflexivity|]. split; [discriminate|]. intros _. exists 0%nat, p. repeat split.
Qed.

Definition target (c : pager_cfg) (i : nat) : nat :=
  match g_sel c with Some j => j | None => if (length (g_pages c) <=? S i)%nat then 0%nat else S i end.

Lemma push_ok pages sel ids s es en : pages <> [] -> pinv pages s ->
  exists i p e, h_index s = Some i /\ (i < length pages)%nat /\
    nth_error pages (target (pager_of pages sel) i) = Some p /\
    pager_push (pager_of pages sel) s (proxies_of pages ids) es en =
      Ok (mkPager (Some (target (pager_of pages sel) i)) (Some (pg_id p)) true, GReset :: e).
Proof.
  intros Hne (Hsw & _ & Hc). destruct (Hc Hne) as (i & q & Hi & Hq & Hid).
  assert (Hl : (i < length pages)%nat) by (apply nth_error_Some; congruence).
  pose proof (sel_good pages sel) as Hg.
  assert (Ht : (target (pager_of pages sel) i < length pages)%nat).
  { unfold target. destruct (g_sel (pager_of pages sel)); [exact Hg|]. cbn. case_if; [lia|]. apply Nat.leb_gt in Heqb. lia. }
  destruct (id_at_ok pages _ Hne Ht) as (p & Hp & Hat).
  destruct (pager_draw_ok (pager_of pages sel) (mkPager (Some (target (pager_of pages sel) i)) (Some (pg_id p)) true) (proxies_of pages ids) es en) as (e & He);
    [exact Hg|exact (proxy_good pages ids)|exact Ht|].
  exists i, p, e. split; auto. split; auto. split; auto.
  unfold pager_push. rewrite Hi. fold (target (pager_of pages sel) i). cbn [g_pages pager_of pager_config] in *. rewrite Hat, Hsw, He.
  destruct pages; [congruence|reflexivity].
Qed.

Lemma proxy_ok pages sel ids s y es en : pages <> [] -> pinv pages s -> In y (proxies_of pages ids) ->
  match y_index y with
  | None => proxy_push (pager_of pages sel) s y (proxies_of pages ids) es en = Ok (s, [])
  | Some j => exists p e, nth_error pages j = Some p /\
      proxy_push (pager_of pages sel) s y (proxies_of pages ids) es en = Ok (mkPager (Some j) (Some (pg_id p)) true, GReset :: e)
  end.
Proof.
  intros Hne (Hsw & _ & Hc) Hy. pose proof (proxy_good pages ids) as Hg. rewrite Forall_forall in Hg. pose proof (Hg y Hy) as Hyg.
  unfold proxy_push. rewrite Hsw. cbn [negb]. destruct (y_index y) as [j|] eqn:Ey.
  - cbn in Hyg. destruct (id_at_ok pages j Hne Hyg) as (p & Hp & Hat).
    destruct (pager_draw_ok (pager_of pages sel) (mkPager (Some j) (Some (pg_id p)) true) (proxies_of pages ids) es en) as (e & He);
      [apply sel_good|exact (proxy_good pages ids)|exact Hyg|].
    exists p, e. split; auto. cbn [g_pages pager_of pager_config] in *. rewrite Hat, He. destruct pages; [congruence|reflexivity].
  - cbn [g_pages pager_of pager_config]. destruct pages; reflexivity.
Qed.

Lemma step_ok pages sel ids s o : pinv pages s ->
  exists s' e, pgstep (pager_of pages sel) (proxies_of pages ids) s o = Ok (s', e) /\ pinv pages s'.
Proof.
  intros H. destruct pages as [|p0 ps] eqn:Ep.
  - pose proof H as (Hsw & _). destruct o; cbn.
    + eexists _, _. split; [reflexivity|exact H].
    + destruct (nth_error (proxies_of [] ids) k); [|eexists _, _; split; [reflexivity|exact H]]. unfold proxy_push. rewrite Hsw. cbn. eexists _, _. split; [reflexivity|exact H].
  - rewrite <- Ep in *. assert (Hne : pages <> []) by (rewrite Ep; discriminate). clear Ep.
    destruct o as [es en|k es en]; cbn [pgstep].
    + destruct (push_ok pages sel ids s es en Hne H) as (i & p & e & Hi & Hl & Hp & ->). eexists _, _. split; [reflexivity|].
      split; [reflexivity|]. split; [congruence|]. intros _. eexists _, p. repeat split; eauto.
    + destruct (nth_error (proxies_of pages ids) k) as [y|] eqn:Ek; [|eexists _, _; split; [reflexivity|exact H]].
      pose proof (proxy_ok pages sel ids s y es en Hne H (nth_error_In _ _ Ek)) as P.
      destruct (y_index y) as [j|].
      * destruct P as (p & e & Hp & ->). eexists _, _. split; [reflexivity|]. split; [reflexivity|]. split; [congruence|]. intros _.
        eexists _, p. repeat split; eauto.
      * rewrite P. eexists _, _. split; [reflexivity|exact H].
Qed.

Lemma run_ok pages sel ids ops : forall s, pinv pages s ->
  exists s' e, pgrun (pager_of pages sel) (proxies_of pages ids) s ops = Ok (s', e) /\ pinv pages s'.
Proof.
  induction ops as [|o ops IH]; intros s H; cbn; [eauto|].
  destruct (step_ok pages sel ids s o H) as (s1 & e1 & -> & H1). destruct (IH s1 H1) as (s2 & e2 & -> & H2). eauto.
Qed.

Lemma never_raises pages sel ids ops : exists s, history pages sel ids ops s.
Proof.
  destruct (init_inv pages sel) as (s0 & H0 & Hi & _). destruct (run_ok pages sel ids ops s0 Hi) as (s & e & Hr & _).
  exists s, s0, e. auto.
Qed.

Lemma history_inv pages sel ids ops s : history pages sel ids ops s -> pinv pages s.
Proof.
  intros (s0 & e & H0 & Hr). destruct (init_inv pages sel) as (s0' & H0' & Hi & _). assert (s0' = s0) by congruence. subst.
  destruct (run_ok pages sel ids ops s0 Hi) as (s' & e' & Hr' & H). assert (s' = s) by congruence. subst. exact H.
Qed.

Lemma current_exists pages sel ids ops s : pages <> [] -> history pages sel ids ops s -> exists i p, current_page pages s i p.
Proof. intros Hne H. apply history_inv in H. apply H. exact Hne. Qed.

Lemma pgrun_app c ys ops1 ops2 : forall s, pgrun c ys s (ops1 ++ ops2) =
  match pgrun c ys s ops1 with Raise => Raise | Ok (s1, e1) => match pgrun c ys s1 ops2 with Raise => Raise | Ok (s2, e2) => Ok (s2, e1 ++ e2) end end.
Proof.
  induction ops1 as [|o ops1 IH]; intros s; cbn.
  - destruct (pgrun c ys s ops2) as [[s2 e2]|]; reflexivity.
  - destruct (pgstep c ys s o) as [[s1 e1]|]; [|reflexivity]. rewrite IH. destruct (pgrun c ys s1 ops1) as [[s2 e2]|]; [|reflexivity].
    destruct (pgrun c ys s2 ops2) as [[s3 e3]|]; [|reflexivity]. rewrite app_assoc. reflexivity.
Qed.

Lemma history_snoc pages sel ids ops o s : history pages sel ids (ops ++ [o]) s ->
  exists s1 e, history pages sel ids ops s1 /\ pgstep (pager_of pages sel) (proxies_of pages ids) s1 o = Ok (s, e).
Proof.
  intros (s0 & e & H0 & Hr). rewrite pgrun_app in Hr. destruct (pgrun _ _ s0 ops) as [[s1 e1]|] eqn:E1; [|discriminate].
  cbn in Hr. destruct (pgstep _ _ s1 o) as [[s2 e2]|] eqn:E2; [|discriminate]. injection Hr as <- _.
  exists s1, e2. split; [exists s0, e1; auto|exact E2].
Qed.

Lemma mod_succ i n : (i < n)%nat -> (if (n <=? S i)%nat then 0 else S i)%nat = (S i mod n)%nat.
Proof.
  intros H. destruct (n <=? S i)%nat eqn:E.
  - apply Nat.leb_le in E. assert (n = S i) by lia. subst. rewrite Nat.mod_same; lia.
  - apply Nat.leb_gt in E. rewrite Nat.mod_small; lia.
Qed.

Lemma rotates pages sel ids ops pushes s1 s2 i : pages <> [] -> g_sel (pager_of pages sel) = None ->
  history pages sel ids ops s1 -> h_index s1 = Some i -> Forall is_push pushes -> history pages sel ids (ops ++ pushes) s2 ->
  h_index s2 = Some ((i + length pushes) mod length pages)%nat.
Proof.
  intros Hne Hsel H1 Hi. revert s2. induction pushes as [|pushes o IH] using rev_ind_snoc; intros s2 Hp H2.
  - rewrite app_nil_r in H2. assert (s2 = s1).
    { destruct H1 as (a & b & Ha & Hb). destruct H2 as (a' & b' & Ha' & Hb'). congruence. }
    subst. rewrite Nat.add_0_r, Nat.mod_small; auto.
    destruct (current_exists _ _ _ _ _ Hne H1) as (j & p & Hj & Hn & _). assert (j = i) by congruence. subst. apply nth_error_Some. congruence.
  - rewrite app_assoc in H2. apply history_snoc in H2. destruct H2 as (s3 & e & H3 & Hs). apply Forall_app in Hp. destruct Hp as [Hp Ho].
    specialize (IH s3 Hp H3). inversion Ho as [|? ? Ho' _]; subst. destruct o as [es en|]; [|destruct Ho'].
    cbn [pgstep] in Hs. destruct (push_ok pages sel ids s3 es en Hne (history_inv _ _ _ _ _ H3)) as (j & p & e' & Hj & Hl & Hn & E).
    rewrite E in Hs. injection Hs as <- _. cbn [h_index]. unfold target. rewrite Hsel. f_equal. cbn [g_pages pager_of pager_config].
    rewrite mod_succ by exact Hl. assert (Ej : j = ((i + length pushes) mod length pages)%nat) by congruence. rewrite Ej.
    rewrite app_length. cbn [length]. replace (i + (length pushes + 1))%nat with (S (i + length pushes)) by lia.
    rewrite <- (Nat.add_1_r (_ mod _)), Nat.add_mod_idemp_l, Nat.add_1_r; [reflexivity|]. destruct pages; cbn; [congruence|lia].
Qed.

Lemma direct_self pages id ids ops es en s : id <> 0 -> (exists p, In p pages /\ pg_id p = id) ->
  history pages (Some id) ids (ops ++ [GPush es en]) s -> exists i p, current_page pages s i p /\ pg_id p = id /\ first_with pages id i.
Proof.
  intros Hid Hex H. destruct (page_index_has pages id Hex) as (j & Hj).
  assert (Hne : pages <> []) by (destruct Hex as (p & Hp & _); destruct pages; [destruct Hp|discriminate]).
  apply history_snoc in H. destruct H as (s1 & e & H1 & Hs). cbn [pgstep] in Hs.
  destruct (push_ok pages (Some id) ids s1 es en Hne (history_inv _ _ _ _ _ H1)) as (i & p & e' & Hi & Hl & Hn & E).
  rewrite E in Hs. injection Hs as <- _.
  assert (Et : target (pager_of pages (Some id)) i = j).
  { unfold target, pager_of, pager_config. cbn. destruct (id =? 0) eqn:E0; [lia|]. rewrite Hj. reflexivity. }
  rewrite Et in *. apply page_index_some in Hj. exists j, p. repeat split; auto; try apply Hj.
  destruct Hj as [(q & Hq & Hqid) _]. congruence.
Qed.

Lemma direct_proxy pages sel ids ops k es en s id a : nth_error ids k = Some (id, a) -> (exists p, In p pages /\ pg_id p = id) ->
  history pages sel ids (ops ++ [GProxy k es en]) s -> exists i p, current_page pages s i p /\ pg_id p = id /\ first_with pages id i.
Proof.
  intros Hk Hex H. destruct (page_index_has pages id Hex) as (j & Hj).
  assert (Hne : pages <> []) by (destruct Hex as (p & Hp & _); destruct pages; [destruct Hp|discriminate]).
  apply history_snoc in H. destruct H as (s1 & e & H1 & Hs). cbn [pgstep] in Hs.
  assert (Hy : nth_error (proxies_of pages ids) k = Some (make_proxy pages id a)).
  { unfold proxies_of. rewrite nth_error_map, Hk. reflexivity. }
  rewrite Hy in Hs. pose proof (proxy_ok pages sel ids s1 _ es en Hne (history_inv _ _ _ _ _ H1) (nth_error_In _ _ Hy)) as P.
  cbn [make_proxy y_index] in P. rewrite Hj in P. destruct P as (p & e' & Hn & E). rewrite E in Hs. injection Hs as <- _.
  apply page_index_some in Hj. exists j, p. repeat split; auto; try apply Hj. destruct Hj as [(q & Hq & Hqid) _]. congruence.
Qed.

Lemma unknown_proxy pages sel ids ops k es en s s' id a : nth_error ids k = Some (id, a) -> ~ (exists p, In p pages /\ pg_id p = id) ->
  history pages sel ids ops s -> history pages sel ids (ops ++ [GProxy k es en]) s' -> s' = s.
Proof.
  intros Hk Hex H H'. apply history_snoc in H'. destruct H' as (s1 & e & H1 & Hs).
  assert (s1 = s). { destruct H1 as (x & y & Ha & Hb). destruct H as (x' & y' & Ha' & Hb'). congruence. } subst.
  cbn [pgstep] in Hs. unfold proxies_of in Hs at 1. rewrite nth_error_map, Hk in Hs. cbn [option_map fst snd] in Hs.
  unfold proxy_push in Hs. destruct (history_inv _ _ _ _ _ H) as (Hsw & _). rewrite Hsw in Hs. cbn [negb make_proxy y_index] in Hs.
  destruct (page_index pages id) as [j|] eqn:E.
  - apply page_index_some in E. exfalso. apply Hex. destruct E as [(p & Hp & Hid) _]. exists p. split; auto. eapply nth_error_In; eauto.
  - cbn [g_pages pager_of pager_config] in Hs. destruct pages; congruence.
Qed.

Lemma enabled_iff pages sel ids ops s a : pages <> [] -> history pages sel ids ops s ->
  (attached_enabled s (Some a) = true <-> exists i p, current_page pages s i p /\ pg_id p = a).
Proof.
  intros Hne H. destruct (current_exists _ _ _ _ _ Hne H) as (i & p & Hc). unfold attached_enabled.
  destruct Hc as (Hi & Hp & Hid). rewrite Hid. split.
  - intros E. exists i, p. repeat split; auto. lia.
  - intros (j & q & (Hj & Hq & Hqid) & <-). assert (pg_id p = pg_id q) by congruence. lia.
Qed.


(* displays after a push: exactly the proxies whose page is the current one are shown as selected *)
Lemma proxies_draw_in c s en : forall ys k e, proxies_draw c s k ys en = Ok e ->
  forall x, In x e <-> exists n y i p, nth_error ys n = Some y /\ y_switch y = true /\ y_index y = Some i /\ en (k + n)%nat = true /\
    nth_error (g_pages c) i = Some p /\ x = GProxyLed (k + n) (color_of p) (match h_index s with Some j => if (i =? j)%nat then On else Off | None => Off end).
Proof.
  induction ys as [|y ys IH]; intros k e H x; cbn in H.
  - injection H as <-. split; [intros []|]. intros (n & y & i & p & Hn & _). destruct n; discriminate.
  - destruct (proxy_draw c s k y (en k)) as [e1|] eqn:E1; [|discriminate]. destruct (proxies_draw c s (S k) ys en) as [e2|] eqn:E2; [|discriminate].
    injection H as <-. rewrite in_app_iff, (IH _ _ E2). split.
    + intros [Hx|(n & z & i & p & Hn & Hsw & Hi & He & Hp & Hx)].
      * unfold proxy_draw in E1. destruct (y_switch y) eqn:Es; cbn in E1; [|injection E1 as <-; destruct Hx].
        destruct (y_index y) as [i|] eqn:Ei; [|injection E1 as <-; destruct Hx]. destruct (en k) eqn:Ee; cbn in E1; [|injection E1 as <-; destruct Hx].
        destruct (nth_error (g_pages c) i) as [p|] eqn:Ep; [|discriminate]. injection E1 as <-. destruct Hx as [<-|[]].
        exists 0%nat, y, i, p. rewrite Nat.add_0_r. repeat split; auto.
      * exists (S n), z, i, p. replace (k + S n)%nat with (S k + n)%nat by lia. repeat split; auto.
    + intros (n & z & i & p & Hn & Hsw & Hi & He & Hp & Hx). destruct n as [|n].
      * left. cbn in Hn. injection Hn as <-. rewrite Nat.add_0_r in *. unfold proxy_draw in E1. rewrite Hsw, Hi, He, Hp in E1. cbn in E1. injection E1 as <-. left. auto.
      * right. exists n, z, i, p. replace (S k + n)%nat with (k + S n)%nat by lia. repeat split; auto.
Qed.

Lemma draw_shows pages sel ids ops s en e i p : history pages sel ids ops s -> current_page pages s i p ->
  pager_draw (pager_of pages sel) s (proxies_of pages ids) true en = Ok e ->
  In (GLabel (text_of p) (color_of p)) e /\
  (forall n b c, In (GProxyLed n c b) e -> exists id q, nth_error ids n = Some (id, true) /\ en n = true /\
     (exists j, first_with pages id j /\ nth_error pages j = Some q /\ c = color_of q /\ (b = On <-> j = i) /\ (b = Off <-> j <> i))) /\
  (forall n id, nth_error ids n = Some (id, true) -> en n = true -> (exists q, In q pages /\ pg_id q = id) -> exists c b, In (GProxyLed n c b) e).
Proof.
  intros H (Hi & Hp & Hid) Hd. unfold pager_draw in Hd. cbn [g_pages pager_of pager_config] in Hd.
  destruct pages as [|p0 ps] eqn:Epg; [destruct i; discriminate|]. rewrite <- Epg in *. rewrite Hi in Hd. cbn [negb] in Hd. rewrite Hp in Hd.
  match type of Hd with context [match ?a with Ok _ => _ | Raise => Raise end] => destruct a as [a1|] eqn:Ea; [|discriminate] end.
  destruct (proxies_draw _ s 0 (proxies_of pages ids) en) as [b1|] eqn:Eb; [|discriminate]. injection Hd as <-.
  assert (Ea' : forall n c b, ~ In (GProxyLed n c b) a1).
  { intros n c b. match type of Ea with context [match ?g with Some _ => _ | None => _ end] => destruct g as [j|] end.
    - destruct (nth_error pages j); [|discriminate]. injection Ea as <-. intros [Hx|[]]. discriminate.
    - injection Ea as <-. intros [Hx|[]]. discriminate. }
  split; [apply in_or_app; right; left; reflexivity|]. split.
  - intros n b c Hin. apply in_app_or in Hin. destruct Hin as [Hin|[Hin|Hin]]; [exfalso; eapply Ea'; eauto|discriminate|].
    rewrite (proxies_draw_in _ _ _ _ _ _ Eb) in Hin. destruct Hin as (m & y & j & q & Hm & Hsw & Hj & He & Hq & Hx).
    cbn [Nat.add] in *. injection Hx as -> -> ->. unfold proxies_of in Hm. rewrite nth_error_map in Hm.
    destruct (nth_error ids m) as [[id a]|] eqn:Eid; [|discriminate]. cbn in Hm. injection Hm as <-. cbn in *.
    exists id, q. rewrite Hsw. split; [reflexivity|]. split; [exact He|]. exists j. split; [apply page_index_some; exact Hj|].
    split; [exact Hq|]. split; [reflexivity|]. rewrite Hi. destruct (Nat.eqb_spec j i); intuition congruence.
  - intros n id Hn He Hex. destruct (page_index_has pages id Hex) as (j & Hj).
    assert (Hjl := page_index_bound _ _ _ Hj). apply nth_error_Some in Hjl. destruct (nth_error pages j) as [q|] eqn:Eq; [|congruence].
    eexists _, _. apply in_or_app. right. right. rewrite (proxies_draw_in _ _ _ _ _ _ Eb). exists n, (make_proxy pages id true), j, q.
    cbn [Nat.add]. repeat split; auto. unfold proxies_of. rewrite nth_error_map, Hn. reflexivity.
Qed.

Lemma own_led pages sel ids ops s en e i p : history pages sel ids ops s -> current_page pages s i p ->
  pager_draw (pager_of pages sel) s (proxies_of pages ids) true en = Ok e ->
  exists c b, (forall c' b', In (GLed c' b') e <-> c' = c /\ b' = b) /\
    ((exists id j q, sel = Some id /\ id <> 0 /\ first_with pages id j /\ nth_error pages j = Some q /\ c = color_of q /\
        (b = On <-> j = i) /\ (b = Off <-> j <> i)) \/
     ((forall id, sel = Some id -> id = 0 \/ forall q, In q pages -> pg_id q <> id) /\ c = color_of p /\ b = Normal)).
Proof.
  intros H (Hi & Hp & Hid) Hd. unfold pager_draw in Hd. cbn [g_pages pager_of pager_config] in Hd.
  destruct pages as [|p0 ps] eqn:Epg; [destruct i; discriminate|]. rewrite <- Epg in *. rewrite Hi in Hd. cbn [negb] in Hd. rewrite Hp in Hd.
  match type of Hd with context [match ?a with Ok _ => _ | Raise => Raise end] => destruct a as [a1|] eqn:Ea; [|discriminate] end.
  destruct (proxies_draw _ s 0 (proxies_of pages ids) en) as [b1|] eqn:Eb; [|discriminate]. injection Hd as <-.
  assert (Hb1 : forall c b, ~ In (GLed c b) b1).
  { intros c b Hin. rewrite (proxies_draw_in _ _ _ _ _ _ Eb) in Hin. destruct Hin as (m & y & j & q & _ & _ & _ & _ & _ & Hx). discriminate. }
  assert (Hled : forall c b, a1 = [GLed c b] -> forall c' b', In (GLed c' b') (a1 ++ GLabel (text_of p) (color_of p) :: b1) <-> c' = c /\ b' = b).
  { intros c b -> c' b'. cbn. split.
    - intros [Hx|[Hx|Hx]]; [injection Hx as -> ->; auto|discriminate|]. exfalso. eapply Hb1; eauto.
    - intros (-> & ->). auto. }
  unfold pager_of, pager_config in Ea. cbn [g_sel] in Ea. destruct sel as [id|]; [destruct (Z.eqb_spec id 0) as [->|Hn0]; [|destruct (page_index pages id) as [j|] eqn:Ej]|]; cbn iota in Ea.
  - injection Ea as Ea. symmetry in Ea. eexists _, _. split; [apply Hled; exact Ea|]. right. split; [|auto]. intros id [= <-]. auto.
  - destruct (nth_error pages j) as [q|] eqn:Eq; [|discriminate]. injection Ea as Ea. symmetry in Ea. eexists _, _. split; [apply Hled; exact Ea|].
    left. exists id, j, q. apply page_index_some in Ej. split; [reflexivity|]. split; [exact Hn0|]. split; [exact Ej|]. split; [exact Eq|]. split; [reflexivity|].
    destruct (Nat.eqb_spec j i); intuition congruence.
  - injection Ea as Ea. symmetry in Ea. eexists _, _. split; [apply Hled; exact Ea|]. right. split; [|auto]. intros id' [= <-]. right.
    intros q Hq Hid'. destruct (page_index_has pages id) as (j & Hj); [eauto|congruence].
  - injection Ea as Ea. symmetry in Ea. eexists _, _. split; [apply Hled; exact Ea|]. right. split; [|auto]. intros id [=].
Qed.
