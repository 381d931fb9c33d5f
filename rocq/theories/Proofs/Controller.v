From Verif.Lib Require Import Base.
From Verif.Model Require Import Midi Period Controller.
From Verif.Spec Require Import Controller.
Open Scope nat_scope.

Lemma returned_S mi p k : returned mi p (S k) = mi p :: returned mi (S p) k.
Proof. reflexivity. Qed.
Lemma returned_app mi p a b : returned mi p (a + b) = returned mi p a ++ returned mi (p + a) b.
Proof. unfold returned. rewrite seq_app, map_app. reflexivity. Qed.

(* the fixed part of the configuration *)
Definition same_conf (a b : ctl) : Prop := c_inputs a = c_inputs b /\ c_max a = c_max b /\ c_period a = c_period b /\ c_upd a = c_upd b /\ c_clear a = c_clear b.

Lemma loop_spec fuel mi : forall c cnt c' e, (0 <= cnt)%Z -> (Z.to_nat (c_max c - cnt) < fuel)%nat -> receive_loop fuel mi c cnt = (c', e) ->
  exists k, c' = with_pos c (c_pos c + k) /\ e = flat_map (round (c_inputs c)) (returned mi (c_pos c) k) /\
    1 <= k /\ (k = 1 \/ (cnt + Z.of_nat k <= c_max c + 1)%Z) /\
    (forall i, c_pos c <= i -> i < c_pos c + k - 1 -> mi i <> None) /\
    ((cnt + Z.of_nat k < c_max c + 1)%Z -> mi (c_pos c + k - 1) = None).
Proof.
  induction fuel as [|f IH]; intros c cnt c' e Hc Hf H; [lia|]. cbn [receive_loop] in H.
  destruct (match mi (c_pos c) with None => true | Some _ => false end || (c_max c <? cnt + 1)%Z) eqn:Eb.
  - injection H as <- <-. exists 1. split; [f_equal; lia|]. split; [cbn; rewrite app_nil_r; reflexivity|]. split; [lia|]. split; [auto|]. split; [intros; lia|].
    intros Hlt. replace (c_pos c + 1 - 1) with (c_pos c) by lia. destruct (mi (c_pos c)); auto. cbn in Eb. lia.
  - destruct (receive_loop f mi (with_pos c (S (c_pos c))) (cnt + 1)) as [c2 e2] eqn:E2. injection H as <- <-.
    apply orb_false_iff in Eb. destruct Eb as [Ea Eb].
    apply IH in E2; [|lia|cbn; lia]. cbn [with_pos c_pos c_inputs c_max] in E2. destruct E2 as (k & -> & -> & H1 & H2 & H3 & H4).
    exists (S k). split; [unfold with_pos; cbn; f_equal; lia|]. split; [rewrite returned_S; cbn [flat_map]; reflexivity|]. split; [lia|]. split; [right; lia|]. split.
    + intros i Hi1 Hi2. destruct (Nat.eq_dec i (c_pos c)) as [->|Hn]; [destruct (mi (c_pos c)); [discriminate|cbn in Ea; discriminate]|]. apply H3; lia.
    + intros Hlt. replace (c_pos c + S k - 1) with (S (c_pos c) + k - 1) by lia. apply H4. lia.
Qed.

Lemma receive_spec mi c c' e : receive_midi mi c = (c', e) ->
  exists k, c' = with_pos c (c_pos c + k) /\ pass (c_inputs c) (c_max c) mi (c_pos c) k e.
Proof.
  intros H. apply loop_spec in H; [|lia|lia]. destruct H as (k & -> & -> & H1 & H2 & H3 & H4). exists k. split; [reflexivity|]. unfold pass.
  split; [reflexivity|]. split; [lia|]. split; [destruct H2; [auto|right; lia]|]. split; [exact H3|]. intros; apply H4; lia.
Qed.

Lemma update_spec mi us : forall c c' e, update_all mi c us = (c', e) ->
  exists p', c' = with_pos c p' /\ updating (c_inputs c) (c_max c) mi (c_pos c) us p' e.
Proof.
  induction us as [|u us IH]; intros c c' e H; cbn [update_all] in H.
  - injection H as <- <-. exists (c_pos c). split; [destruct c; reflexivity|constructor].
  - destruct (receive_midi mi c) as [c1 e1] eqn:E1. destruct (update_all mi c1 us) as [c2 e2] eqn:E2. injection H as <- <-.
    apply receive_spec in E1. destruct E1 as (k & -> & Hp). apply IH in E2. destruct E2 as (p' & -> & Hu). cbn in Hu.
    exists p'. split; [reflexivity|]. econstructor; eauto.
Qed.

Lemma tick_spec mi c now c' e : tick mi c now = (c', e) ->
  exists due p1 k e1 e2, due = (last_reset (c_period c) + interval (c_period c) <? now)%Z /\
    e = e1 ++ e2 /\
    (if due then updating (c_inputs c) (c_max c) mi (c_pos c) (c_upd c) p1 e1 else p1 = c_pos c /\ e1 = []) /\
    pass (c_inputs c) (c_max c) mi p1 k e2 /\
    c' = mkCtl (c_inputs c) (c_max c) (mkPeriod (interval (c_period c)) (if due then now else last_reset (c_period c))) (c_upd c) (c_clear c) (p1 + k).
Proof.
  unfold tick, p_exceeded. intros H. exists (last_reset (c_period c) + interval (c_period c) <? now)%Z.
  destruct (last_reset (c_period c) + interval (c_period c) <? now)%Z eqn:Ed.
  - cbn [with_period c_upd] in H. destruct (update_all mi _ (c_upd c)) as [c1 e1] eqn:E1. apply update_spec in E1. destruct E1 as (p1 & -> & Hu). cbn in Hu.
    destruct (receive_midi mi _) as [c2 e2] eqn:E2. apply receive_spec in E2. destruct E2 as (k & -> & Hp). injection H as <- <-. cbn in Hp.
    exists p1, k, e1, e2. auto 10.
  - destruct (receive_midi mi _) as [c2 e2] eqn:E2. apply receive_spec in E2. destruct E2 as (k & -> & Hp). injection H as <- <-. cbn in Hp.
    exists (c_pos c), k, [], e2. split; auto. split; auto. split; auto. split; auto. cbn. destruct c as [? ? [? ?] ? ? ?]; reflexivity.
Qed.

Lemma flat_round inputs l : taken (flat_map (round inputs) l) = l /\ given (flat_map (round inputs) l) = l /\ updated (flat_map (round inputs) l) = [] /\ ~ stuck (flat_map (round inputs) l).
Proof.
  assert (A : forall n k, taken (map CPoll (seq k n)) = [] /\ given (map CPoll (seq k n)) = [] /\ updated (map CPoll (seq k n)) = [] /\ ~ stuck (map CPoll (seq k n))).
  { induction n as [|n IH]; intros k; cbn; [auto|]. destruct (IH (S k)) as (H1 & H2 & H3 & H4). repeat (split; auto). intros [E|E]; [discriminate|auto]. }
  induction l as [|x l (H1 & H2 & H3 & H4)]; [cbn; auto|]. destruct (A inputs 0) as (A1 & A2 & A3 & A4). cbn [flat_map]. unfold taken, given, updated, stuck in *.
  rewrite !flat_map_app, H1, H2, H3. unfold round at 1 2 3 4. rewrite !flat_map_app, A1, A2, A3. cbn. split; auto. split; auto. split; auto. rewrite !in_app_iff. cbn. intros [[E|[E|[E|[]]]]|E]; try discriminate; auto.
Qed.

Lemma pass_facts inputs limit mi p k e : pass inputs limit mi p k e -> taken e = returned mi p k /\ given e = returned mi p k /\ updated e = [] /\ ~ stuck e.
Proof. intros (-> & _). apply flat_round. Qed.

Lemma updating_facts inputs limit mi p us p' e : updating inputs limit mi p us p' e ->
  p <= p' /\ taken e = returned mi p (p' - p) /\ given e = returned mi p (p' - p) /\ updated e = us /\ ~ stuck e.
Proof.
  induction 1 as [p|p u us k e p' e' Hp Hu (I0 & I1 & I2 & I3 & I4)].
  - rewrite Nat.sub_diag. unfold stuck. cbn. intuition.
  - destruct (pass_facts _ _ _ _ _ _ Hp) as (F1 & F2 & F3 & F4). split; [lia|].
    unfold taken, given, updated, stuck in *. rewrite !flat_map_app, F1, F2, F3. cbn. rewrite I1, I2, I3.
    replace (p' - p) with (k + (p' - (p + k))) by lia. rewrite returned_app. split; auto. split; auto. split; auto.
    rewrite in_app_iff. cbn. intros [E|[E|E]]; [auto|discriminate|auto].
Qed.

Lemma tick_facts mi c now c' e : tick mi c now = (c', e) ->
  c_pos c <= c_pos c' /\ taken e = returned mi (c_pos c) (c_pos c' - c_pos c) /\ given e = returned mi (c_pos c) (c_pos c' - c_pos c) /\
  updated e = (if (last_reset (c_period c) + interval (c_period c) <? now)%Z then c_upd c else []) /\ ~ stuck e.
Proof.
  intros H. apply tick_spec in H. destruct H as (due & p1 & k & e1 & e2 & -> & -> & Hu & Hp & ->). cbn [c_pos].
  destruct (pass_facts _ _ _ _ _ _ Hp) as (F1 & F2 & F3 & F4).
  assert (G : c_pos c <= p1 /\ taken e1 = returned mi (c_pos c) (p1 - c_pos c) /\ given e1 = returned mi (c_pos c) (p1 - c_pos c) /\
    updated e1 = (if (last_reset (c_period c) + interval (c_period c) <? now)%Z then c_upd c else []) /\ ~ stuck e1).
  { destruct (_ <? now)%Z; [eapply updating_facts; eauto|]. destruct Hu as [-> ->]. rewrite Nat.sub_diag. unfold stuck. cbn. intuition. }
  destruct G as (G0 & G1 & G2 & G3 & G4). split; [lia|]. unfold taken, given, updated, stuck in *. rewrite !flat_map_app, F1, F2, F3, G1, G2, G3, app_nil_r.
  replace (p1 + k - c_pos c) with ((p1 - c_pos c) + k) by lia. rewrite returned_app. replace (c_pos c + (p1 - c_pos c)) with p1 by lia.
  split; auto. split; auto. split; auto. rewrite in_app_iff. tauto.
Qed.

(* ---- histories ---- *)
Lemma run_pos mi c ops : forall c' h, run (cstep mi) c ops = (c', h) ->
  c_pos c <= c_pos c' /\ taken (all_events h) = returned mi (c_pos c) (c_pos c' - c_pos c) /\ given (all_events h) = returned mi (c_pos c) (c_pos c' - c_pos c) /\
  c_inputs c' = c_inputs c /\ c_max c' = c_max c /\ ~ stuck (all_events h).
Proof.
  induction ops as [|ops o IH] using rev_ind_snoc; intros c' h H.
  - rewrite run_nil in H. injection H as <- <-. rewrite Nat.sub_diag. unfold stuck. cbn. intuition.
  - rewrite run_snoc in H. destruct (run (cstep mi) c ops) as [c1 h1] eqn:E1. cbn [fst snd] in H. destruct (IH _ _ eq_refl) as (I0 & I1 & I2 & I3 & I4 & I5).
    destruct o as [now|ok u]; cbn [cstep] in H.
    + destruct (tick mi c1 now) as [c2 e] eqn:Et. cbn in H. injection H as <- <-.
      destruct (tick_facts _ _ _ _ _ Et) as (T0 & T1 & T2 & _ & T3). apply tick_spec in Et. destruct Et as (due & p1 & k & e1 & e2 & _ & _ & _ & _ & Hc).
      split; [lia|]. unfold all_events, taken, given, stuck in *. rewrite !flat_map_app. cbn [flat_map snd]. rewrite app_nil_r, I1, I2, T1, T2.
      replace (c_pos c2 - c_pos c) with ((c_pos c1 - c_pos c) + (c_pos c2 - c_pos c1)) by lia. rewrite returned_app. replace (c_pos c + (c_pos c1 - c_pos c)) with (c_pos c1) by lia.
      rewrite Hc. cbn. split; auto. split; auto. split; auto. split; auto. rewrite in_app_iff. tauto.
    + injection H as <- <-. assert (P : c_pos (add_updateable c1 ok u) = c_pos c1 /\ c_inputs (add_updateable c1 ok u) = c_inputs c1 /\ c_max (add_updateable c1 ok u) = c_max c1).
      { unfold add_updateable. destruct (negb ok); auto. destruct (existsb _ _); auto. }
      destruct P as (P1 & P2 & P3). rewrite P1, P2, P3. unfold all_events in *. rewrite !flat_map_app. cbn. rewrite !app_nil_r. auto 10.
Qed.

Lemma firsts_snoc l x : firsts (l ++ [x]) = if existsb (Nat.eqb x) (firsts l) then firsts l else firsts l ++ [x].
Proof.
  induction l as [|y l IH]; cbn [app firsts existsb]; auto. rewrite IH. destruct (Nat.eqb_spec x y) as [->|Hn]; cbn [orb].
  - destruct (existsb (Nat.eqb y) (firsts l)) eqn:E; auto. rewrite filter_app. cbn. rewrite Nat.eqb_refl. cbn. rewrite app_nil_r. reflexivity.
  - assert (F : existsb (Nat.eqb x) (filter (fun y0 => negb (y0 =? y)) (firsts l)) = existsb (Nat.eqb x) (firsts l)).
    { clear IH. induction (firsts l) as [|z q IH]; cbn; auto. destruct (Nat.eqb_spec z y) as [->|]; cbn; rewrite IH; auto. destruct (Nat.eqb_spec x y); [congruence|auto]. }
    rewrite F. destruct (existsb (Nat.eqb x) (firsts l)); auto. rewrite filter_app. cbn. destruct (Nat.eqb_spec x y); [congruence|]. cbn. reflexivity.
Qed.

Lemma due_snoc i l ts t : due_times i l (ts ++ [t]) = due_times i l ts ++ (if (last (due_times i l ts) l + i <? t)%Z then [t] else []).
Proof.
  revert l. induction ts as [|a ts IH]; intros l; cbn [app due_times last]; [destruct (_ <? t)%Z; reflexivity|].
  destruct (l + i <? a)%Z; [|apply IH]. rewrite IH. cbn [app]. f_equal. f_equal.
  replace (last (a :: due_times i a ts) l) with (last (due_times i a ts) a); auto.
  destruct (due_times i a ts) as [|b q]; auto. cbn [last]. clear. revert b. induction q as [|c q IH]; intros b; auto. change (last (c :: q) a = last (c :: q) l). apply IH.
Qed.

Lemma run_state mi inputs limit i clear ops : forall c h, run (cstep mi) (new_ctl inputs limit i clear) ops = (c, h) ->
  c_inputs c = inputs /\ c_max c = limit /\ c_upd c = firsts (added ops) /\ interval (c_period c) = i /\ last_reset (c_period c) = last_update i ops.
Proof.
  induction ops as [|ops o IH] using rev_ind_snoc; intros c h H.
  - rewrite run_nil in H. injection H as <- <-. auto 10.
  - rewrite run_snoc in H. destruct (run (cstep mi) (new_ctl inputs limit i clear) ops) as [c1 h1] eqn:E1. cbn [fst snd] in H. destruct (IH _ _ eq_refl) as (I1 & I2 & I3 & I4 & I5).
    unfold last_update, added, tick_times in *. rewrite !flat_map_app. destruct o as [now|ok u]; cbn [cstep] in H.
    + destruct (tick mi c1 now) as [c2 e] eqn:Et. cbn in H. injection H as <- <-.
      apply tick_spec in Et. destruct Et as (due & p1 & k & e1 & e2 & -> & _ & _ & _ & ->). cbn [c_upd c_period c_inputs c_max interval last_reset flat_map app]. rewrite app_nil_r. split; auto. split; auto. split; auto. split; auto.
      rewrite due_snoc, I4, I5. destruct (_ <? now)%Z; [rewrite last_last; auto|rewrite app_nil_r; auto].
    + injection H as <- <-. cbn [flat_map]. rewrite !app_nil_r. unfold add_updateable. destruct ok; cbn [negb app].
      * rewrite firsts_snoc, <- I3. destruct (existsb _ _); cbn; auto 10.
      * rewrite app_nil_r. auto 10.
Qed.

(* The event lists of every tick in any history *)
Lemma history_ticks mi inputs limit i clear ops1 now ops2 c h : run (cstep mi) (new_ctl inputs limit i clear) (ops1 ++ Tick now :: ops2) = (c, h) ->
  exists h1 e h2, h = h1 ++ (Tick now, e) :: h2 /\ length h1 = length ops1 /\
    updated e = (if (last_update i ops1 + i <? now)%Z then firsts (added ops1) else []).
Proof.
  intros H. rewrite run_app in H. destruct (run (cstep mi) (new_ctl inputs limit i clear) ops1) as [c1 h1] eqn:E1. cbn [fst snd] in H.
  rewrite run_cons in H. cbn [cstep] in H. destruct (tick mi c1 now) as [c2 e] eqn:Et. cbn [fst snd app] in H. injection H as _ <-.
  exists h1, e. eexists. split; [reflexivity|]. split.
  - pose proof (f_equal snd E1) as E. cbn in E. rewrite <- E. clear. induction ops1 as [|l o IH] using rev_ind_snoc; [reflexivity|]. rewrite run_snoc. cbn [snd]. rewrite !app_length, IH. f_equal.
    destruct o; cbn; [destruct (tick _ _ _)|]; reflexivity.
  - destruct (run_state _ _ _ _ _ _ _ _ E1) as (S1 & S2 & S3 & S4 & S5). destruct (tick_facts _ _ _ _ _ Et) as (_ & _ & _ & T & _). rewrite T, S3, S4, S5. reflexivity.
Qed.

Lemma firsts_facts l : NoDup (firsts l) /\ forall u, In u (firsts l) <-> In u l.
Proof.
  induction l as [|x l [I1 I2]]; cbn; [split; [constructor|tauto]|]. split.
  - constructor; [rewrite filter_In, Nat.eqb_refl; cbn; intros [_ H]; discriminate|]. apply NoDup_filter. auto.
  - intros u. rewrite filter_In, I2. destruct (Nat.eqb_spec u x) as [->|]; cbn; intuition.
Qed.

(* updating ticks are spaced *)
Lemma due_apart i l ts a b q1 q2 : due_times i l ts = q1 ++ a :: b :: q2 -> (a + i < b)%Z.
Proof.
  revert l q1. induction ts as [|t ts IH]; intros l q1 H; cbn in H; [destruct q1; discriminate|].
  destruct (l + i <? t)%Z; [|eauto]. destruct q1 as [|z q1]; cbn in H; [|injection H as -> H; eauto].
  injection H as -> H. assert (forall m, due_times i m ts = b :: q2 -> (m + i < b)%Z) as K; [|eauto].
  clear. induction ts as [|t ts IH]; cbn; intros m H; [discriminate|]. destruct (Z.ltb_spec (m + i) t); [injection H as -> _; lia|eauto].
Qed.

Lemma run_ops mi ops : forall c c' h, run (cstep mi) c ops = (c', h) -> map fst h = ops.
Proof.
  induction ops as [|ops o IH] using rev_ind_snoc; intros c c' h H; [rewrite run_nil in H; injection H as _ <-; reflexivity|].
  rewrite run_snoc in H. destruct (run (cstep mi) c ops) as [c1 h1] eqn:E1. cbn [fst snd] in H. apply IH in E1.
  destruct o; cbn [cstep] in H; [destruct (tick mi c1 now)|]; injection H as _ <-; rewrite map_app, E1; reflexivity.
Qed.

Lemma app_len_inj {A} (a b c d : list A) : a ++ b = c ++ d -> length a = length c -> a = c /\ b = d.
Proof. revert c. induction a as [|x a IH]; intros [|y c] H L; cbn in *; try discriminate; auto. injection H as -> H. destruct (IH c H) as [-> ->]; auto. Qed.

(* updated e of a tick at a given place of the history *)
Lemma history_at mi inputs limit i clear ops c h h1 now e h2 : run (cstep mi) (new_ctl inputs limit i clear) ops = (c, h) -> h = h1 ++ (Tick now, e) :: h2 ->
  updated e = (if (last_update i (map fst h1) + i <? now)%Z then firsts (added (map fst h1)) else []).
Proof.
  intros H Eh. pose proof (run_ops _ _ _ _ _ H) as Ho. rewrite Eh, map_app in Ho. cbn in Ho. rewrite <- Ho in H.
  destruct (history_ticks _ _ _ _ _ _ _ _ _ _ H) as (g1 & e' & g2 & Eg & Lg & Hu). rewrite Eh in Eg. rewrite map_length in Lg.
  apply app_len_inj in Eg; [|auto]. destruct Eg as [-> Eg]. injection Eg as -> ->. auto.
Qed.

Lemma added_app a b : added (a ++ b) = added a ++ added b.
Proof. apply flat_map_app. Qed.

Lemma updates_apart mi inputs limit i clear ops c h h1 a e1 h2 b e2 h3 : run (cstep mi) (new_ctl inputs limit i clear) ops = (c, h) ->
  h = h1 ++ (Tick a, e1) :: h2 ++ (Tick b, e2) :: h3 -> updated e1 <> [] -> updated e2 <> [] -> (forall x, In x h2 -> updated (snd x) = []) ->
  (a + i < b)%Z.
Proof.
  intros H Eh U1 U2 Hn.
  assert (F : forall l, firsts (added (map fst h1)) <> [] -> firsts (added (map fst (h1 ++ (Tick a, e1) :: l))) <> []).
  { intros l N. rewrite map_app, added_app. intros E. destruct (added (map fst h1)); [apply N; reflexivity|discriminate]. }
  pose proof (history_at _ _ _ _ _ _ _ _ h1 a e1 _ H Eh) as A. destruct (Z.ltb_spec (last_update i (map fst h1) + i) a) as [La|]; [|congruence].
  assert (N : firsts (added (map fst h1)) <> []) by congruence.
  assert (L : forall l1 l2, h2 = l1 ++ l2 -> last_update i (map fst (h1 ++ (Tick a, e1) :: l1)) = a).
  { induction l1 as [|l1 x IH] using rev_ind_snoc; intros l2 El.
    - unfold last_update, tick_times. rewrite map_app, flat_map_app. cbn. rewrite due_snoc. unfold last_update, tick_times in La.
      apply Z.ltb_lt in La. rewrite La. apply last_last.
    - rewrite <- app_assoc in El. cbn in El. specialize (IH _ El).
      assert (Ex : updated (snd x) = []) by (apply Hn; rewrite El; apply in_or_app; right; left; reflexivity).
      replace (h1 ++ (Tick a, e1) :: l1 ++ [x]) with ((h1 ++ (Tick a, e1) :: l1) ++ [x]) by (rewrite <- app_assoc; reflexivity).
      unfold last_update, tick_times in *. rewrite (map_app _ _ [x]), flat_map_app. destruct x as [[t|ok u] ex]; cbn [map fst flat_map app]; [|rewrite app_nil_r; auto].
      rewrite due_snoc, IH. cbn [snd] in Ex. rewrite El in Eh.
      assert (Eh' : h = (h1 ++ (Tick a, e1) :: l1) ++ (Tick t, ex) :: (l2 ++ (Tick b, e2) :: h3)) by (rewrite Eh; rewrite <- app_assoc; cbn [app]; rewrite <- app_assoc; reflexivity).
      pose proof (history_at _ _ _ _ _ _ _ _ _ _ _ _ H Eh') as B. unfold last_update, tick_times in B. rewrite IH in B.
      destruct (a + i <? t)%Z; [|rewrite app_nil_r; auto]. exfalso. pose proof (F l1 N). congruence. }
  specialize (L h2 [] ltac:(rewrite app_nil_r; reflexivity)).
  assert (Eh' : h = (h1 ++ (Tick a, e1) :: h2) ++ (Tick b, e2) :: h3) by (rewrite Eh, <- app_assoc; reflexivity).
  pose proof (history_at _ _ _ _ _ _ _ _ _ _ _ _ H Eh') as B. rewrite L in B. destruct (Z.ltb_spec (a + i) b); [auto|congruence].
Qed.

(* ---- draining ---- *)
Lemma drain_spec fuel mi : forall c c' e, drain fuel mi c = (c', e) ->
  (stuck e /\ forall j, c_pos c <= j -> j < c_pos c + fuel -> mi j <> None) \/
  (exists k, k < fuel /\ c' = with_pos c (c_pos c + k + 1) /\ e = map CTake (returned mi (c_pos c) (k + 1)) /\
     mi (c_pos c + k) = None /\ forall j, c_pos c <= j -> j < c_pos c + k -> mi j <> None).
Proof.
  induction fuel as [|f IH]; intros c c' e H; cbn [drain] in H.
  - injection H as <- <-. left. split; [left; reflexivity|lia].
  - destruct (mi (c_pos c)) as [m|] eqn:Em.
    + destruct (drain f mi _) as [c2 e2] eqn:E2. injection H as <- <-. apply IH in E2. cbn in E2. destruct E2 as [[A B]|(k & K1 & -> & -> & K2 & K3)].
      * left. split; [right; auto|]. intros j J1 J2. destruct (Nat.eq_dec j (c_pos c)) as [->|]; [congruence|]. apply B; lia.
      * right. exists (S k). split; [lia|]. split; [unfold with_pos; cbn; f_equal; lia|]. split; [cbn [Nat.add]; rewrite returned_S, Em; reflexivity|].
        split; [replace (c_pos c + S k) with (S (c_pos c + k)) by lia; auto|]. intros j J1 J2. destruct (Nat.eq_dec j (c_pos c)) as [->|]; [congruence|]. apply K3; lia.
    + injection H as <- <-. right. exists 0. rewrite Nat.add_0_r. split; [lia|]. split; [f_equal; lia|]. split; [cbn; rewrite Em; reflexivity|]. split; auto. lia.
Qed.

Lemma stuck_map mi p k : ~ stuck (map CTake (returned mi p k)).
Proof. unfold stuck. rewrite in_map_iff. intros (x & E & _). discriminate. Qed.

Lemma init_spec fuel mi c c' e : init fuel mi c = (c', e) -> ~ stuck e ->
  given e = [] /\
  (c_clear c = false -> c' = c /\ e = []) /\
  (c_clear c = true -> exists k, c' = with_pos c (c_pos c + k + 1) /\ e = map CTake (returned mi (c_pos c) (k + 1)) /\
     mi (c_pos c + k) = None /\ forall j, c_pos c <= j -> j < c_pos c + k -> mi j <> None).
Proof.
  unfold init. destruct (c_clear c).
  - intros H Hs. apply drain_spec in H. destruct H as [[A _]|(k & _ & -> & -> & K2 & K3)]; [tauto|]. split; [|split; [discriminate|eauto 10]].
    clear. unfold given. induction (returned _ _ _); cbn; auto.
  - intros H _. injection H as <- <-. split; auto. split; auto. discriminate.
Qed.

Lemma init_returns mi c : c_clear c = true ->
  ((exists fuel, ~ stuck (snd (init fuel mi c))) <-> exists k, c_pos c <= k /\ mi k = None).
Proof.
  intros Hc. unfold init. rewrite Hc. split.
  - intros [fuel H]. destruct (drain fuel mi c) as [c' e] eqn:E. apply drain_spec in E. destruct E as [[A _]|(k & _ & _ & _ & K & _)]; [cbn in H; tauto|]. exists (c_pos c + k). split; [lia|auto].
  - intros (k & K1 & K2). exists (S (k - c_pos c)). destruct (drain _ mi c) as [c' e] eqn:E. apply drain_spec in E. destruct E as [[_ A]|(j & _ & _ & -> & _)]; [|apply stuck_map].
    exfalso. apply (A k); auto. lia.
Qed.

(* ---- pixels ---- *)
Lemma inner_pixels ps : forall r, (r <= fold_left (fun ret p => if (ret <? p + 1)%Z then (p + 1)%Z else ret) ps r)%Z /\
  (forall p, In p ps -> (p < fold_left (fun ret p => if (ret <? p + 1)%Z then (p + 1)%Z else ret) ps r)%Z) /\
  (fold_left (fun ret p => if (ret <? p + 1)%Z then (p + 1)%Z else ret) ps r = r \/ exists p, In p ps /\ fold_left (fun ret p => if (ret <? p + 1)%Z then (p + 1)%Z else ret) ps r = (p + 1)%Z).
Proof.
  induction ps as [|a ps IH]; intros r; cbn [fold_left].
  - split; [lia|]. split; [intros p []|auto].
  - destruct (IH (if (r <? a + 1)%Z then (a + 1)%Z else r)) as (H1 & H2 & H3). split; [destruct (Z.ltb_spec r (a + 1)); lia|]. split.
    + intros p [->|Hp]; [destruct (Z.ltb_spec r (p + 1)); lia|auto].
    + destruct H3 as [->|(p & Hp & ->)]; [destruct (Z.ltb_spec r (a + 1)); [right; exists a; cbn; auto|auto]|right; exists p; cbn; auto].
Qed.
Lemma num_pixels_spec pss : (0 <= num_pixels pss)%Z /\ (forall ps p, In ps pss -> In p ps -> (p < num_pixels pss)%Z) /\
  (num_pixels pss = 0%Z \/ exists ps p, In ps pss /\ In p ps /\ num_pixels pss = (p + 1)%Z).
Proof.
  unfold num_pixels. set (f := fun ret ps => fold_left (fun ret p => if (ret <? p + 1)%Z then (p + 1)%Z else ret) ps ret).
  assert (G : forall r, (r <= fold_left f pss r)%Z /\ (forall ps p, In ps pss -> In p ps -> (p < fold_left f pss r)%Z) /\
    (fold_left f pss r = r \/ exists ps p, In ps pss /\ In p ps /\ fold_left f pss r = (p + 1)%Z)).
  { induction pss as [|qs pss IH]; intros r; cbn [fold_left].
    - split; [lia|]. split; [intros ps p []|auto].
    - destruct (IH (f r qs)) as (H1 & H2 & H3). destruct (inner_pixels qs r) as (G1 & G2 & G3). fold (f r qs) in G1, G2, G3. split; [lia|]. split.
      + intros ps p [->|Hp] Hi; [specialize (G2 p Hi); lia|eauto].
      + destruct H3 as [->|(ps & p & A & B & ->)]; [destruct G3 as [->|(p & A & ->)]; [auto|right; exists qs, p; cbn; auto]|right; exists ps, p; cbn; auto]. }
  apply (G 0%Z).
Qed.
