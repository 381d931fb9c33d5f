From Verif.Lib Require Import Base.
From Verif.Model Require Import Midi Period Mapping Protocol.
From Verif.Spec Require Import Protocol.

Lemma bytes_eqb_spec a b : bytes_eqb a b = true <-> a = b.
Proof.
  revert b. induction a as [|x a IH]; intros [|y b]; cbn; split; intros H; try discriminate; auto.
  - apply andb_true_iff in H. destruct H as [H1 H2]. apply Z.eqb_eq in H1. apply IH in H2. congruence.
  - inv H. rewrite Z.eqb_refl. apply IH. auto.
Qed.

Definition sensingb (x : msg) : bool :=
  match x with SysEx man d => bytes_eqb man NRPN_MANUFACTURER_ID && bytes_eqb (slice d 2 5) (slice sense_data 2 5) | _ => false end.
Lemma sensing_spec x : sensingb x = true <-> sensing x.
Proof.
  split.
  - destruct x as [| |man d| |]; try discriminate. cbn [sensingb]. intros H. apply andb_true_iff in H. destruct H as [H1 H2].
    apply bytes_eqb_spec in H1, H2. subst man. destruct d as [|a [|b [|c [|e [|f d]]]]]; try discriminate. cbn in H2. inv H2. constructor.
  - intros H. inv H. reflexivity.
Qed.

Lemma last_time_snoc k evs e : last_time k (evs ++ e) = fold_left (fun t e => if k e then p_time e else t) e (last_time k evs).
Proof. unfold last_time. apply fold_left_app. Qed.
Lemma connected_snoc evs e : connected (evs ++ e) = fold_left (fun c e => match e with POnline _ => true | POffline _ => false | _ => c end) e (connected evs).
Proof. unfold connected. apply fold_left_app. Qed.

Record PInv (lease : Z) (tuner : bool) (ops : list pop) (p : protocol) (evs : list pevent) : Prop := {
  i_run : running p = connected evs;
  i_lease : lease_encoded p = Z.quot lease 2;
  i_tuner : tuner_mode p = tuner;
  i_resend : resend_period p = mkPeriod (lease * 500) (last_time is_alive evs);
  i_init : init_period p = mkPeriod 5000 (last_time is_init evs);
  i_sint : interval (sensing_period p) = 1500;
  i_sense : running p = true -> last_sensed ops (last_reset (sensing_period p));
  i_been : has_been_running p = existsb is_online evs;
  i_sent : init_sent p = existsb is_init evs;
  i_runsent : running p = true -> init_sent p = true
}.

Lemma last_sensed_snoc_upd ops t now : last_sensed ops t -> last_sensed (ops ++ [PUpdate now]) t.
Proof.
  intros (o1 & x & o2 & -> & Hs & F). exists o1, x, (o2 ++ [PUpdate now]). rewrite <- app_assoc. split; auto. split; auto.
  apply Forall_app. auto.
Qed.
Lemma last_sensed_snoc_rcv ops t now x : last_sensed ops t -> ~ sensing x -> last_sensed (ops ++ [PReceive now x]) t.
Proof.
  intros (o1 & y & o2 & -> & Hs & F) Hx. exists o1, y, (o2 ++ [PReceive now x]). rewrite <- app_assoc. split; auto. split; auto.
  apply Forall_app. auto.
Qed.
Lemma last_sensed_snoc_sense ops now x : sensing x -> last_sensed (ops ++ [PReceive now x]) now.
Proof. intros H. exists ops, x, []. auto. Qed.

(* receive, with the boolean test *)
Lemma p_receive_eq p now x : p_receive p now x =
  if init_sent p && sensingb x then
    (with_sensing (if running p then p else with_running (with_been (with_resend p (p_reset (resend_period p) now)) true) true)
       (p_reset (sensing_period p) now), if running p then [] else [POnline now], true)
  else (p, [], false).
Proof.
  unfold p_receive, sensingb. destruct (init_sent p); cbn [negb andb]; auto. destruct x as [| |man d| |]; auto.
  destruct (bytes_eqb man NRPN_MANUFACTURER_ID); cbn [negb andb]; auto.
  destruct (bytes_eqb (slice d 2 5) (slice sense_data 2 5)); cbn [negb]; auto. destruct (running p) eqn:E; cbn; rewrite ?E; auto.
Qed.

Lemma pinv_init lease tuner t0 : PInv lease tuner [] (new_protocol lease tuner t0) [].
Proof. constructor; cbn; auto. discriminate. Qed.

Lemma pinv_step lease tuner ops p evs o : PInv lease tuner ops p evs ->
  PInv lease tuner (ops ++ [o]) (fst (pstep p o)) (evs ++ snd (pstep p o)).
Proof.
  intros [I1 I2 I3 I4 I5 I6 I7 I8 I9 I10]. destruct o as [now|now x]; cbn [pstep].
  - unfold p_update. destruct (running p) eqn:Er; cbn [negb].
    + destruct (p_exceeded (sensing_period p) now) as [ex sp] eqn:Ep. unfold p_exceeded in Ep.
      destruct (last_reset (sensing_period p) + interval (sensing_period p) <? now) eqn:E1; inv Ep.
      * cbn. constructor; cbn; rewrite ?connected_snoc, ?last_time_snoc, ?existsb_app; cbn; rewrite ?orb_false_r; auto; discriminate.
      * cbn [resend_period with_sensing]. rewrite I4. unfold p_exceeded. cbn [last_reset interval].
        destruct (last_time is_alive evs + lease * 500 <? now) eqn:E2; cbn;
          (constructor; cbn; rewrite ?app_nil_r, ?connected_snoc, ?last_time_snoc, ?existsb_app; cbn; rewrite ?orb_false_r; auto; try congruence;
           intros _; apply last_sensed_snoc_upd; auto).
    + rewrite I5. unfold p_exceeded. cbn [last_reset interval]. destruct (last_time is_init evs + 5000 <? now) eqn:E2; cbn.
      * rewrite I8. destruct (existsb is_online evs) eqn:Eo; cbn;
          (constructor; cbn; rewrite ?connected_snoc, ?last_time_snoc, ?existsb_app; cbn; rewrite ?orb_false_r, ?orb_true_r; auto; try congruence).
      * constructor; cbn; rewrite ?app_nil_r; auto; congruence.
  - rewrite p_receive_eq. destruct (init_sent p && sensingb x) eqn:Ei; cbn [fst snd].
    + apply andb_true_iff in Ei. destruct Ei as [Ei Hs]. apply sensing_spec in Hs. destruct (running p) eqn:Er; cbn.
      * constructor; cbn; rewrite ?app_nil_r; auto; [congruence|]. intros _. apply last_sensed_snoc_sense. auto.
      * constructor; cbn; rewrite ?connected_snoc, ?last_time_snoc, ?existsb_app; cbn; rewrite ?orb_false_r, ?orb_true_r; auto.
        -- rewrite I4. reflexivity.
        -- intros _. apply last_sensed_snoc_sense. auto.
    + constructor; cbn; rewrite ?app_nil_r; auto. intros Hr. apply last_sensed_snoc_rcv; auto.
      intros Hs. apply sensing_spec in Hs. rewrite Hs, (I10 Hr) in Ei. discriminate.
Qed.

Lemma pinv lease tuner t0 ops p evs : p_reached lease tuner t0 ops p evs -> PInv lease tuner ops p evs.
Proof.
  revert p evs. induction ops as [|ops o IH] using rev_ind_snoc; intros p evs H; unfold p_reached in *.
  - rewrite run_nil in H. inv H. apply pinv_init.
  - rewrite run_snoc in H. inv H. apply pinv_step. apply IH. apply surjective_pairing.
Qed.

(* C14: exactly what an update does *)
Lemma update_exact lease tuner t0 ops p evs now : p_reached lease tuner t0 ops p evs ->
  (connected evs = false ->
    snd (p_update p now) =
      if last_time is_init evs + 5000 <? now
      then (if existsb is_online evs then [PLost now] else []) ++ [PSend now true (the_beacon lease tuner true)] else []) /\
  (connected evs = true -> exists t, last_sensed ops t /\
    snd (p_update p now) =
      if t + 1500 <? now then [POffline now]
      else if last_time is_alive evs + 500 * lease <? now then [PSend now false (the_beacon lease tuner false)] else []).
Proof.
  intros H. apply pinv in H. destruct H as [I1 I2 I3 I4 I5 I6 I7 I8 I9 I10]. unfold p_update, beacon. split; intros Hc.
  - rewrite I1, Hc, I5. cbn [negb]. unfold p_exceeded. cbn [last_reset interval].
    destruct (last_time is_init evs + 5000 <? now); cbn; auto. rewrite I8, I2, I3. reflexivity.
  - rewrite I1, Hc in *. cbn [negb]. exists (last_reset (sensing_period p)). split; [auto|].
    destruct (p_exceeded (sensing_period p) now) as [ex sp] eqn:Ep. unfold p_exceeded in Ep. rewrite I6 in Ep.
    destruct (last_reset (sensing_period p) + 1500 <? now) eqn:E1; injection Ep as <- <-; cbn [snd]; auto.
    cbn [resend_period with_sensing]. rewrite I4. unfold p_exceeded. cbn [last_reset interval].
    replace (500 * lease) with (lease * 500) by lia. destruct (last_time is_alive evs + lease * 500 <? now); cbn; auto.
    rewrite I2, I3. reflexivity.
Qed.

Lemma receive_exact lease tuner t0 ops p evs now x : p_reached lease tuner t0 ops p evs ->
  exists p' ev used, p_receive p now x = (p', ev, used) /\
  (used = true <-> sensing x /\ existsb is_init evs = true) /\
  (connected evs = false -> (sensing x /\ existsb is_init evs = true) -> ev = [POnline now]) /\
  (connected evs = true \/ ~ (sensing x /\ existsb is_init evs = true) -> ev = []).
Proof.
  intros H. apply pinv in H. destruct H as [I1 I2 I3 I4 I5 I6 I7 I8 I9 I10]. rewrite p_receive_eq. rewrite I9, I1.
  pose proof (sensing_spec x) as Hx. destruct (existsb is_init evs) eqn:Ei; destruct (sensingb x) eqn:Es; cbn [andb]; eexists _, _, _; (split; [reflexivity|]).
  - destruct (connected evs); repeat split; auto; try tauto; try discriminate. intros [?|Hn]; [discriminate|]. exfalso. apply Hn. split; auto. tauto.
  - repeat split; try discriminate; try tauto; intros; exfalso; destruct Hx as [_ Hx]; intuition discriminate.
  - repeat split; try discriminate; try tauto; intros; exfalso; intuition discriminate.
  - repeat split; try discriminate; try tauto; intros; exfalso; intuition discriminate.
Qed.

(* consecutive events *)
Lemma last_time_consecutive k evs : forall a b e1 e2 e3, evs = e1 ++ a :: e2 ++ b :: e3 -> k a = true -> Forall (fun e => k e = false) e2 ->
  last_time k (e1 ++ a :: e2) = p_time a.
Proof.
  intros a b e1 e2 e3 _ Ha F. rewrite last_time_snoc. cbn. rewrite Ha. clear - F. induction F as [|e es He F IH]; cbn; auto. rewrite He. exact IH.
Qed.

(* every event of a history is emitted by a step from a shorter one *)
Lemma event_origin lease tuner t0 ops : forall p evs e1 e e2, p_reached lease tuner t0 ops p evs -> evs = e1 ++ e :: e2 ->
  exists ops1 o ops2 p1 evs1 pre post, ops = ops1 ++ o :: ops2 /\ p_reached lease tuner t0 ops1 p1 evs1 /\
    snd (pstep p1 o) = pre ++ e :: post /\ e1 = evs1 ++ pre /\ (exists e3, e2 = post ++ e3).
Proof.
  induction ops as [|ops o IH] using rev_ind_snoc; intros p evs e1 e e2 H E; unfold p_reached in H.
  - rewrite run_nil in H. inv H. destruct e1; discriminate.
  - rewrite run_snoc in H. destruct (run pstep (new_protocol lease tuner t0) ops) as [p0 evs0] eqn:Er. cbn in H. inv H.
    match goal with H : _ ++ _ = _ ++ _ |- _ => rename H into Ha end.
    apply app_eq_app in Ha. destruct Ha as (l & [[-> Hl]|[-> Hl]]).
    + destruct l as [|e' l].
      * cbn in Hl. exists ops, o, [], p0, e1, [], e2. rewrite app_nil_r in Er. split; auto. split; [exact Er|]. split; auto.
        split; [rewrite app_nil_r; auto|]. exists []. rewrite app_nil_r. auto.
      * cbn in Hl. injection Hl as <- ->. destruct (IH _ _ e1 e l Er eq_refl) as (o1 & o' & o2 & p1 & v1 & pre & post & -> & A & B & C & e3 & ->).
        exists o1, o', (o2 ++ [o]), p1, v1, pre, post. rewrite <- app_assoc. split; auto. split; auto. split; auto. split; auto.
        eexists. rewrite <- app_assoc. reflexivity.
    + exists ops, o, [], p0, evs0, l, e2. split; auto. split; [exact Er|]. split; auto. split; auto. exists []. rewrite app_nil_r. auto.
Qed.

(* What kinds of events a step can emit, in a compact form. *)
Lemma step_cases lease tuner t0 ops p evs o : p_reached lease tuner t0 ops p evs ->
  snd (pstep p o) = [] \/
  (exists now, o = PUpdate now /\ connected evs = false /\ last_time is_init evs + 5000 < now /\
     snd (pstep p o) = (if existsb is_online evs then [PLost now] else []) ++ [PSend now true (the_beacon lease tuner true)]) \/
  (exists now t, o = PUpdate now /\ connected evs = true /\ last_sensed ops t /\ t + 1500 < now /\ snd (pstep p o) = [POffline now]) \/
  (exists now t, o = PUpdate now /\ connected evs = true /\ last_sensed ops t /\ now <= t + 1500 /\ last_time is_alive evs + 500 * lease < now /\
     snd (pstep p o) = [PSend now false (the_beacon lease tuner false)]) \/
  (exists now x, o = PReceive now x /\ connected evs = false /\ sensing x /\ existsb is_init evs = true /\ snd (pstep p o) = [POnline now]).
Proof.
  intros H. destruct o as [now|now x]; cbn [pstep].
  - destruct (update_exact _ _ _ _ _ _ now H) as [H1 H2]. destruct (connected evs) eqn:Ec.
    + destruct (H2 eq_refl) as (t & Ht & ->). destruct (t + 1500 <? now) eqn:E1.
      * right. right. left. exists now, t. repeat split; auto. lia.
      * destruct (last_time is_alive evs + 500 * lease <? now) eqn:E2; auto. right. right. right. left. exists now, t. repeat split; auto; lia.
    + rewrite (H1 eq_refl). destruct (last_time is_init evs + 5000 <? now) eqn:E2; auto. right. left. exists now. repeat split; auto; lia.
  - destruct (receive_exact _ _ _ _ _ _ now x H) as (p' & ev & used & E & H1 & H2 & H3). rewrite E. cbn [snd].
    destruct used.
    + destruct H1 as [H1 _]. specialize (H1 eq_refl). destruct (connected evs) eqn:Ec; [left; auto|]. right. right. right. right.
      exists now, x. destruct H1. repeat split; auto.
    + left. apply H3. right. intros X. destruct H1 as [_ H1]. discriminate (H1 X).
Qed.

Lemma single_split {A} (a : A) pre e post : [a] = pre ++ e :: post -> pre = [] /\ e = a /\ post = [].
Proof. destruct pre as [|x pre]; cbn; intros H; inv H; auto. destruct pre; discriminate. Qed.
Lemma lost_split b now (e9 : pevent) pre e post : (if b : bool then [PLost now] else []) ++ [e9] = pre ++ e :: post ->
  (b = true /\ pre = [] /\ e = PLost now /\ post = [e9]) \/ (pre = (if b then [PLost now] else []) /\ e = e9 /\ post = []).
Proof.
  destruct b; cbn; intros H.
  - destruct pre as [|x pre]; cbn in H; inv H; auto. right. apply single_split in H2. destruct H2 as (-> & -> & ->). auto.
  - apply single_split in H. destruct H as (-> & -> & ->). auto.
Qed.

Lemma init_beacon lease tuner t0 ops p evs e1 t w e2 : p_reached lease tuner t0 ops p evs -> evs = e1 ++ PSend t true w :: e2 ->
  last_time is_init e1 + 5000 < t /\ connected e1 = false /\ (existsb is_online e1 = true -> exists e0, e1 = e0 ++ [PLost t]).
Proof.
  intros H E. destruct (event_origin _ _ _ _ _ _ _ _ _ H E) as (o1 & o & o2 & p1 & v1 & pre & post & _ & H1 & Hs & -> & _).
  destruct (step_cases _ _ _ _ _ _ o H1) as [X|[(now & _ & Hc & Ht & X)|[(now & t9 & _ & _ & _ & _ & X)|[(now & t9 & _ & _ & _ & _ & _ & X)|(now & x & _ & _ & _ & _ & X)]]]];
    rewrite X in Hs; try (symmetry in Hs; apply app_eq_nil in Hs; destruct Hs; discriminate); try (apply single_split in Hs; destruct Hs as (_ & Hs & _); discriminate).
  apply lost_split in Hs. destruct Hs as [(_ & _ & ? & _)|(-> & Hs & _)]; [discriminate|]. inv Hs.
  destruct (existsb is_online v1) eqn:Eo; rewrite ?app_nil_r, ?last_time_snoc, ?connected_snoc; cbn; split; auto; split; auto.
  - intros _. exists v1. auto.
  - congruence.
Qed.
Lemma init_spacing lease tuner t0 ops p evs a b : p_reached lease tuner t0 ops p evs -> consecutive is_init evs a b -> p_time a + 5000 < p_time b.
Proof.
  intros H (e1 & e2 & e3 & E & Ka & Kb & F). destruct b as [t [|] w| | |]; try discriminate.
  rewrite app_comm_cons, app_assoc in E. destruct (init_beacon _ _ _ _ _ _ _ _ _ _ H E) as (Ht & _).
  rewrite (last_time_consecutive is_init _ a a e1 e2 [] eq_refl Ka F) in Ht. exact Ht.
Qed.

Lemma keepalive_beacon lease tuner t0 ops p evs e1 t w e2 : p_reached lease tuner t0 ops p evs -> evs = e1 ++ PSend t false w :: e2 ->
  last_time is_alive e1 + 500 * lease < t /\ connected e1 = true.
Proof.
  intros H E. destruct (event_origin _ _ _ _ _ _ _ _ _ H E) as (o1 & o & o2 & p1 & v1 & pre & post & _ & H1 & Hs & -> & _).
  destruct (step_cases _ _ _ _ _ _ o H1) as [X|[(now & _ & Hc & Ht & X)|[(now & t9 & _ & _ & _ & _ & X)|[(now & t9 & _ & Hc & _ & _ & Ht & X)|(now & x & _ & _ & _ & _ & X)]]]];
    rewrite X in Hs; try (symmetry in Hs; apply app_eq_nil in Hs; destruct Hs; discriminate).
  - apply lost_split in Hs. destruct Hs as [(_ & _ & ? & _)|(-> & Hs & _)]; discriminate.
  - apply single_split in Hs. destruct Hs as (_ & Hs & _). discriminate.
  - apply single_split in Hs. destruct Hs as (-> & Hs & _). inv Hs. rewrite app_nil_r. auto.
  - apply single_split in Hs. destruct Hs as (_ & Hs & _). discriminate.
Qed.
Lemma keepalive_spacing lease tuner t0 ops p evs a b : p_reached lease tuner t0 ops p evs -> consecutive is_alive evs a b -> is_keepalive b = true ->
  p_time a + 500 * lease < p_time b.
Proof.
  intros H (e1 & e2 & e3 & E & Ka & _ & F) Kb. destruct b as [t [|] w| | |]; try discriminate.
  rewrite app_comm_cons, app_assoc in E. destruct (keepalive_beacon _ _ _ _ _ _ _ _ _ _ H E) as (Ht & _).
  rewrite (last_time_consecutive is_alive _ a a e1 e2 [] eq_refl Ka F) in Ht. exact Ht.
Qed.

Lemma offline_exact lease tuner t0 ops p evs e1 t e2 : p_reached lease tuner t0 ops p evs -> evs = e1 ++ POffline t :: e2 ->
  connected e1 = true /\ exists ops1 ops2 t9, ops = ops1 ++ PUpdate t :: ops2 /\ last_sensed ops1 t9 /\ t9 + 1500 < t.
Proof.
  intros H E. destruct (event_origin _ _ _ _ _ _ _ _ _ H E) as (o1 & o & o2 & p1 & v1 & pre & post & Eo & H1 & Hs & -> & _).
  destruct (step_cases _ _ _ _ _ _ o H1) as [X|[(now & _ & Hc & Ht & X)|[(now & t9 & -> & Hc & Hl & Ht & X)|[(now & t9 & _ & _ & _ & _ & _ & X)|(now & x & _ & _ & _ & _ & X)]]]];
    rewrite X in Hs; try (symmetry in Hs; apply app_eq_nil in Hs; destruct Hs; discriminate).
  - apply lost_split in Hs. destruct Hs as [(_ & _ & ? & _)|(-> & Hs & _)]; discriminate.
  - apply single_split in Hs. destruct Hs as (-> & Hs & _). inv Hs. rewrite app_nil_r. split; auto. exists o1, o2, t9. auto.
  - apply single_split in Hs. destruct Hs as (_ & Hs & _). discriminate.
  - apply single_split in Hs. destruct Hs as (_ & Hs & _). discriminate.
Qed.

Lemma online_exact lease tuner t0 ops p evs e1 t e2 : p_reached lease tuner t0 ops p evs -> evs = e1 ++ POnline t :: e2 ->
  connected e1 = false /\ existsb is_init e1 = true /\ exists ops1 x ops2, ops = ops1 ++ PReceive t x :: ops2 /\ sensing x.
Proof.
  intros H E. destruct (event_origin _ _ _ _ _ _ _ _ _ H E) as (o1 & o & o2 & p1 & v1 & pre & post & Eo & H1 & Hs & -> & _).
  destruct (step_cases _ _ _ _ _ _ o H1) as [X|[(now & _ & Hc & Ht & X)|[(now & t9 & _ & _ & _ & _ & X)|[(now & t9 & _ & _ & _ & _ & _ & X)|(now & x & -> & Hc & Hx & Hi & X)]]]];
    rewrite X in Hs; try (symmetry in Hs; apply app_eq_nil in Hs; destruct Hs; discriminate).
  - apply lost_split in Hs. destruct Hs as [(_ & _ & ? & _)|(-> & Hs & _)]; discriminate.
  - apply single_split in Hs. destruct Hs as (_ & Hs & _). discriminate.
  - apply single_split in Hs. destruct Hs as (_ & Hs & _). discriminate.
  - apply single_split in Hs. destruct Hs as (-> & Hs & _). inv Hs. rewrite app_nil_r. split; auto. split; auto. exists o1, x, o2. auto.
Qed.

Lemma lost_exact lease tuner t0 ops p evs e1 t e2 : p_reached lease tuner t0 ops p evs -> evs = e1 ++ PLost t :: e2 ->
  existsb is_online e1 = true /\ connected e1 = false /\ exists w e3, e2 = PSend t true w :: e3.
Proof.
  intros H E. destruct (event_origin _ _ _ _ _ _ _ _ _ H E) as (o1 & o & o2 & p1 & v1 & pre & post & Eo & H1 & Hs & -> & (e3 & ->)).
  destruct (step_cases _ _ _ _ _ _ o H1) as [X|[(now & _ & Hc & Ht & X)|[(now & t9 & _ & _ & _ & _ & X)|[(now & t9 & _ & _ & _ & _ & _ & X)|(now & x & -> & Hc & Hx & Hi & X)]]]];
    rewrite X in Hs; try (symmetry in Hs; apply app_eq_nil in Hs; destruct Hs; discriminate);
    try (apply single_split in Hs; destruct Hs as (_ & Hs & _); discriminate).
  apply lost_split in Hs. destruct Hs as [(Hb & -> & Hs & ->)|(-> & Hs & _)]; [|discriminate]. inv Hs. rewrite app_nil_r. split; auto. split; auto.
  eexists _, _. reflexivity.
Qed.

(* C15 *)
Lemma beacon_of_history lease tuner t0 ops p evs t i w : p_reached lease tuner t0 ops p evs -> In (PSend t i w) evs -> w = the_beacon lease tuner i.
Proof.
  intros H Hin. apply in_split in Hin. destruct Hin as (e1 & e2 & E).
  destruct (event_origin _ _ _ _ _ _ _ _ _ H E) as (o1 & o & o2 & p1 & v1 & pre & post & Eo & H1 & Hs & -> & (e3 & ->)).
  destruct (step_cases _ _ _ _ _ _ o H1) as [X|[(now & _ & Hc & Ht & X)|[(now & t9 & _ & _ & _ & _ & X)|[(now & t9 & _ & _ & _ & _ & _ & X)|(now & x & -> & Hc & Hx & Hi & X)]]]];
    rewrite X in Hs; try (symmetry in Hs; apply app_eq_nil in Hs; destruct Hs; discriminate);
    try (apply single_split in Hs; destruct Hs as (_ & Hs & _); inv Hs; auto).
  apply lost_split in Hs. destruct Hs as [(Hb & -> & Hs & ->)|(-> & Hs & _)]; inv Hs. auto.
Qed.
Lemma flags_bits i tuner : let f := get_flags i true false false false tuner in
  0 <= f <= 127 /\ Z.testbit f 0 = i /\ Z.testbit f 1 = true /\ Z.testbit f 5 = tuner /\
  (forall k, k <> 0 -> k <> 1 -> k <> 5 -> Z.testbit f k = false).
Proof.
  cbn zeta. assert (forall f, 0 <= f <= 127 -> forall k, 7 <= k -> Z.testbit f k = false) as Hbig.
  { intros f Hf k Hk. destruct (Z.eq_dec f 0) as [-> |]; [apply Z.testbit_0_l|]. apply Z.bits_above_log2; try lia.
    assert (Z.log2 f < 7) by (apply Z.log2_lt_pow2; lia). lia. }
  assert (0 <= get_flags i true false false false tuner <= 127) as Hr by (destruct i, tuner; vm_compute; split; discriminate).
  split; auto. split; [destruct i, tuner; reflexivity|]. split; [destruct i, tuner; reflexivity|]. split; [destruct i, tuner; reflexivity|].
  intros k H0 H1 H5. destruct (Z.ltb_spec k 0); [apply Z.testbit_neg_r; auto|]. destruct (Z.leb_spec 7 k); [apply Hbig; auto|].
  assert (k = 2 \/ k = 3 \/ k = 4 \/ k = 6) as [-> |[-> |[-> | ->]]] by lia; destruct i, tuner; reflexivity.
Qed.
Lemma beacon_content lease tuner t0 ops p evs t i w : p_reached lease tuner t0 ops p evs -> In (PSend t i w) evs ->
  exists f l, w = SysEx [0; 32; 51] [2; 127; 126; 0; 64; 2; f; l] /\ 0 <= f <= 127 /\
    bit f 0 = i /\ bit f 1 = true /\ bit f 5 = tuner /\ (forall k, k <> 0 -> k <> 1 -> k <> 5 -> bit f k = false) /\
    (0 <= lease <= 255 -> 0 <= l <= 127 /\ 2 * l <= lease < 2 * l + 2).
Proof.
  intros H Hin. rewrite (beacon_of_history _ _ _ _ _ _ _ _ _ H Hin). unfold the_beacon. destruct (flags_bits i tuner) as (A & B & C & D & E).
  eexists _, _. split; [reflexivity|]. split; auto. split; auto. split; auto. split; auto. split; auto.
  intros Hl. rewrite Z.quot_div_nonneg by lia. lia.
Qed.
