(* The client properties in their final form. *)
From Verif.Lib Require Import Base.
From Verif.Model Require Import Midi Period Mapping Client.
From Verif.Spec Require Import Mapping Client.
From Verif.Proofs Require Import Mapping Client ClientTotal ClientHist ClientDep ClientOps ClientPerm.
Open Scope Z_scope.

Lemma reached_inv bi maps0 lt ops c evs : reached bi maps0 lt ops c evs -> Inv bi maps0 lt c.
Proof. intros (Hs & H). apply (crun_ok bi maps0 lt Hs ops _ _ _ (init_inv bi maps0 lt) H). Qed.
Lemma reached_KI bi maps0 lt ops c evs : reached bi maps0 lt ops c evs -> KI maps0 c.
Proof. intros (Hs & H). eapply (crun_KI bi maps0 lt Hs); [apply init_inv|exact H|]. intros k x E. discriminate. Qed.

Lemma c05 bi maps0 lt ops c evs : reached bi maps0 lt ops c evs ->
  NoDup (map r_map (reqs c)) /\ Forall (fun r => exists ls, r_listeners r = Some ls /\ NoDup ls) (reqs c).
Proof.
  intros H. apply reached_inv in H. destruct H as ((_ & Hnd & Hok) & Hf). split; auto.
  rewrite Forall_forall in *. intros r Hin. specialize (Hf r Hin). specialize (Hok r Hin). unfold finished in Hf.
  destruct (r_listeners r) as [ls|] eqn:E; [|discriminate]. exists ls. split; auto. apply Hok. auto.
Qed.

Lemma c06_life bi maps0 lt ops c evs m : reached bi maps0 lt ops c evs -> requested bi maps0 lt m ->
  arun lt m Idle (concat evs) = Some (outstanding c m).
Proof.
  intros (Hs & H) Hm. destruct (crun_ok bi maps0 lt Hs ops _ _ _ (init_inv bi maps0 lt) H) as [_ Ht].
  rewrite outstanding_abs. apply (Ht m Hm).
Qed.

Lemma c06_enlisted bi maps0 lt ops c evs now m x : reached bi maps0 lt ops c evs -> requested bi maps0 lt m ->
  truthy (response_t (maps c m)) = true -> depends (maps c m) = None ->
  exists c' ev t ls, cstep bi c (Request now m (Some x)) = Ok (c', ev) /\ outstanding c' m = Waiting t Open ls /\ In (LExt x) ls.
Proof.
  intros H Hm Hr Hd. apply reached_inv in H. destruct (ask bi maps0 lt c now m (Some x) H Hm Hr Hd) as (c' & ev & Hs & H1 & H2).
  destruct (abs_idle_or_waiting _ _ _ c m H Hm) as [(Ho & _)|(r & t & ls & Ho & _)].
  - destruct (H1 Ho) as (_ & Ho'). exists c', ev, now, [LExt x]. split; auto. split; auto. left. auto.
  - destruct (H2 _ _ Ho) as [(Hin & _ & ->)|(_ & _ & Ho')].
    + exists c, ev, t, ls. auto.
    + exists c', ev, t, (ls ++ [LExt x]). split; auto. split; auto. apply in_or_app. right. left. auto.
Qed.

Lemma c06_once bi maps0 lt ops c evs ops' c' evs' m t ls l : reached bi maps0 lt ops c evs -> requested bi maps0 lt m ->
  outstanding c m = Waiting t Open ls -> In l ls -> crun bi c ops' = Ok (c', evs') ->
  (count (is_notif l m) (concat evs') = 0%nat /\ exists ls', outstanding c' m = Waiting t Open ls' /\ In l ls') \/
  (exists e1 n e2, concat evs' = e1 ++ n :: e2 /\ is_notif l m n = true /\ count (is_notif l m) e1 = 0%nat /\
     forall e3 n' e4, e2 = e3 ++ n' :: e4 -> is_notif l m n' = true -> exists j, In j e3 /\ is_join l m j = true).
Proof.
  intros H Hm Ho Hl Hr. assert (HI := reached_inv _ _ _ _ _ _ H). destruct H as (Hs & _).
  destruct (crun_ok bi maps0 lt Hs ops' _ _ _ HI Hr) as [HI' Ht]. specialize (Ht m Hm). rewrite <- !outstanding_abs, Ho in Ht.
  destruct (abs_idle_or_waiting _ _ _ c m HI Hm) as [(X & _)|(r & t0 & ls0 & X & _ & _ & Hnd & _)]; [congruence|].
  rewrite Ho in X. inv X.
  destruct (told_once lt m l (concat evs') t0 Open ls0 _ Hnd Hl Ht) as [(A & ph' & ls' & B & C)|A]; [|right; exact A].
  left. split; auto. exists ls'. split; auto.
  destruct (abs_idle_or_waiting _ _ _ c' m HI' Hm) as [(X & _)|(r' & t1 & ls1 & X & _)]; congruence.
Qed.

Lemma plain_answer m0 x m' r : two_part m0 = false -> response_t m0 = TOne r -> proper_template r -> parse m0 x = Ok (m', true) ->
  addressed x r /\ exists v, val m' = Some v /\ carries (typ m0) x v.
Proof.
  intros H2 Hr Hp H. unfold parse in H. rewrite H2 in H. unfold parse_plain in H. rewrite Hr in H.
  destruct (parse_against (typ m0) x (Some r)) as [[v|]|] eqn:E; inv H. apply parse_against_some in E. destruct E as [Ha Hc].
  split; auto. exists v. auto.
Qed.

Lemma c06_value bi maps0 lt ops c evs now x c' ev l m v r : reached bi maps0 lt ops c evs ->
  cstep bi c (Receive now (Some x)) = Ok (c', ev) -> In (EvChanged l m v) ev ->
  two_part (maps c m) = false -> response_t (maps c m) = TOne r -> proper_template r ->
  addressed x r /\ exists w, v = Some w /\ carries (typ (maps c m)) x w.
Proof.
  intros _ H Hin H2 Hr Hp. cbn in H. destruct (receive c now (Some x)) as [[[c1 e1]|]|] eqn:E; try discriminate. inv H.
  apply receive_events in E. rewrite Forall_forall in E. specialize (E _ Hin). cbn in E.
  destruct E as (x' & Ex & m0 & m' & (S1 & S2 & S3) & Hpar & _ & ->). inv Ex.
  destruct (plain_answer m0 x' m' r) as (A & w & B & C); try congruence. split; auto. exists w. split; auto. rewrite <- S2. exact C.
Qed.

Lemma c06_answer bi maps0 lt ops c evs now x c' ev m t ls r : reached bi maps0 lt ops c evs -> requested bi maps0 lt m ->
  depends (maps0 m) = None -> outstanding c m = Waiting t Open ls -> now <= t + lt ->
  two_part (maps c m) = false -> response_t (maps c m) = TOne r -> proper_template r -> addressed x r ->
  cstep bi c (Receive now (Some x)) = Ok (c', ev) ->
  exists v, carries (typ (maps c m)) x v /\ val (maps c' m) = Some v /\ changes_of m ev = map (fun l => (l, Some v)) ls.
Proof.
  intros H Hm Hd Ho Hn H2 Hr Hp Ha Hs. pose proof (reached_KI _ _ _ _ _ _ H) as HK. apply reached_inv in H.
  destruct (plain_parse_exact _ r x H2 Hr Hp) as [A _]. destruct (A Ha) as (v & m' & Hc & Hpar & Hv & _).
  destruct (answers bi maps0 lt c now x c' ev m t ls m' H HK Hd Hm Ho Hn) as [B C]; auto; [rewrite Hr; reflexivity|].
  exists v. split; auto. rewrite C, B. split; auto.
  assert (result_finished m' = true) as ->.
  { unfold result_finished. destruct (parse_fields _ _ _ _ Hpar) as (_ & _ & _ & _ & _ & -> & _). rewrite H2. reflexivity. }
  rewrite Hv. reflexivity.
Qed.

Lemma c07_ask bi maps0 lt ops c evs now m l : reached bi maps0 lt ops c evs -> requested bi maps0 lt m ->
  truthy (response_t (maps c m)) = true -> depends (maps c m) = None ->
  exists c' ev, cstep bi c (Request now m l) = Ok (c', ev) /\
    (outstanding c m = Idle -> filter (is_sent m) ev = [EvReqSent m (wire (request_t (maps c m)))]) /\
    (outstanding c m <> Idle -> count (is_sent m) ev = 0%nat).
Proof.
  intros H Hm Hr Hd. apply reached_inv in H. destruct (ask bi maps0 lt c now m l H Hm Hr Hd) as (c' & ev & Hs & H1 & H2).
  exists c', ev. split; auto. split.
  - intros Ho. destruct (H1 Ho) as (-> & _). destruct l; cbn; rewrite Nat.eqb_refl; reflexivity.
  - intros Ho. destruct (abs_idle_or_waiting _ _ _ c m H Hm) as [(X & _)|(r & t & ls & X & _)]; [congruence|].
    specialize (H2 _ _ X). destruct l as [x|]; [|destruct H2 as (-> & _); reflexivity].
    destruct H2 as [(_ & -> & _)|(_ & -> & _)]; reflexivity.
Qed.

Lemma c07_count bi maps0 lt ops c evs m : reached bi maps0 lt ops c evs -> requested bi maps0 lt m ->
  (count (is_sent m) (concat evs) = count (is_answered m) (concat evs) + count (is_expired m) (concat evs) +
     (if match outstanding c m with Idle => true | _ => false end then 0 else 1))%nat.
Proof.
  intros H Hm. pose proof (c06_life _ _ _ _ _ _ _ H Hm) as Ha. apply arun_count in Ha. cbn in Ha. rewrite Ha. f_equal.
  apply reached_inv in H. destruct (abs_idle_or_waiting _ _ _ c m H Hm) as [(-> & _)|(r & t & ls & -> & _)]; reflexivity.
Qed.

Lemma c08_never_early bi maps0 lt ops c evs m e1 t' e2 : reached bi maps0 lt ops c evs -> requested bi maps0 lt m ->
  concat evs = e1 ++ EvExpired m t' :: e2 ->
  exists e0 t e3, e1 = e0 ++ EvOpened m t :: e3 /\ t + lt < t' /\
    count (is_answered m) e3 = 0%nat /\ count (is_expired m) e3 = 0%nat /\ count (is_opened m) e3 = 0%nat.
Proof.
  intros H Hm E. pose proof (c06_life _ _ _ _ _ _ _ H Hm) as Ha.
  destruct (arun_never_early _ _ _ _ _ _ _ _ Ha eq_refl E) as (e0 & t & e3 & -> & Hc & Ht).
  exists e0, t, e3. split; auto. split; auto. clear - Hc.
  assert (forall p : event -> bool, (forall e, p e = true -> is_end m e = true) -> count p e3 = 0%nat) as Hz.
  { intros p Hp. induction e3 as [|e e3 IH]; auto. rewrite count_cons in *. destruct (is_end m e) eqn:Ee; [discriminate|].
    destruct (p e) eqn:Ep; [rewrite (Hp e Ep) in Ee; discriminate|]. apply IH. exact Hc. }
  repeat split; apply Hz; intros e He; unfold is_end; rewrite He; rewrite ?orb_true_r; reflexivity.
Qed.

Lemma c08_terminated_is_timeout bi maps0 lt ops c evs m l e1 e2 : reached bi maps0 lt ops c evs -> requested bi maps0 lt m ->
  concat evs = e1 ++ EvTerminated l m :: e2 ->
  exists e3 t' e4, e2 = e3 ++ EvExpired m t' :: e4 /\ count (is_opened m) e3 = 0%nat /\ count (is_answered m) e3 = 0%nat /\ count (is_expired m) e3 = 0%nat.
Proof.
  intros H Hm E. pose proof (c06_life _ _ _ _ _ _ _ H Hm) as Ha. rewrite E, arun_app in Ha.
  destruct (arun lt m Idle e1) as [a1|] eqn:E1; [|discriminate]. cbn in Ha. rewrite Nat.eqb_refl in Ha.
  destruct a1 as [|t ph [|l' ls]]; cbn in Ha; try discriminate. destruct (open_or_expiring ph && listener_eqb l l'); [|discriminate].
  apply reached_inv in H. destruct (arun_terminated_expires _ _ _ _ _ _ Ha) as [(ls' & X)|(e3 & t' & e4 & -> & Hc & _)].
  - destruct (abs_idle_or_waiting _ _ _ c m H Hm) as [(Y & _)|(r & t0 & ls0 & Y & _)]; congruence.
  - exists e3, t', e4. split; auto. clear - Hc.
    assert (forall p : event -> bool, (forall e, p e = true -> is_end m e = true) -> count p e3 = 0%nat) as Hz.
    { intros p Hp. induction e3 as [|e e3 IH]; auto. rewrite count_cons in *. destruct (is_end m e) eqn:Ee; [discriminate|].
      destruct (p e) eqn:Ep; [rewrite (Hp e Ep) in Ee; discriminate|]. apply IH. exact Hc. }
    repeat split; apply Hz; intros e He; unfold is_end; rewrite He; rewrite ?orb_true_r; reflexivity.
Qed.

Lemma c08_first_poll bi maps0 lt ops c evs now x c' ev m t ls : reached bi maps0 lt ops c evs -> requested bi maps0 lt m ->
  outstanding c m = Waiting t Open ls -> t + lt < now -> last_reset (clean c) + Z.quot lt 2 < now ->
  cstep bi c (Receive now x) = Ok (c', ev) ->
  exists pre post, ev = pre ++ map (fun l => EvTerminated l m) ls ++ EvExpired m now :: post.
Proof. intros H Hm Ho Ht Hc Hs. apply reached_inv in H. eapply poll_live; eauto. Qed.

Lemma c08_bounded bi maps0 lt ops c evs m t ls t1 x mid t2 y c' evs' : reached bi maps0 lt ops c evs -> requested bi maps0 lt m ->
  outstanding c m = Waiting t Open ls -> last_reset (clean c) <= t1 -> t + lt < t1 ->
  Forall (fun o => forall u, op_time o = Some u -> t1 <= u) mid -> t1 + Z.quot lt 2 < t2 ->
  crun bi c (Receive t1 x :: mid ++ [Receive t2 y]) = Ok (c', evs') ->
  exists e, In e (concat evs') /\ (is_answered m e = true \/ is_expired m e = true).
Proof.
  intros H Hm Ho Hcl Ht Hmid Ht2 Hr. assert (HI := reached_inv _ _ _ _ _ _ H). destruct H as (Hs & _).
  eapply (bounded bi maps0 lt Hs m t1 t2 y (Receive t1 x :: mid)); eauto. constructor; auto. intros u E. inv E. lia.
Qed.

Lemma enlisted_find c m : enlisted c m = match find_req m (reqs c) with Some r => match r_listeners r with Some ls => ls | None => [] end | None => [] end.
Proof. unfold enlisted. rewrite find_req_find. destruct (find _ _) as [[a [ls|] p]|]; reflexivity. Qed.
Lemma permanent_perm c m : NoDup (map r_map (reqs c)) -> Forall (fun r => finished r = false) (reqs c) -> permanent c m -> perm_l (reqs c) m = Some (enlisted c m).
Proof.
  intros Hd Hf (r & Hin & Hr & Hl). rewrite enlisted_find. unfold perm_l. rewrite (find_req_in m (reqs c) r); auto. rewrite Hl.
  rewrite Forall_forall in Hf. specialize (Hf r Hin). unfold finished in Hf. destruct (r_listeners r); auto. discriminate.
Qed.
Lemma perm_permanent c m ls : perm_l (reqs c) m = Some ls -> permanent c m /\ enlisted c m = ls.
Proof.
  unfold perm_l. intros H. rewrite enlisted_find. destruct (find_req m (reqs c)) as [r|] eqn:E; [|discriminate].
  destruct (find_req_some _ _ _ E) as [Hin Hr]. destruct (r_life r) eqn:El; [discriminate|]. rewrite H. split; auto. exists r. auto.
Qed.

Lemma c09_registered bi maps0 lt ops c evs now m x c' ev : reached bi maps0 lt ops c evs ->
  truthy (request_t (maps0 m)) = false \/ (bi m = true /\ ~ has_request c m) -> truthy (response_t (maps c m)) = true ->
  cstep bi c (Register now m (Some x)) = Ok (c', ev) -> permanent c' m /\ In (LExt x) (enlisted c' m).
Proof.
  intros H Hreq Hresp Hs. apply reached_inv in H. cbn in Hs. unfold register in Hs. set (c1 := if bi m then _ else c) in *.
  assert (reqs c1 = reqs c /\ response_t (maps c1 m) = response_t (maps c m) /\ truthy (request_t (maps c1 m)) = false) as (Er & Ers & Erq).
  { unfold c1. destruct (bi m) eqn:Eb.
    - split; [reflexivity|]. cbn. unfold upd. rewrite Nat.eqb_refl. auto.
    - split; auto. split; auto. destruct Hreq as [Hq|[Hq _]]; [|discriminate]. destruct H as (((_ & _ & C3 & _) & _) & _).
      destruct (C3 m) as [->|[? _]]; [auto|congruence]. }
  rewrite Ers, Erq, Hresp in Hs. cbn in Hs. unfold register_mapping, create_request in Hs. rewrite Er, Erq in Hs. cbn [Z.ltb] in Hs.
  change (0 <? 0) with false in Hs. destruct H as ((Hcfg & Hnd & Hok) & Hf).
  destruct (find_req m (reqs c)) as [r|] eqn:Ef.
  - destruct (find_req_some _ _ _ Ef) as [Hin Hr]. destruct (r_listeners r) as [ls|] eqn:El; [|discriminate].
    assert (Hlf : r_life r = None).
    { destruct (r_life r) as [p|] eqn:E; auto. rewrite Forall_forall in Hok. destruct (Hok r Hin) as (_ & B & _).
      destruct (B p E) as [_ X]. rewrite Hr in X. destruct Hreq as [Hq|[_ Hq]]; [congruence|]. exfalso. apply Hq. exists r. auto. }
    destruct (existsb (listener_eqb (LExt x)) ls) eqn:Ex; inv Hs.
    + match goal with |- permanent ?c _ /\ _ => assert (perm_l (reqs c) (r_map r) = Some ls) as Hp by (unfold perm_l; rewrite Er, Ef, Hlf; exact El) end.
      destruct (perm_permanent _ _ _ Hp) as [A ->]. split; auto. apply existsb_listener. exact Ex.
    + match goal with |- permanent ?c _ /\ _ => assert (perm_l (reqs c) (r_map r) = Some (ls ++ [LExt x])) as Hp end.
      { unfold perm_l. cbn [reqs with_reqs]. match goal with |- context [upd_req ?m ?f _] => rewrite (find_upd_same m f _ r) end; auto.
        cbn. rewrite Hlf. reflexivity. }
      destruct (perm_permanent _ _ _ Hp) as [A ->]. split; auto. apply in_or_app. right. left. auto.
  - cbn in Hs. inv Hs. match goal with |- permanent ?c _ /\ _ => assert (perm_l (reqs c) m = Some [LExt x]) as Hp end.
    { unfold perm_l. cbn [reqs with_reqs]. rewrite find_req_app, Ef. cbn. rewrite Nat.eqb_refl. reflexivity. }
    destruct (perm_permanent _ _ _ Hp) as [A ->]. split; auto. left. auto.
Qed.

Lemma c09_forever bi maps0 lt ops c evs ops' c' evs' m : reached bi maps0 lt ops c evs -> permanent c m -> crun bi c ops' = Ok (c', evs') ->
  permanent c' m /\ exists more, enlisted c' m = enlisted c m ++ more.
Proof.
  intros H Hp Hr. assert (HI := reached_inv _ _ _ _ _ _ H). destruct H as (Hs & _).
  pose proof (permanent_perm c m (proj1 (proj2 (proj1 HI))) (proj2 HI) Hp) as Hl.
  destruct (crun_pext bi maps0 lt Hs m ops' _ _ _ HI Hr _ Hl) as (more & Hm). destruct (perm_permanent _ _ _ Hm) as [A B]. eauto.
Qed.

Lemma c09_delivery bi maps0 lt ops c evs now x c' ev m r : reached bi maps0 lt ops c evs -> permanent c m -> depends (maps0 m) = None ->
  two_part (maps c m) = false -> response_t (maps c m) = TOne r -> proper_template r -> addressed x r ->
  cstep bi c (Receive now (Some x)) = Ok (c', ev) ->
  exists v, carries (typ (maps c m)) x v /\ val (maps c' m) = Some v /\ changes_of m ev = map (fun l => (l, Some v)) (enlisted c m).
Proof.
  intros H Hperm Hd H2 Hr Hp Ha Hs. pose proof (reached_KI _ _ _ _ _ _ H) as HK. apply reached_inv in H.
  pose proof (permanent_perm c m (proj1 (proj2 (proj1 H))) (proj2 H) Hperm) as Hl.
  destruct (plain_parse_exact _ r x H2 Hr Hp) as [A _]. destruct (A Ha) as (v & m' & Hc & Hpar & Hv & _).
  destruct (delivers bi maps0 lt c now x c' ev m (enlisted c m) m' H HK Hd Hl) as [B C]; auto; [rewrite Hr; reflexivity|].
  exists v. split; auto. rewrite C, B. split; auto.
  assert (result_finished m' = true) as ->.
  { unfold result_finished. destruct (parse_fields _ _ _ _ Hpar) as (_ & _ & _ & _ & _ & -> & _). rewrite H2. reflexivity. }
  rewrite Hv. reflexivity.
Qed.

(* two-part mappings: the same, with the parse result itself *)
Lemma c09_delivery_two_part bi maps0 lt ops c evs now x c' ev m m' : reached bi maps0 lt ops c evs -> permanent c m -> depends (maps0 m) = None ->
  two_part (maps c m) = true -> parse (maps c m) x = Ok (m', true) ->
  cstep bi c (Receive now (Some x)) = Ok (c', ev) ->
  maps c' m = m' /\ changes_of m ev = match value_1 m' with None => map (fun l => (l, val m')) (enlisted c m) | Some _ => [] end.
Proof.
  intros H Hperm Hd H2 Hpar Hs. pose proof (reached_KI _ _ _ _ _ _ H) as HK. apply reached_inv in H.
  pose proof (permanent_perm c m (proj1 (proj2 (proj1 H))) (proj2 H) Hperm) as Hl.
  assert (truthy (response_t (maps c m)) = true) as Ht.
  { unfold parse, parse_two in Hpar. rewrite H2 in Hpar. destruct (response_t (maps c m)) as [|?|[|? ?]]; try discriminate. reflexivity. }
  destruct (delivers bi maps0 lt c now x c' ev m (enlisted c m) m' H HK Hd Hl Ht Hpar Hs) as [B C]. split; auto. rewrite B.
  unfold result_finished. destruct (parse_fields _ _ _ _ Hpar) as (_ & _ & _ & _ & _ & -> & _). rewrite H2. destruct (value_1 m'); reflexivity.
Qed.

Lemma c10 bi maps0 lt ops c evs now x c1 e1 : reached bi maps0 lt ops c evs ->
  (forall m, has_request c m -> ~ concerns x (maps c m)) ->
  cstep bi c (Receive now None) = Ok (c1, e1) -> cstep bi c (Receive now (Some x)) = Ok (c1, e1 ++ [EvUnused x]).
Proof. intros H Hx Hs. apply reached_inv in H. eapply foreign; eauto. intros r Hin. apply Hx. exists r. auto. Qed.

(* a poll without a message only runs the timeouts: permanent registrations and unexpired requests stay, and so do their values *)
Lemma c10_poll bi maps0 lt ops c evs now c1 e1 m : reached bi maps0 lt ops c evs -> cstep bi c (Receive now None) = Ok (c1, e1) ->
  count is_changed e1 = 0%nat /\
  ((permanent c m \/ ~ has_request c m \/ (exists t ls, requested bi maps0 lt m /\ outstanding c m = Waiting t Open ls /\ now <= t + lt)) -> maps c1 m = maps c m).
Proof.
  intros H Hs. assert (HI := reached_inv _ _ _ _ _ _ H). cbn in Hs. destruct (timeouts c now) as [c2 e2] eqn:Et.
  assert (receive c now None = Some (Ok (c2, e2))) as Hr by (unfold receive; rewrite Et; reflexivity). rewrite Hr in Hs. inv Hs.
  destruct (timeouts_facts _ _ _ _ Et) as (F & K & _). split.
  - clear - F. induction F as [|e es He F IH]; auto. rewrite count_cons, IH. destruct e; auto; destruct He.
  - intros [(r & Hin & Hr' & Hl)|[Hno|(t & ls & Hm & Ho & Ht)]].
    + apply K. intros r2 p Hin2 Hr2 Hl2. destruct HI as ((_ & Hnd & _) & _).
      rewrite <- (find_req_in m _ r Hnd Hin Hr') in * || idtac.
      pose proof (find_req_in m _ r Hnd Hin Hr') as X1. pose proof (find_req_in m _ r2 Hnd Hin2 Hr2) as X2. congruence.
    + apply K. intros r p Hin Hr' _. apply Hno. exists r. auto.
    + destruct (abs_idle_or_waiting _ _ _ c m HI Hm) as [(X & _)|(r & t0 & ls0 & X & Ef & _ & _ & El)]; [congruence|]. rewrite Ho in X. inv X.
      unfold timeouts, p_exceeded in Et. destruct (_ <? now); cbn in Et; [|inv Et; reflexivity].
      destruct (expire (maps c) now (reqs c)) as [[f rs] ev] eqn:Ee. inv Et. cbn. eapply expire_maps; eauto. apply HI.
Qed.

(* C11 *)
Lemma c11_asks bi maps0 lt ops c evs now d p x c' ev : reached bi maps0 lt ops c evs -> depends (maps c d) = Some p ->
  truthy (request_t (maps c d)) = true -> truthy (response_t (maps c d)) = true ->
  cstep bi c (Request now d (Some x)) = Ok (c', ev) ->
  In (LDep d) (enlisted c' p) /\ count (is_sent d) ev = 0%nat /\ count (is_opened d) ev = 0%nat.
Proof.
  intros H Hd Hrq Hrs Hs. assert (HI := reached_inv _ _ _ _ _ _ H). destruct H as (Hself & _). cbn in Hs. unfold request_param in Hs.
  rewrite Hrq, Hrs, Hd in Hs. cbn [negb orb] in Hs. set (c1 := match find_dep d (deps c) with Some _ => c | None => _ end) in *.
  assert (p <> d) as Hpd.
  { destruct HI as (((_ & _ & _ & Hdp) & _) & _). destruct (Hdp d) as [E|E]; rewrite Hd in E; [|discriminate]. intros ->. apply (Hself d). auto. }
  pose proof (register_events _ _ _ _ _ _ _ Hs) as F. split; [|split].
  - rewrite enlisted_find. unfold register_mapping in Hs. assert (reqs c1 = reqs c) as Er by (unfold c1; destruct (find_dep d (deps c)); reflexivity).
    rewrite Er in Hs. destruct (find_req p (reqs c)) as [r|] eqn:Ef.
    + destruct (r_listeners r) as [ls|] eqn:El; [|discriminate]. destruct (existsb (listener_eqb (LDep d)) ls) eqn:Ex; injection Hs as <- <-.
      * rewrite Er, Ef, El. apply existsb_listener. exact Ex.
      * cbn [reqs with_reqs]. match goal with |- context [upd_req p ?f _] => rewrite (find_upd_same p f _ r) end; auto.
        cbn. apply in_or_app. right. left. auto.
    + injection Hs as <- <-. cbn [reqs with_reqs]. rewrite find_req_app, Ef. cbn. rewrite Nat.eqb_refl. cbn. left. auto.
  - clear - F Hpd. induction F as [|e es He F IH]; auto. rewrite count_cons, IH. destruct e; auto. destruct He as [-> _]. cbn.
    replace (d =? p)%nat with false by lia. auto.
  - clear - F Hpd. induction F as [|e es He F IH]; auto. rewrite count_cons, IH. destruct e; auto. destruct He as [-> _]. cbn.
    replace (d =? p)%nat with false by lia. auto.
Qed.

Lemma c11_when_changed bi maps0 lt ops c evs p d : reached bi maps0 lt ops c evs -> Forall names_listener ops ->
  depends (maps0 d) = Some p -> requested bi maps0 lt d -> (forall k, depends (maps0 k) <> Some d) ->
  exists s, drun p d (mkD None false DRest) (concat evs) = Some s /\ d_ph s = DRest.
Proof.
  intros (Hs & H) Hn Hd Hm Hk. eexists. split; [eapply (crun_init_dep bi maps0 lt Hs p d); eauto|]. reflexivity.
Qed.

(* a request for the dependent parameter, spelled out *)
Lemma drun_sent p d evs : forall s s' e1 w e2, drun p d s evs = Some s' -> d_ph s = DRest -> evs = e1 ++ EvReqSent d w :: e2 ->
  exists e0 v mid, e1 = e0 ++ EvChanged (LDep d) p v :: mid /\
    Forall (fun e => match e with EvOpened d' _ => d' = d | EvJoined _ d' => d' = d | _ => False end) mid /\
    exists s0, drun p d s e0 = Some s0 /\ value_eqb v (d_last s0) = false.
Proof.
  intros s s' e1 w e2 H Hs ->. rewrite drun_app in H. destruct (drun p d s e1) as [s1|] eqn:E1; [|discriminate].
  cbn in H. rewrite Nat.eqb_refl in H. destruct (d_ph s1) eqn:Ep; try discriminate. clear H.
  assert (G : forall e1 s1, drun p d s e1 = Some s1 -> d_ph s1 = DOpened \/ d_ph s1 = DMust ->
    exists e0 v mid, e1 = e0 ++ EvChanged (LDep d) p v :: mid /\
    Forall (fun e => match e with EvOpened d' _ => d' = d | EvJoined _ d' => d' = d | _ => False end) mid /\
    exists s0, drun p d s e0 = Some s0 /\ value_eqb v (d_last s0) = false); [|eapply G; eauto].
  clear - Hs. intros e1. induction e1 as [|e1 e IH] using rev_ind_snoc; intros s1 H Hp.
  - inv H. destruct Hp; congruence.
  - rewrite drun_app in H. destruct (drun p d s e1) as [s2|] eqn:E2; [|discriminate]. cbn in H.
    destruct (dstep p d s2 e) as [s3|] eqn:Es; inv H.
    assert (Hcase : (exists v, e = EvChanged (LDep d) p v /\ value_eqb v (d_last s2) = false) \/
      ((d_ph s2 = DOpened \/ d_ph s2 = DMust) /\ match e with EvOpened d' _ => d' = d | EvJoined _ d' => d' = d | _ => False end)).
    { clear IH E2. destruct e as [k w|k w|[x|k] m v|l m|k t|l k|k t|k t|x]; cbn in Es;
        try (unfold d_only_at_rest in Es; destruct (d_ph s2) eqn:E; inv Es; destruct Hp; congruence);
        destruct (k =? d)%nat eqn:E; try (unfold d_only_at_rest in Es; destruct (d_ph s2) eqn:E3; inv Es; destruct Hp; congruence);
        apply Nat.eqb_eq in E; subst.
      - destruct (d_ph s2); inv Es. cbn in Hp. destruct Hp; discriminate.
      - destruct (d_ph s2); try discriminate. destruct (m =? p)%nat eqn:E; [|discriminate]. apply Nat.eqb_eq in E. subst. inv Es. cbn in Hp.
        left. exists v. split; auto. destruct (value_eqb v (d_last s2)); auto. cbn in Hp. destruct Hp; discriminate.
      - destruct (d_ph s2) eqn:E; inv Es. auto.
      - destruct (d_ph s2) eqn:E; inv Es; auto. destruct Hp; congruence.
      - destruct (d_ph s2); inv Es. cbn in Hp. destruct Hp; discriminate.
      - destruct (d_ph s2); inv Es. cbn in Hp. destruct Hp; discriminate. }
    destruct Hcase as [(v & -> & Hv)|[Hp2 He]].
    + exists e1, v, []. split; auto. split; [constructor|]. eauto.
    + destruct (IH s2 eq_refl Hp2) as (e0 & v & mid & -> & Hm & Hx). exists e0, v, (mid ++ [e]). rewrite <- app_assoc. split; auto. split; [|exact Hx].
      apply Forall_app. auto.
Qed.

Lemma drun_last p d e : forall s s', drun p d s e = Some s' ->
  d_last s' = fold_left (fun acc e => match e with EvChanged (LDep d') _ v => if (d' =? d)%nat then v else acc | _ => acc end) e (d_last s).
Proof.
  induction e as [|e es IH]; intros s s' H; cbn in H; [inv H; auto|]. destruct (dstep p d s e) as [s1|] eqn:E; [|discriminate].
  rewrite (IH _ _ H). cbn. f_equal. clear - E. destruct e as [k w|k w|[x|k] m v|l m|k t|l k|k t|k t|x]; cbn in E; unfold d_only_at_rest in E;
    repeat match type of E with
    | context [match ?t with _ => _ end] => destruct t
    end; inv E; auto.
Qed.

Lemma c11_only_when_changed : forall bi maps0 lt ops c evs p d e1 w e2, reached bi maps0 lt ops c evs -> Forall names_listener ops ->
  depends (maps0 d) = Some p -> requested bi maps0 lt d -> (forall k, depends (maps0 k) <> Some d) ->
  concat evs = e1 ++ EvReqSent d w :: e2 ->
  exists e0 v mid, e1 = e0 ++ EvChanged (LDep d) p v :: mid /\ value_eqb v (last_told d e0) = false /\
    Forall (fun e => match e with EvOpened d' _ => d' = d | EvJoined _ d' => d' = d | _ => False end) mid.
Proof.
  intros bi maps0 lt ops c evs p d e1 w e2 H Hn Hd Hm Hk E. destruct (c11_when_changed _ _ _ _ _ _ _ _ H Hn Hd Hm Hk) as (s & Hs & _).
  destruct (drun_sent _ _ _ _ _ _ _ _ Hs eq_refl E) as (e0 & v & mid & -> & Hf & s0 & Hs0 & Hv). exists e0, v, mid. split; auto. split; auto.
  unfold last_told. pose proof (drun_last _ _ _ _ _ Hs0) as X. cbn [d_last] in X. rewrite <- X. exact Hv.
Qed.

(* C12 *)
Lemma c12_feedback bi maps0 lt ops c evs now m a c' ev : reached bi maps0 lt ops c evs -> bi m = true ->
  cstep bi c (Set_ now m a) = Ok (c', ev) ->
  exists z, a = One z /\ val (maps c' m) = Some (VNum z) /\
    changes_of m ev = map (fun l => (l, Some (VNum z))) (enlisted c m) /\
    (truthy (set_t (maps c m)) = true -> exists m', set_value (maps c m) (One z) = (m', true) /\
        filter is_set ev = [EvSet m (wire (set_t m'))] /\ set_t (maps c' m) = set_t m') /\
    (truthy (set_t (maps c m)) = false -> filter is_set ev = []).
Proof.
  intros H Hb Hs. apply reached_inv in H. cbn in Hs. destruct (set_param_shape _ _ _ _ _ _ _ Hs) as (c1 & e1 & H1 & H2).
  destruct H2 as [(Hb' & _)|(_ & r & ls & z & e2 & Ef & El & -> & -> & Hn)]; [congruence|].
  exists z. split; auto. set (c2 := with_maps c1 _) in *.
  assert (I0c2 : Inv0 bi maps0 lt c2 /\ val (maps c2 m) = Some (VNum z) /\ reqs c2 = reqs c).
  { assert (Inv0 bi maps0 lt c1 /\ reqs c1 = reqs c) as [A Er].
    { destruct H1 as [(_ & -> & _)|(m' & _ & Hsv & -> & _)]; [split; auto; apply H|]. split; [|reflexivity]. apply I0_upd_map; [apply H| |];
      clear - Hsv; unfold set_value in Hsv; destruct (set_t (maps c m)); cbn in Hsv;
        repeat match type of Hsv with context [match ?t with _ => _ end] => destruct t end; inv Hsv; auto. }
    split; [apply I0_upd_map; auto|]. cbn. unfold upd. rewrite Nat.eqb_refl. auto. }
  destruct I0c2 as (HI2 & Hv2 & Er2). destruct (find_req_some _ _ _ Ef) as [Hin Hrm].
  assert (Hdl : forall d, In (LDep d) ls -> d <> m).
  { rewrite <- Hrm. destruct H as ((_ & _ & Hok) & _). rewrite Forall_forall in Hok. apply (Hok r Hin). auto. }
  destruct (notify_all_ok bi maps0 lt ls c2 now m c' e2 HI2 Hdl Hn) as (_ & (M & _) & _ & _ & _ & _ & Hflt).
  destruct (notify_all_events _ _ _ _ _ _ Hn) as (F & _).
  assert (Hfs : filter is_set e2 = []).
  { clear - F. induction F as [|e es He F IH]; auto. destruct e; cbn; auto. destruct He. }
  rewrite M. split; [exact Hv2|]. split; [|split].
  - rewrite changes_of_app. replace (changes_of m e1) with (@nil (listener * option value)).
    + cbn [app]. rewrite filter_changes, Hflt, changes_map, Hv2. rewrite enlisted_find, Ef, El. reflexivity.
    + destruct H1 as [(_ & _ & ->)|(m' & _ & _ & _ & ->)]; reflexivity.
  - intros Ht. destruct H1 as [(X & _)|(m' & _ & Hsv & -> & ->)]; [congruence|]. exists m'. split; auto. rewrite filter_app, Hfs. split; auto.
    cbn. unfold upd. rewrite !Nat.eqb_refl. reflexivity.
  - intros Ht. destruct H1 as [(_ & _ & ->)|(m' & X & _)]; [|congruence]. exact Hfs.
Qed.
Lemma c12_plain bi c now m a c' ev : bi m = false -> cstep bi c (Set_ now m a) = Ok (c', ev) ->
  (truthy (set_t (maps c m)) = true -> exists m', set_value (maps c m) a = (m', true) /\ ev = [EvSet m (wire (set_t m'))] /\ maps c' m = m') /\
  (truthy (set_t (maps c m)) = false -> ev = [] /\ c' = c).
Proof.
  intros Hb Hs. cbn in Hs. destruct (set_param_shape _ _ _ _ _ _ _ Hs) as (c1 & e1 & H1 & H2).
  destruct H2 as [(_ & -> & ->)|(X & _)]; [|congruence]. destruct H1 as [(X & -> & ->)|(m' & X & Hsv & -> & ->)]; split; intros Y; try congruence; auto.
  exists m'. split; auto. split; auto. cbn. unfold upd. rewrite Nat.eqb_refl. reflexivity.
Qed.

(* C13 *)
Lemma count_terminated_map l m k ls : NoDup ls -> count (is_terminated l m) (map (fun x => EvTerminated x k) ls) =
  if (m =? k)%nat && existsb (listener_eqb l) ls then 1%nat else 0%nat.
Proof.
  induction ls as [|x ls IH]; intros Hd; cbn [map existsb]; [rewrite andb_false_r; reflexivity|].
  apply NoDup_cons_iff in Hd. destruct Hd as [Hn Hd]. rewrite count_cons, (IH Hd). cbn. destruct (m =? k)%nat; cbn; [|rewrite andb_false_r; reflexivity].
  rewrite andb_true_r. destruct (listener_eqb l x) eqn:E; cbn; auto. apply listener_eqb_spec in E. subst.
  destruct (existsb (listener_eqb x) ls) eqn:Ex; auto. exfalso. apply Hn. apply existsb_listener. exact Ex.
Qed.
Lemma c13 bi maps0 lt ops c evs : reached bi maps0 lt ops c evs ->
  exists c' ev, cstep bi c Lost = Ok (c', ev) /\ reqs c' = reqs c /\
    (forall l m, count (is_terminated l m) ev = if bi m && existsb (listener_eqb l) (enlisted c m) then 1%nat else 0%nat) /\
    Forall (fun e => exists l m, e = EvTerminated l m) ev.
Proof.
  intros H. pose proof (c05 _ _ _ _ _ _ H) as [Hnd Hls]. apply reached_inv in H. destruct H as (_ & Hf).
  cbn. pose proof (lost_total bi (reqs c) Hf (maps c)) as Ht. destruct (connection_lost bi (maps c) (reqs c)) as [[f ev]|] eqn:E; [|congruence].
  exists (with_maps c f), ev. split; auto. split; [reflexivity|]. apply lost_shape in E. subst ev. clear Ht. split.
  - intros l m. rewrite enlisted_find. induction (reqs c) as [|r rs IH]; cbn [flat_map find_req]; [rewrite andb_false_r; reflexivity|].
    cbn in Hnd. apply NoDup_cons_iff in Hnd. destruct Hnd as [Hni Hnd]. apply Forall_cons_iff in Hls. destruct Hls as [(ls & El & Hdl) Hls].
    apply Forall_cons_iff in Hf. destruct Hf as [_ Hf].
    specialize (IH Hf Hnd Hls). rewrite count_app, IH. rewrite El. destruct (r_map r =? m)%nat eqn:Em.
    + apply Nat.eqb_eq in Em. subst m. replace (find_req (r_map r) rs) with (@None request) by (symmetry; apply find_req_none; auto).
      cbn [existsb]. rewrite andb_false_r, Nat.add_0_r. destruct (bi (r_map r)); [|reflexivity]. rewrite count_terminated_map by auto.
      rewrite Nat.eqb_refl, El. reflexivity.
    + assert (count (is_terminated l m) (if bi (r_map r) then map (fun l0 => EvTerminated l0 (r_map r)) ls else []) = 0%nat) as ->; [|reflexivity].
      destruct (bi (r_map r)); auto. rewrite count_terminated_map by auto. rewrite Nat.eqb_sym, Em. reflexivity.
  - apply Forall_forall. intros e He. apply in_flat_map in He. destruct He as (r & _ & He). destruct (bi (r_map r)); [|destruct He].
    destruct (r_listeners r); [|destruct He]. apply in_map_iff in He. destruct He as (l0 & <- & _). eauto.
Qed.
