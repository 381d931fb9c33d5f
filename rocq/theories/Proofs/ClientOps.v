(* Single operations of the client, and what they do to requests, registrations and listeners (C06-C10, C12, C13). *)
From Verif.Lib Require Import Base.
From Verif.Model Require Import Midi Period Mapping Client.
From Verif.Spec Require Import Client.
From Verif.Proofs Require Import Client ClientTotal ClientHist ClientDep.
Open Scope Z_scope.

Lemma changes_of_app m e1 e2 : changes_of m (e1 ++ e2) = changes_of m e1 ++ changes_of m e2.
Proof. unfold changes_of. apply flat_map_app. Qed.

(* ---- what a list of notifications produces ---- *)

Definition notify_ev (now : Z) (m : mid) (v : option value) (ls : list listener) (e : event) : Prop :=
  match e with
  | EvChanged l k w => In l ls /\ k = m /\ w = v
  | EvOpened k t => t = now /\ In (LDep k) ls
  | EvJoined l k => In (LDep k) ls /\ exists x, l = LExt x
  | EvReqSent k _ => In (LDep k) ls
  | _ => False
  end.

Lemma notify_events c now m l c' evs : notify c now m l = Ok (c', evs) ->
  Forall (notify_ev now m (val (maps c m)) [l]) evs /\ maps c' = maps c /\ life c' = life c /\ clean c' = clean c.
Proof.
  intros H. unfold notify in H.
  assert (Hun : Forall (notify_ev now m (val (maps c m)) [l]) [EvChanged l m (val (maps c m))] /\ maps c = maps c /\ life c = life c /\ clean c = clean c)
    by (repeat split; constructor; cbn; auto).
  destruct l as [x|d]; [inv H; exact Hun|]. destruct (find_dep d (deps c)) as [[last inner]|]; [|inv H; exact Hun].
  destruct (value_eqb _ _); [inv H; exact Hun|]. clear Hun.
  destruct (register_mapping _ now d _ true) as [[c1 e1]|] eqn:Er; [|discriminate]. inv H.
  pose proof (register_deps _ _ _ _ _ _ _ Er) as [_ Em]. split; [|split; [exact Em|]].
  - constructor; [cbn; auto|]. apply register_events in Er. eapply Forall_impl; [|exact Er].
    intros e He. destruct e; cbn in *; try tauto; destruct He; subst; auto. split; auto. destruct inner; inv H0. eauto.
  - clear - Er. unfold register_mapping in Er. destruct (find_req d _) as [r|].
    + destruct (option_map LExt inner); [|inv Er; auto]. destruct (r_listeners r); [|discriminate]. destruct (existsb _ _); inv Er; auto.
    + inv Er. auto.
Qed.
Lemma notify_all_events ls : forall c now m c' evs, notify_all c now m ls = Ok (c', evs) ->
  Forall (notify_ev now m (val (maps c m)) ls) evs /\ maps c' = maps c /\ life c' = life c /\ clean c' = clean c.
Proof.
  induction ls as [|l ls IH]; intros c now m c' evs H; cbn in H; [inv H; auto|].
  destruct (notify c now m l) as [[c1 e1]|] eqn:E1; [|discriminate].
  destruct (notify_all c1 now m ls) as [[c2 e2]|] eqn:E2; [|discriminate]. inv H.
  destruct (notify_events _ _ _ _ _ _ E1) as (F1 & M1 & L1 & C1). destruct (IH _ _ _ _ _ E2) as (F2 & M2 & L2 & C2).
  split; [|repeat split; congruence]. apply Forall_app. rewrite M1 in F2. split; (eapply Forall_impl; [|eassumption]); intros e He;
    destruct e; cbn in *; try tauto; destruct He; subst; auto; intuition.
Qed.

(* ---- what a received message produces ---- *)

Definition same_tmpl (a b : mapping) : Prop := response_t a = response_t b /\ typ a = typ b /\ two_part a = two_part b.

Definition recv_ev (c0 : client) (now : Z) (x : msg) (e : event) : Prop :=
  match e with
  | EvChanged l m v => exists m0 m', same_tmpl m0 (maps c0 m) /\ parse m0 x = Ok (m', true) /\ result_finished m' = true /\ v = val m'
  | EvOpened _ t | EvAnswered _ t => t = now
  | EvJoined _ _ | EvReqSent _ _ => True
  | _ => False
  end.

Lemma parse_request_events c0 c now i x c1 e1 p1 : (forall m, same_tmpl (maps c m) (maps c0 m)) ->
  parse_request c now i x = Ok (c1, e1, p1) ->
  Forall (recv_ev c0 now x) e1 /\ (forall m, same_tmpl (maps c1 m) (maps c0 m)).
Proof.
  intros Hs H. unfold parse_request in H.
  destruct (nth_error (reqs c) i) as [r|] eqn:En; [|inv H; auto].
  destruct (negb _); [inv H; auto|]. destruct (r_listeners r) as [ls|] eqn:El; [|inv H; auto].
  destruct (parse _ x) as [[m' [|]]|] eqn:Ep; [|inv H; auto|discriminate].
  destruct (parse_fields _ _ _ _ Ep) as (_ & _ & Frs & _ & Ft & Ftp & _).
  set (c2 := with_maps c (upd (maps c) (r_map r) m')) in *.
  assert (Hs2 : forall m, same_tmpl (maps c2 m) (maps c0 m)).
  { intros m. cbn. unfold upd. destruct (m =? r_map r)%nat eqn:E; auto. apply Nat.eqb_eq in E. subst.
    destruct (Hs (r_map r)) as (A & B & C). unfold same_tmpl. rewrite Frs, Ft, Ftp. auto. }
  destruct (negb (result_finished m')) eqn:Erf; [inv H; auto|]. apply negb_false_iff in Erf.
  destruct (notify_all c2 now (r_map r) ls) as [[c3 ev]|] eqn:Ea; [|discriminate].
  destruct (notify_all_events _ _ _ _ _ _ Ea) as (F & M & _).
  assert (Forall (recv_ev c0 now x) ev) as F'.
  { eapply Forall_impl; [|exact F]. intros e He. destruct e; cbn in *; auto; try tauto. destruct He as (_ & -> & ->).
    exists (maps c (r_map r)), m'. split; [apply Hs|]. split; auto. split; auto. unfold upd. rewrite Nat.eqb_refl. reflexivity. }
  destruct (r_life r); inv H.
  - split; [|cbn; rewrite M; auto]. apply Forall_app. split; auto. repeat constructor.
  - split; auto. rewrite M; auto.
Qed.
Lemma receive_loop_events c0 fuel : forall c now i x c' evs q f, (forall m, same_tmpl (maps c m) (maps c0 m)) ->
  receive_loop fuel c now i x = Some (Ok (c', evs, q, f)) -> Forall (recv_ev c0 now x) evs.
Proof.
  induction fuel as [|fuel IH]; intros c now i x c' evs q f Hs H; cbn in H; [discriminate|].
  destruct (length (reqs c) <=? i)%nat; [inv H; auto|].
  destruct (parse_request c now i x) as [[[c1 e1] p1]|] eqn:Ep; [|discriminate].
  destruct (receive_loop fuel c1 now (S i) x) as [[[[[c2 e2] p2] f2]|]|] eqn:El; try discriminate. inv H.
  destruct (parse_request_events c0 _ _ _ _ _ _ _ Hs Ep) as [F1 S1]. apply Forall_app. split; eauto.
Qed.

Lemma terminated_val f m l k : exists v, terminated f m l k = with_val (f k) v.
Proof.
  assert (H : f k = with_val (f k) (val (f k))) by (destruct (f k); reflexivity).
  destruct l as [[i [|]]|d]; cbn; eauto. unfold upd. destruct (k =? m)%nat eqn:E; eauto. apply Nat.eqb_eq in E. subst. eauto.
Qed.
Lemma notify_terminated_val f m ls k : exists v, fst (notify_terminated f m ls) k = with_val (f k) v.
Proof.
  unfold notify_terminated. cbn. revert f. induction ls as [|l ls IH]; intros f; cbn.
  - exists (val (f k)). destruct (f k); reflexivity.
  - destruct (IH (terminated f m l)) as (v & ->). destruct (terminated_val f m l k) as (v' & ->). exists v. reflexivity.
Qed.
Lemma terminated_other f m l k : k <> m -> terminated f m l k = f k.
Proof. intros H. destruct l as [[i [|]]|d]; cbn; auto. unfold upd. replace (k =? m)%nat with false by lia. reflexivity. Qed.
Lemma notify_terminated_other f m ls k : k <> m -> fst (notify_terminated f m ls) k = f k.
Proof.
  intros Hk. unfold notify_terminated. cbn. revert f. induction ls as [|l ls IH]; intros f; cbn; auto.
  rewrite IH. apply terminated_other. auto.
Qed.
Lemma expire_val l : forall f now f' l' ev k, expire f now l = (f', l', ev) -> exists v, f' k = with_val (f k) v.
Proof.
  induction l as [|r l IH]; intros f now f' l' ev k H; [inv H; exists (val (f' k)); destruct (f' k); reflexivity|].
  rewrite expire_cons in H. destruct (expire1 f now r) as [[f1 r1] e1] eqn:E1.
  destruct (expire f1 now l) as [[f2 rs] e2] eqn:E2. inv H. destruct (IH _ _ _ _ _ k E2) as (v & ->).
  assert (exists v', f1 k = with_val (f k) v') as (v' & ->); [|exists v; reflexivity].
  assert (Hid : exists v', f k = with_val (f k) v') by (exists (val (f k)); destruct (f k); reflexivity).
  unfold expire1 in E1. destruct (r_life r); [|inv E1; auto]. destruct (p_exceeded p now) as [ex p']. destruct ex; [|inv E1; auto].
  destruct (r_listeners r) as [ls|]; [|inv E1; auto].
  pose proof (notify_terminated_val f (r_map r) ls k) as Hn. destruct (notify_terminated f (r_map r) ls) as [f3 e3]. inv E1. exact Hn.
Qed.

(* the requests that exist, and the values: timeouts touch only requests with a lifetime *)
Lemma expire_events l : forall f now f' l' ev, expire f now l = (f', l', ev) ->
  Forall (fun e => match e with
                   | EvTerminated _ m => exists r p, In r l /\ r_map r = m /\ r_life r = Some p
                   | EvExpired m t => t = now /\ exists r p, In r l /\ r_map r = m /\ r_life r = Some p
                   | _ => False end) ev /\
  (forall k, (forall r p, In r l -> r_map r = k -> r_life r = Some p -> False) -> f' k = f k).
Proof.
  induction l as [|r l IH]; intros f now f' l' ev H; [inv H; auto|].
  rewrite expire_cons in H. destruct (expire1 f now r) as [[f1 r1] e1] eqn:E1.
  destruct (expire f1 now l) as [[f2 rs] e2] eqn:E2. inv H. destruct (IH _ _ _ _ _ E2) as [F2 K2].
  assert (Forall (fun e => match e with
                   | EvTerminated _ m => exists r0 p, In r0 (r :: l) /\ r_map r0 = m /\ r_life r0 = Some p
                   | EvExpired m t => t = now /\ exists r0 p, In r0 (r :: l) /\ r_map r0 = m /\ r_life r0 = Some p
                   | _ => False end) e1 /\ (forall k, (forall r0 p, In r0 (r :: l) -> r_map r0 = k -> r_life r0 = Some p -> False) -> f1 k = f k)) as [F1 K1].
  { unfold expire1 in E1. destruct (r_life r) as [p|] eqn:El; [|inv E1; split; [constructor|auto]].
    destruct (p_exceeded p now) as [ex p']. destruct ex; [|inv E1; split; [constructor|auto]].
    destruct (r_listeners r) as [ls|]; [|inv E1; split; [constructor|auto]].
    pose proof (fun k => notify_terminated_other f (r_map r) ls k) as Hn. cbn in E1.
    injection E1 as <- <- <-. split.
    - apply Forall_app. split.
      + apply Forall_forall. intros e He. apply in_map_iff in He. destruct He as (l0 & <- & _). exists r, p. cbn. auto.
      + repeat constructor. exists r, p. cbn. auto.
    - intros k Hk. apply Hn. intros ->. apply (Hk r p); cbn; auto. }
  split.
  - apply Forall_app. split; [exact F1|]. eapply Forall_impl; [|exact F2]. intros e He. destruct e; auto.
    + destruct He as (r0 & p & A & B & C). exists r0, p. cbn. auto.
    + destruct He as (Ht & r0 & p & A & B & C). split; auto. exists r0, p. cbn. auto.
  - intros k Hk. rewrite K2, K1; auto. intros r0 p Hi. apply Hk. right. auto.
Qed.

Lemma timeouts_facts c now c' evs : timeouts c now = (c', evs) ->
  Forall (fun e => match e with
                   | EvTerminated _ m => exists r p, In r (reqs c) /\ r_map r = m /\ r_life r = Some p
                   | EvExpired m t => t = now /\ exists r p, In r (reqs c) /\ r_map r = m /\ r_life r = Some p
                   | _ => False end) evs /\
  (forall k, (forall r p, In r (reqs c) -> r_map r = k -> r_life r = Some p -> False) -> maps c' k = maps c k) /\
  (forall k, exists v, maps c' k = with_val (maps c k) v) /\ deps c' = deps c.
Proof.
  intros H. unfold timeouts, p_exceeded in H.
  assert (Hid : forall k, exists v', maps c k = with_val (maps c k) v') by (intros k; exists (val (maps c k)); destruct (maps c k); reflexivity).
  destruct (_ <? now); cbn in H; [|inv H; auto].
  destruct (expire (maps c) now (reqs c)) as [[f rs] ev] eqn:E. inv H. destruct (expire_events _ _ _ _ _ _ E) as [F K].
  split; [exact F|]. split; [exact K|]. split; [|reflexivity]. intros k. eapply expire_val; eauto.
Qed.

Lemma receive_events c now x c' evs : receive c now x = Some (Ok (c', evs)) ->
  Forall (fun e => match e with
                   | EvTerminated _ _ | EvUnused _ => True
                   | EvExpired _ t => t = now
                   | e => exists x', x = Some x' /\ recv_ev c now x' e
                   end) evs.
Proof.
  intros H. unfold receive in H. destruct (timeouts c now) as [c1 e1] eqn:Et.
  destruct (timeouts_facts _ _ _ _ Et) as (F1 & _ & V1 & _).
  assert (Forall (fun e => match e with EvTerminated _ _ | EvUnused _ => True | EvExpired _ t => t = now | e => exists x', x = Some x' /\ recv_ev c now x' e end) e1) as F1'.
  { eapply Forall_impl; [|exact F1]. intros e He. destruct e; tauto. }
  destruct x as [x|]; [|inv H; exact F1'].
  destruct (receive_loop _ c1 now 0 x) as [[[[[c2 e2] p2] f2]|]|] eqn:El; try discriminate. inv H.
  apply Forall_app. split; [exact F1'|]. apply Forall_app. split.
  - assert (Hs : forall m, same_tmpl (maps c1 m) (maps c m)).
    { intros m. destruct (V1 m) as (v & ->). repeat split. }
    pose proof (receive_loop_events c _ _ _ _ _ _ _ _ _ Hs El) as F. eapply Forall_impl; [|exact F].
    intros e He. destruct e; cbn in He; try tauto; eauto.
  - destruct p2; repeat constructor.
Qed.

Lemma set_param_shape bi c now m a c' evs : set_param bi c now m a = Ok (c', evs) ->
  exists c1 e1,
    ((truthy (set_t (maps c m)) = false /\ c1 = c /\ e1 = []) \/
     (exists m', truthy (set_t (maps c m)) = true /\ set_value (maps c m) a = (m', true) /\ c1 = with_maps c (upd (maps c) m m') /\ e1 = [EvSet m (wire (set_t m'))])) /\
    ((bi m = false /\ c' = c1 /\ evs = e1) \/
     (bi m = true /\ exists r ls z e2, find_req m (reqs c) = Some r /\ r_listeners r = Some ls /\ a = One z /\ evs = e1 ++ e2 /\
        notify_all (with_maps c1 (upd (maps c1) m (with_val (maps c1 m) (Some (VNum z))))) now m ls = Ok (c', e2))).
Proof.
  intros H. unfold set_param in H.
  set (step1 := if negb (truthy (set_t (maps c m))) then _ else _) in H.
  assert (forall c1 e1, step1 = Ok (c1, e1) -> reqs c1 = reqs c /\
    ((truthy (set_t (maps c m)) = false /\ c1 = c /\ e1 = []) \/
     (exists m', truthy (set_t (maps c m)) = true /\ set_value (maps c m) a = (m', true) /\ c1 = with_maps c (upd (maps c) m m') /\ e1 = [EvSet m (wire (set_t m'))]))) as H1.
  { intros c1 e1 E. unfold step1 in E. destruct (truthy _) eqn:Et; cbn in E; [|inv E; auto].
    destruct (set_value (maps c m) a) as [m' ok] eqn:Es. destruct ok; [|discriminate]. inv E. split; [reflexivity|]. right. eauto. }
  destruct step1 as [[c1 e1]|]; [|discriminate]. destruct (H1 c1 e1 eq_refl) as (Er & Hc). clear H1. exists c1, e1. split; [exact Hc|].
  destruct (bi m); [|left; inv H; auto]. right. split; auto. rewrite Er in H.
  destruct (find_req m (reqs c)) as [r|]; [|discriminate]. destruct a as [z|]; [|discriminate].
  destruct (r_listeners r) as [ls|] eqn:El; [|discriminate].
  destruct (notify_all _ now m ls) as [[c3 e3]|] eqn:Ea; [|discriminate]. inv H. exists r, ls, z, e3. auto.
Qed.

Lemma lost_shape bi l : forall f f' ev, connection_lost bi f l = Ok (f', ev) ->
  ev = flat_map (fun r => if bi (r_map r) then match r_listeners r with Some ls => map (fun l => EvTerminated l (r_map r)) ls | None => [] end else []) l.
Proof.
  induction l as [|r l IH]; intros f f' ev H; cbn in H; [inv H; auto|]. cbn.
  destruct (bi (r_map r)); [|eapply IH; eauto]. destruct (r_listeners r) as [ls|]; [|discriminate].
  destruct (connection_lost bi _ l) as [[f2 e2]|] eqn:E; [|discriminate]. inv H. rewrite (IH _ _ _ E). reflexivity.
Qed.
Lemma lost_total bi l : Forall (fun r => finished r = false) l -> forall f, connection_lost bi f l <> Raise.
Proof.
  induction l as [|r l IH]; intros H f; cbn; [discriminate|]. apply Forall_cons_iff in H. destruct H as [Hr H].
  destruct (bi (r_map r)); [|apply IH; auto]. unfold finished in Hr. destruct (r_listeners r) as [ls|]; [|discriminate].
  cbn. specialize (IH H (fold_left (fun f l => terminated f (r_map r) l) ls f)). destruct (connection_lost bi _ l) as [[a b]|]; congruence.
Qed.

(* every event that carries a time carries that of the operation *)
Lemma cstep_times bi c o c' evs : cstep bi c o = Ok (c', evs) ->
  Forall (fun e => ev_time e = None \/ ev_time e = op_time o) evs.
Proof.
  intros H. destruct o as [now m l|now m l|now x|now m a| |m v]; cbn in H |- *.
  - unfold register in H. destruct (negb _ && _); [|inv H; constructor]. apply register_events in H.
    eapply Forall_impl; [|exact H]. intros e He. destruct e; cbn; try tauto. destruct He as [_ ->]. auto.
  - unfold request_param in H. destruct (negb _ || negb _); [inv H; constructor|].
    destruct (depends (maps c m)); apply register_events in H; (eapply Forall_impl; [|exact H]); intros e He; destruct e; cbn; try tauto; destruct He as [_ ->]; auto.
  - destruct (receive c now x) as [[[c1 e1]|]|] eqn:E; try discriminate. inv H. apply receive_events in E.
    eapply Forall_impl; [|exact E]. intros e He. destruct e; cbn; auto; try (right; congruence);
      destruct He as (x' & _ & He); cbn in He; try tauto; right; congruence.
  - destruct (set_param_shape _ _ _ _ _ _ _ H) as (c1 & e1 & H1 & H2).
    assert (Forall (fun e => ev_time e = None \/ ev_time e = Some now) e1) as F1.
    { destruct H1 as [(_ & _ & ->)|(m' & _ & _ & _ & ->)]; repeat constructor. }
    destruct H2 as [(_ & _ & ->)|(_ & r & ls & z & e2 & _ & _ & _ & -> & Hn)]; auto. apply Forall_app. split; auto.
    apply notify_all_events in Hn. destruct Hn as (F & _). eapply Forall_impl; [|exact F].
    intros e He. destruct e; cbn in *; auto; try tauto. destruct He as [-> _]. auto.
  - destruct (connection_lost bi (maps c) (reqs c)) as [[f e]|] eqn:E; [|discriminate]. inv H. apply lost_shape in E. subst.
    apply Forall_forall. intros e He. apply in_flat_map in He. destruct He as (r & _ & He). destruct (bi _); [|destruct He].
    destruct (r_listeners r); [|destruct He]. apply in_map_iff in He. destruct He as (l0 & <- & _). cbn. auto.
  - inv H. constructor.
Qed.

(* ---- C06/C07: asking ---- *)

Section Ask.
Variable bi : mid -> bool.
Variable maps0 : mid -> mapping.
Variable lt : Z.

Lemma abs_idle_or_waiting c m : Inv bi maps0 lt c -> requested bi maps0 lt m ->
  (outstanding c m = Idle /\ find_req m (reqs c) = None) \/
  (exists r t ls, outstanding c m = Waiting t Open ls /\ find_req m (reqs c) = Some r /\ r_listeners r = Some ls /\ NoDup ls /\
     r_life r = Some (mkPeriod lt t)).
Proof.
  intros ((Hcfg & Hnd & Hok) & Hf) Hm. rewrite outstanding_abs. unfold abs_l. destruct (find_req m (reqs c)) as [r|] eqn:E; [|auto].
  right. destruct (find_req_some _ _ _ E) as [Hin Hr]. rewrite Forall_forall in Hok, Hf. destruct (Hok r Hin) as (A & B & C).
  specialize (Hf r Hin). unfold finished in Hf. destruct (r_listeners r) as [ls|] eqn:El; [|discriminate].
  rewrite Hr in C. specialize (C Hm). destruct (r_life r) as [[i t]|] eqn:Elf; [|congruence]. destruct (B _ eq_refl) as [Hi _]. cbn in Hi. subst i.
  exists r, t, ls. split; auto. split; auto. split; auto. split; auto. apply (A ls eq_refl).
Qed.

Lemma ask c now m l : Inv bi maps0 lt c -> requested bi maps0 lt m -> truthy (response_t (maps c m)) = true -> depends (maps c m) = None ->
  exists c' evs, cstep bi c (Request now m l) = Ok (c', evs) /\
    (outstanding c m = Idle ->
       evs = EvOpened m now :: (match l with Some x => [EvJoined (LExt x) m] | None => [] end) ++ [EvReqSent m (wire (request_t (maps c m)))] /\
       outstanding c' m = Waiting now Open (match l with Some x => [LExt x] | None => [] end)) /\
    (forall t ls, outstanding c m = Waiting t Open ls ->
       match l with
       | None => evs = [] /\ c' = c
       | Some x => (In (LExt x) ls /\ evs = [] /\ c' = c) \/
                   (~ In (LExt x) ls /\ evs = [EvJoined (LExt x) m] /\ outstanding c' m = Waiting t Open (ls ++ [LExt x]))
       end).
Proof.
  intros HI Hm Hresp Hd. cbn. unfold request_param. destruct HI as [HI Hf].
  pose proof (request_t_requested _ _ _ c m (proj1 HI) Hm) as Hrq. rewrite Hrq, Hresp, Hd. cbn [negb orb].
  unfold register_mapping, create_request. rewrite Hrq.
  destruct (abs_idle_or_waiting c m (conj HI Hf) Hm) as [(Ho & E)|(r & t & ls & Ho & E & El & _ & Elf)]; rewrite E, Ho.
  - assert (Hlt : (0 <? life c) = true). { destruct HI as ((-> & _) & _). destruct Hm as (_ & _ & ?). lia. }
    rewrite Hlt. destruct l as [x|]; cbn; eexists; eexists; (split; [reflexivity|]); (split; [|intros t ls X; discriminate]); intros _.
    + split; [reflexivity|]. rewrite outstanding_abs. unfold abs_l. cbn [reqs with_reqs]. rewrite find_req_app, E. cbn. rewrite Nat.eqb_refl. reflexivity.
    + split; [reflexivity|]. rewrite outstanding_abs. unfold abs_l. cbn [reqs with_reqs]. rewrite find_req_app, E. cbn. rewrite Nat.eqb_refl. reflexivity.
  - rewrite El. destruct l as [x|]; cbn [option_map].
    + destruct (existsb (listener_eqb (LExt x)) ls) eqn:Ex; eexists; eexists; (split; [reflexivity|]); (split; [intros X; discriminate|]);
        intros t' ls' X; inv X.
      * left. split; [apply existsb_listener; auto|auto].
      * right. split; [rewrite <- existsb_listener, Ex; discriminate|]. split; [reflexivity|].
        rewrite outstanding_abs. unfold abs_l. cbn [reqs with_reqs].
        match goal with |- context [upd_req m ?f _] => rewrite (find_upd_same m f _ r) end; auto. cbn. rewrite Elf. reflexivity.
    + eexists; eexists; (split; [reflexivity|]); (split; [intros X; discriminate|]). auto.
Qed.

(* ---- C08: the timeout happens ---- *)

Lemma expire_live l : forall f now f' l' ev m r ls t, NoDup (map r_map l) -> expire f now l = (f', l', ev) ->
  find_req m l = Some r -> r_listeners r = Some ls -> r_life r = Some (mkPeriod lt t) -> t + lt < now ->
  (exists pre post, ev = pre ++ map (fun l => EvTerminated l m) ls ++ EvExpired m now :: post) /\
  find_req m (cleanup_requests l') = None.
Proof.
  induction l as [|r0 l IH]; intros f now f' l' ev m r ls t Hd H Hf Hl Hlf Ht; [discriminate|].
  rewrite expire_cons in H. destruct (expire1 f now r0) as [[f1 r1] e1] eqn:E1.
  destruct (expire f1 now l) as [[f2 rs] e2] eqn:E2. inv H. cbn in Hd. apply NoDup_cons_iff in Hd. destruct Hd as [Hni Hd].
  destruct (expire1_map bi maps0 lt _ _ _ _ _ _ E1) as (Hm1 & _).
  assert (Hmaps : map r_map rs = map r_map l).
  { clear - bi maps0 lt E2. revert f1 f' rs e2 E2. induction l as [|r l IH]; intros f1 f' rs e2 H; [inv H; auto|].
    rewrite expire_cons in H. destruct (expire1 f1 now r) as [[f3 r3] e3] eqn:E3. destruct (expire f3 now l) as [[f4 r4] e4] eqn:E4. inv H.
    cbn. f_equal; [|eapply IH; eauto]. eapply (expire1_map bi maps0 lt); eauto. }
  cbn in Hf. destruct (r_map r0 =? m)%nat eqn:E.
  - inv Hf. apply Nat.eqb_eq in E. subst m. unfold expire1 in E1. rewrite Hlf, Hl in E1. unfold p_exceeded in E1. cbn in E1.
    replace (t + lt <? now) with true in E1 by lia. cbn in E1. inv E1. split.
    + exists [], e2. rewrite <- app_assoc. reflexivity.
    + cbn. apply find_req_none. rewrite <- Hmaps in Hni. intros Hc. apply Hni. clear - Hc. induction rs as [|r9 rs IH]; cbn in *; auto.
      destruct (finished r9); cbn in *; auto. destruct Hc; auto.
  - destruct (IH _ _ _ _ _ m r ls t Hd E2 Hf Hl Hlf Ht) as [(pre & post & ->) Hn]. split.
    + exists (e1 ++ pre), post. rewrite <- !app_assoc. reflexivity.
    + cbn. destruct (finished r1); auto. cbn. rewrite Hm1, E. exact Hn.
Qed.

Lemma timeouts_live c now c' evs m t ls : Inv bi maps0 lt c -> requested bi maps0 lt m -> timeouts c now = (c', evs) ->
  outstanding c m = Waiting t Open ls -> t + lt < now -> last_reset (clean c) + Z.quot lt 2 < now ->
  (exists pre post, evs = pre ++ map (fun l => EvTerminated l m) ls ++ EvExpired m now :: post) /\ outstanding c' m = Idle.
Proof.
  intros HI Hm H Ho Ht Hc. destruct (abs_idle_or_waiting c m HI Hm) as [(Ho' & _)|(r & t' & ls' & Ho' & E & El & _ & Elf)]; [congruence|].
  rewrite Ho in Ho'. inv Ho'. destruct HI as (((_ & Hcl & _) & Hnd & _) & _).
  unfold timeouts, p_exceeded in H. rewrite Hcl in H. replace (_ <? now) with true in H by lia. cbn in H.
  destruct (expire (maps c) now (reqs c)) as [[f rs] ev] eqn:Ee. inv H.
  destruct (expire_live _ _ _ _ _ _ m r ls' t' Hnd Ee E El Elf Ht) as [A B]. split; auto.
  rewrite outstanding_abs. unfold abs_l. cbn [reqs with_reqs]. rewrite B. reflexivity.
Qed.

Lemma poll_live c now x c' evs m t ls : Inv bi maps0 lt c -> requested bi maps0 lt m -> cstep bi c (Receive now x) = Ok (c', evs) ->
  outstanding c m = Waiting t Open ls -> t + lt < now -> last_reset (clean c) + Z.quot lt 2 < now ->
  exists pre post, evs = pre ++ map (fun l => EvTerminated l m) ls ++ EvExpired m now :: post.
Proof.
  intros HI Hm H Ho Ht Hc. cbn in H. destruct (receive c now x) as [[[c1 e1]|]|] eqn:E; try discriminate. inv H.
  unfold receive in E. destruct (timeouts c now) as [c2 e2] eqn:Et.
  destruct (timeouts_live c now c2 e2 m t ls HI Hm Et Ho Ht Hc) as [(pre & post & ->) _].
  destruct x as [x|]; [|inv E; eauto].
  destruct (receive_loop _ c2 now 0 x) as [[[[[c3 e3] p3] f3]|]|]; try discriminate. inv E.
  exists pre. eexists. rewrite <- !app_assoc. reflexivity.
Qed.
End Ask.

Lemma clean_after bi c o c' evs : cstep bi c o = Ok (c', evs) ->
  clean c' = clean c \/ (exists now x, o = Receive now x /\ clean c' = mkPeriod (interval (clean c)) now /\ last_reset (clean c) + interval (clean c) < now).
Proof.
  intros H. destruct o as [now m l|now m l|now x|now m a| |m v]; cbn in H.
  - left. unfold register in H. assert (clean (if bi m then with_maps c (upd (maps c) m (without_request (maps c m))) else c) = clean c) as E by (destruct (bi m); auto).
    destruct (negb _ && _); [|inv H; auto]. rewrite <- E. clear E. revert H. generalize (if bi m then with_maps c (upd (maps c) m (without_request (maps c m))) else c).
    intros c0 H. unfold register_mapping in H. destruct (find_req m _) as [r|]; [|inv H; auto].
    destruct (option_map LExt l); [|inv H; auto]. destruct (r_listeners r); [|discriminate]. destruct (existsb _ _); inv H; auto.
  - left. unfold request_param in H. destruct (negb _ || negb _); [inv H; auto|].
    assert (forall c0 n k send, clean c0 = clean c -> register_mapping c0 now n k send = Ok (c', evs) -> clean c' = clean c) as Hreg.
    { intros c0 n k send E Hr. unfold register_mapping in Hr. destruct (find_req n _) as [r|]; [|inv Hr; auto].
      destruct k; [|inv Hr; auto]. destruct (r_listeners r); [|discriminate]. destruct (existsb _ _); inv Hr; auto. }
    destruct (depends (maps c m)); eapply Hreg; [|exact H| |exact H]; auto. destruct (find_dep m (deps c)); auto.
  - destruct (receive c now x) as [[[c1 e1]|]|] eqn:E; try discriminate. inv H. unfold receive in E.
    destruct (timeouts c now) as [c2 e2] eqn:Et.
    assert (clean c2 = clean c \/ (clean c2 = mkPeriod (interval (clean c)) now /\ last_reset (clean c) + interval (clean c) < now)) as Hc2.
    { unfold timeouts, p_exceeded in Et. destruct (_ <? now) eqn:El; cbn in Et; [|inv Et; auto].
      destruct (expire (maps c) now (reqs c)) as [[f rs] ev]. inv Et. right. split; [reflexivity|lia]. }
    assert (clean c' = clean c2) as Hc3.
    { destruct x as [x|]; [|inv E; auto].
      destruct (receive_loop _ c2 now 0 x) as [[[[[c3 e3] p3] f3]|]|] eqn:Er; try discriminate. inv E.
      assert (clean c3 = clean c2) as Hl; [|destruct f3; exact Hl].
      clear - Er. revert Er. generalize 0%nat. generalize (S (length (reqs c2) + length (deps c2))). intros fuel. revert c2 c3 e3 p3 f3.
      induction fuel as [|fuel IH]; intros c2 c3 e3 p3 f3 i H; cbn in H; [discriminate|].
      destruct (length (reqs c2) <=? i)%nat; [inv H; auto|].
      destruct (parse_request c2 now i x) as [[[c4 e4] p4]|] eqn:Ep; [|discriminate].
      destruct (receive_loop fuel c4 now (S i) x) as [[[[[c5 e5] p5] f5]|]|] eqn:El; try discriminate. inv H. apply IH in El. rewrite El.
      clear - Ep. unfold parse_request in Ep. destruct (nth_error (reqs c2) i) as [r|] eqn:En; [|inv Ep; auto].
      destruct (negb _); [inv Ep; auto|]. destruct (r_listeners r) as [ls|]; [|inv Ep; auto].
      destruct (parse _ x) as [[m' [|]]|]; [|inv Ep; auto|discriminate]. destruct (negb _); [inv Ep; auto|].
      destruct (notify_all _ now _ ls) as [[c6 e6]|] eqn:Ea; [|discriminate]. apply notify_all_events in Ea. destruct Ea as (_ & _ & _ & Ec).
      destruct (r_life r); inv Ep; exact Ec. }
    destruct Hc2 as [Hc2|[Hc2 Hlt]]; [left; congruence|]. right. exists now, x. split; auto. split; auto. congruence.
  - left. destruct (set_param_shape _ _ _ _ _ _ _ H) as (c1 & e1 & H1 & H2).
    assert (clean c1 = clean c) as E by (destruct H1 as [(_ & -> & _)|(m' & _ & _ & -> & _)]; reflexivity).
    destruct H2 as [(_ & -> & _)|(_ & r & ls & z & e2 & _ & _ & _ & _ & Hn)]; auto.
    apply notify_all_events in Hn. destruct Hn as (_ & _ & _ & Hc). rewrite Hc. exact E.
  - left. destruct (connection_lost bi (maps c) (reqs c)) as [[f e]|] eqn:E; [|discriminate]. inv H. auto.
  - left. inv H. auto.
Qed.

(* with times between the first and the last poll, the request is finished *)
Lemma bounded bi maps0 lt (Hself : no_self_dependency maps0) m t1 t2 y ops : requested bi maps0 lt m ->
  Forall (fun o => forall t, op_time o = Some t -> t1 <= t) ops -> t1 + Z.quot lt 2 < t2 -> 
  forall c c' evs t ph ls, Inv bi maps0 lt c -> outstanding c m = Waiting t ph ls -> t + lt < t1 ->
  last_reset (clean c) <= t1 ->
  crun bi c (ops ++ [Receive t2 y]) = Ok (c', evs) ->
  exists e, In e (concat evs) /\ (is_answered m e = true \/ is_expired m e = true).
Proof.
  intros Hm Hops Ht2. induction Hops as [|o ops Ho Hops IH]; intros c c' evs t ph ls HI Hout Ht1 Hcl H.
  - cbn [app crun] in H. destruct (cstep bi c (Receive t2 y)) as [[c1 e1]|] eqn:Es; [|discriminate]. inv H.
    assert (ph = Open). { destruct (abs_idle_or_waiting _ _ _ c m HI Hm) as [(A & _)|(r & t' & ls' & A & _)]; congruence. } subst ph.
    assert (0 <= Z.quot lt 2) by (destruct Hm as (_ & _ & ?); apply Z.quot_pos; lia).
    destruct (poll_live bi maps0 lt c t2 y c' e1 m t ls HI Hm Es Hout) as (pre & post & ->); try lia.
    exists (EvExpired m t2). split; [|right; cbn; apply Nat.eqb_refl].
    cbn. rewrite app_nil_r. apply in_or_app. right. apply in_or_app. right. left. reflexivity.
  - cbn [app crun] in H. destruct (cstep bi c o) as [[c1 e1]|] eqn:Es; [|discriminate].
    destruct (crun bi c1 (ops ++ [Receive t2 y])) as [[c2 es]|] eqn:Er; [|discriminate]. inv H.
    destruct (cstep_ok bi maps0 lt Hself _ _ _ _ HI Es) as [HI1 Htr]. specialize (Htr m Hm). rewrite <- !outstanding_abs, Hout in Htr.
    assert (Hdec : (exists e, In e e1 /\ (is_answered m e = true \/ is_expired m e = true)) \/ exists ph' ls', outstanding c1 m = Waiting t ph' ls').
    { clear - Htr. revert ph ls Htr. generalize (outstanding c1 m). induction e1 as [|e e1 IH]; intros a ph ls Htr; cbn in Htr; [inv Htr; eauto|].
      destruct (astep lt m (Waiting t ph ls) e) as [a1|] eqn:Es; [|discriminate].
      destruct a1 as [|t' ph' ls'].
      - apply astep_time in Es. destruct Es as [?|Es]; [discriminate|]. left. exists e. split; [left; auto|auto].
      - pose proof (astep_time _ _ _ _ _ Es) as [(ph0 & ls0 & E & _) | ->]; [inv E|cbn in Es; rewrite Nat.eqb_refl in Es; discriminate].
        destruct (IH _ _ _ Htr) as [(e0 & A & B)|?]; eauto. left. exists e0. split; [right; auto|auto]. }
    destruct Hdec as [(e & A & B)|(ph' & ls' & Hout1)].
    + exists e. split; auto. cbn. apply in_or_app. auto.
    + destruct (clean_after _ _ _ _ _ Es) as [Hc|(now & x & -> & Hc & Hlt)].
      * destruct (IH c1 c' es t ph' ls' HI1 Hout1 Ht1) as (e & A & B); [rewrite Hc; auto|exact Er|].
        exists e. split; auto. cbn. apply in_or_app. auto.
      * (* this poll cleaned up, so it terminated the request *)
        assert (ph = Open). { destruct (abs_idle_or_waiting _ _ _ c m HI Hm) as [(X & _)|(r & t' & ls0 & X & _)]; congruence. } subst ph.
        assert (interval (clean c) = Z.quot lt 2) as Hi by apply HI.
        specialize (Ho now eq_refl).
        destruct (poll_live bi maps0 lt c now x c1 e1 m t ls HI Hm Es Hout) as (pre & post & ->); try lia.
        exists (EvExpired m now). split; [|right; cbn; apply Nat.eqb_refl]. cbn. apply in_or_app. left.
        apply in_or_app. right. apply in_or_app. right. left. reflexivity.
Qed.
