(* Permanent registrations (C09) and messages nobody waits for (C10). *)
From Verif.Lib Require Import Base.
From Verif.Model Require Import Midi Period Mapping Client.
From Verif.Spec Require Import Client.
From Verif.Proofs Require Import Client ClientTotal ClientHist ClientDep ClientOps.
Open Scope Z_scope.

Definition perm_l (l : list request) (m : mid) : option (list listener) :=
  match find_req m l with Some r => match r_life r with None => r_listeners r | Some _ => None end | None => None end.

Definition pext (m : mid) (c c' : client) : Prop :=
  forall ls, perm_l (reqs c) m = Some ls -> exists more, perm_l (reqs c') m = Some (ls ++ more).
Lemma pext_refl m c : pext m c c.
Proof. intros ls H. exists []. rewrite app_nil_r. exact H. Qed.
Lemma pext_same m c c' : reqs c' = reqs c -> pext m c c'.
Proof. intros E ls H. exists []. rewrite app_nil_r, E. exact H. Qed.
Lemma pext_trans m a b c : pext m a b -> pext m b c -> pext m a c.
Proof. intros H1 H2 ls H. destruct (H1 ls H) as (m1 & A). destruct (H2 _ A) as (m2 & B). exists (m1 ++ m2). rewrite app_assoc. exact B. Qed.

Lemma register_pext m c now d l send c' evs : register_mapping c now d l send = Ok (c', evs) -> pext m c c'.
Proof.
  intros H. unfold register_mapping in H. destruct (find_req d (reqs c)) as [r|] eqn:E.
  - destruct l as [l|]; [|inv H; apply pext_refl]. destruct (r_listeners r) as [ls|] eqn:El; [|discriminate].
    destruct (existsb _ _); inv H; [apply pext_refl|]. intros ls0 H0. unfold perm_l in *. cbn [reqs with_reqs].
    destruct (Nat.eq_dec d m) as [->|Hn].
    + match goal with |- context [upd_req m ?f _] => rewrite (find_upd_same m f _ r) end; auto. rewrite E in H0. cbn.
      destruct (r_life r); [discriminate|]. rewrite El in H0. inv H0. eauto.
    + rewrite find_upd_other by auto. exists []. rewrite app_nil_r. exact H0.
  - inv H. intros ls0 H0. unfold perm_l in *. cbn [reqs with_reqs]. rewrite find_req_app.
    destruct (find_req m (reqs c)); [|discriminate]. exists []. rewrite app_nil_r. exact H0.
Qed.
Lemma notify_all_pext m ls : forall c now k c' evs, notify_all c now k ls = Ok (c', evs) -> pext m c c'.
Proof.
  induction ls as [|l ls IH]; intros c now k c' evs H; cbn in H; [inv H; apply pext_refl|].
  destruct (notify c now k l) as [[c1 e1]|] eqn:E1; [|discriminate].
  destruct (notify_all c1 now k ls) as [[c2 e2]|] eqn:E2; [|discriminate]. inv H.
  eapply pext_trans; [|eapply IH; eauto]. unfold notify in E1. destruct l as [x|d]; [inv E1; apply pext_refl|].
  destruct (find_dep d (deps c)) as [[last inner]|]; [|inv E1; apply pext_refl].
  destruct (value_eqb _ _); [inv E1; apply pext_refl|].
  destruct (register_mapping _ now d _ true) as [[c3 e3]|] eqn:Er; [|discriminate]. inv E1. apply (register_pext m) in Er. exact Er.
Qed.

Section Perm.
Variable bi : mid -> bool.
Variable maps0 : mid -> mapping.
Variable lt : Z.
Hypothesis Hself : no_self_dependency maps0.
Notation I0 := (Inv0 bi maps0 lt).

Lemma parse_request_pext m c now i x c1 e1 p1 : I0 c -> parse_request c now i x = Ok (c1, e1, p1) -> pext m c c1.
Proof.
  intros HI H. unfold parse_request in H. destruct (nth_error (reqs c) i) as [r|] eqn:En; [|inv H; apply pext_refl].
  destruct (negb _); [inv H; apply pext_refl|]. destruct (r_listeners r) as [ls|] eqn:El; [|inv H; apply pext_refl].
  destruct (parse _ x) as [[m' [|]]|] eqn:Ep; [|inv H; apply pext_refl|discriminate].
  destruct (parse_fields _ _ _ _ Ep) as (Fr & Fd & _).
  pose proof (I0_upd_map bi maps0 lt c (r_map r) m' HI Fr Fd) as HI0.
  destruct (negb _); [inv H; apply pext_same; reflexivity|].
  destruct (notify_all _ now _ ls) as [[c2 ev]|] eqn:Ea; [|discriminate].
  assert (Hin : In r (reqs c)) by (eapply nth_error_In; eauto).
  assert (Hls : forall k, In (LDep k) ls -> k <> r_map r).
  { destruct HI as (_ & _ & Hok). rewrite Forall_forall in Hok. apply (Hok r Hin). auto. }
  pose proof (notify_all_pext m _ _ _ _ _ _ Ea) as Hp.
  destruct (notify_all_ok bi maps0 lt ls _ now (r_map r) c2 ev HI0 Hls Ea) as (HI2 & _ & _ & Hf2 & _). cbn in Hf2.
  assert (pext m c c2) as Hp' by exact Hp.
  destruct (r_life r) as [pd|] eqn:Elf; inv H; [|exact Hp'].
  eapply pext_trans; [exact Hp'|]. intros ls0 H0. unfold perm_l in *. cbn [reqs with_reqs].
  destruct (Nat.eq_dec (r_map r) m) as [<-|Hn].
  - rewrite Hf2, (find_req_in (r_map r) (reqs c) r) in H0; auto; [|apply HI]. rewrite Elf in H0. discriminate.
  - rewrite find_upd_other by auto. exists []. rewrite app_nil_r. exact H0.
Qed.
Lemma receive_loop_pext m fuel : forall c now i x c' evs q f, I0 c -> receive_loop fuel c now i x = Some (Ok (c', evs, q, f)) -> pext m c c'.
Proof.
  induction fuel as [|fuel IH]; intros c now i x c' evs q f HI H; cbn in H; [discriminate|].
  destruct (length (reqs c) <=? i)%nat; [inv H; apply pext_refl|].
  destruct (parse_request c now i x) as [[[c1 e1] p1]|] eqn:Ep; [|discriminate].
  destruct (receive_loop fuel c1 now (S i) x) as [[[[[c2 e2] p2] f2]|]|] eqn:El; try discriminate. inv H.
  destruct (parse_request_ok bi maps0 lt _ _ _ _ _ _ _ HI Ep) as (HI1 & _).
  eapply pext_trans; [eapply parse_request_pext; eauto|eapply IH; eauto].
Qed.
Lemma perm_cleanup l m ls : NoDup (map r_map l) -> perm_l l m = Some ls -> perm_l (cleanup_requests l) m = Some ls.
Proof.
  unfold perm_l, cleanup_requests. induction l as [|r l IH]; cbn; [discriminate|]. intros Hd H.
  apply NoDup_cons_iff in Hd. destruct Hd as [Hn Hd]. destruct (r_map r =? m)%nat eqn:E.
  - destruct (r_life r) eqn:El; [discriminate|]. unfold finished. rewrite H. cbn. rewrite E, El. exact H.
  - destruct (negb (finished r)); cbn; [rewrite E|]; apply IH; auto.
Qed.
Lemma expire_perm l : forall f now f' l' ev m ls, expire f now l = (f', l', ev) -> perm_l l m = Some ls -> perm_l l' m = Some ls.
Proof.
  induction l as [|r l IH]; intros f now f' l' ev m ls H Hp; [inv H; exact Hp|].
  rewrite expire_cons in H. destruct (expire1 f now r) as [[f1 r1] e1] eqn:E1.
  destruct (expire f1 now l) as [[f2 rs] e2] eqn:E2. inv H. destruct (expire1_map bi maps0 lt _ _ _ _ _ _ E1) as (Hm1 & _).
  unfold perm_l in *. cbn in *. rewrite Hm1. destruct (r_map r =? m)%nat; [|eapply IH; eauto].
  unfold expire1 in E1. destruct (r_life r) eqn:El; [discriminate|]. inv E1. rewrite El. exact Hp.
Qed.
Lemma timeouts_pext m c now c' evs : Inv bi maps0 lt c -> timeouts c now = (c', evs) -> pext m c c'.
Proof.
  intros ((Hcfg & Hnd & Hok) & _) H. unfold timeouts, p_exceeded in H. destruct (_ <? now); cbn in H; [|inv H; apply pext_same; reflexivity].
  destruct (expire (maps c) now (reqs c)) as [[f rs] ev] eqn:E. inv H.
  assert (Hmaps : map r_map rs = map r_map (reqs c)) by (eapply (expire_ok bi maps0 lt); eauto).
  intros ls Hp. exists []. rewrite app_nil_r. cbn. apply perm_cleanup; [rewrite Hmaps; auto|]. eapply expire_perm; eauto.
Qed.
Lemma cstep_pext m c o c' evs : Inv bi maps0 lt c -> cstep bi c o = Ok (c', evs) -> pext m c c'.
Proof.
  intros HI H. destruct o as [now k l|now k l|now x|now k a| |k v]; cbn in H.
  - unfold register in H. assert (Hr : forall c0, reqs c0 = reqs c -> pext m c0 c' -> pext m c c').
    { intros c0 E Hx. eapply pext_trans; [apply pext_same; exact E|exact Hx]. }
    destruct (negb _ && _); [|inv H; apply pext_same; destruct (bi k); reflexivity].
    apply (register_pext m) in H. eapply Hr; [|exact H]. destruct (bi k); reflexivity.
  - unfold request_param in H. destruct (negb _ || negb _); [inv H; apply pext_refl|].
    destruct (depends (maps c k)); apply (register_pext m) in H; [|exact H].
    eapply pext_trans; [|exact H]. apply pext_same. destruct (find_dep k (deps c)); reflexivity.
  - destruct (receive c now x) as [[[c1 e1]|]|] eqn:E; try discriminate. inv H. unfold receive in E.
    destruct (timeouts c now) as [c1 e1] eqn:Et. pose proof (timeouts_pext m _ _ _ _ HI Et) as Hp1.
    destruct (timeouts_ok _ _ _ _ _ _ _ HI Et) as (HI1 & _).
    destruct x as [x|]; [|inv E; exact Hp1].
    destruct (receive_loop _ c1 now 0 x) as [[[[[c2 e2] p2] f2]|]|] eqn:El; try discriminate. inv E.
    destruct HI1 as [HI1 Hf1]. pose proof (receive_loop_pext m _ _ _ _ _ _ _ _ _ HI1 El) as Hp2.
    destruct (receive_loop_ok bi maps0 lt _ _ _ _ _ _ _ _ _ HI1 El) as (HI2 & _).
    eapply pext_trans; [exact Hp1|]. eapply pext_trans; [exact Hp2|]. destruct f2; [|apply pext_refl].
    intros ls Hp. exists []. rewrite app_nil_r. cbn. apply perm_cleanup; auto. apply HI2.
  - destruct (set_param_shape _ _ _ _ _ _ _ H) as (c1 & e1 & H1 & H2).
    assert (reqs c1 = reqs c) as E by (destruct H1 as [(_ & -> & _)|(m' & _ & _ & -> & _)]; reflexivity).
    destruct H2 as [(_ & -> & _)|(_ & r & ls & z & e2 & _ & _ & _ & _ & Hn)]; [apply pext_same; auto|].
    eapply pext_trans; [|eapply notify_all_pext; exact Hn]. apply pext_same. exact E.
  - destruct (connection_lost bi (maps c) (reqs c)) as [[f e]|] eqn:E; [|discriminate]. inv H. apply pext_same. reflexivity.
  - inv H. apply pext_same. reflexivity.
Qed.
Lemma crun_pext m ops : forall c c' evs, Inv bi maps0 lt c -> crun bi c ops = Ok (c', evs) -> pext m c c'.
Proof.
  induction ops as [|o ops IH]; intros c c' evs HI H; cbn in H; [inv H; apply pext_refl|].
  destruct (cstep bi c o) as [[c1 e1]|] eqn:Es; [|discriminate].
  destruct (crun bi c1 ops) as [[c2 es]|] eqn:Er; [|discriminate]. inv H.
  destruct (cstep_ok bi maps0 lt Hself _ _ _ _ HI Es) as [HI1 _].
  eapply pext_trans; [eapply cstep_pext; eauto|eapply IH; eauto].
Qed.

(* keys of the dependency dictionary are dependent mappings *)
Definition KI (c : client) : Prop := forall k x, find_dep k (deps c) = Some x -> depends (maps0 k) <> None.

Lemma register_KI c now m l send c' evs : register_mapping c now m l send = Ok (c', evs) -> KI c -> KI c'.
Proof. intros H HK. destruct (register_deps _ _ _ _ _ _ _ H) as [E _]. intros k x. rewrite E. apply HK. Qed.
Lemma KI_set c k v : KI c -> KI (with_deps c (set_dep_last k v (deps c))).
Proof. intros HK j x H. cbn in H. rewrite find_set_dep in H. destruct (find_dep j (deps c)) as [[a b]|] eqn:E; [|discriminate]. eapply HK; eauto. Qed.
Lemma notify_all_KI ls : forall c now k c' evs, notify_all c now k ls = Ok (c', evs) -> KI c -> KI c'.
Proof.
  induction ls as [|l ls IH]; intros c now k c' evs H HK; cbn in H; [inv H; auto|].
  destruct (notify c now k l) as [[c1 e1]|] eqn:E1; [|discriminate].
  destruct (notify_all c1 now k ls) as [[c2 e2]|] eqn:E2; [|discriminate]. inv H.
  eapply IH; [exact E2|]. unfold notify in E1. destruct l as [x|d]; [inv E1; auto|].
  destruct (find_dep d (deps c)) as [[last inner]|]; [|inv E1; auto].
  destruct (value_eqb _ _); [inv E1; auto|].
  destruct (register_mapping _ now d _ true) as [[c3 e3]|] eqn:Er; [|discriminate]. inv E1.
  eapply register_KI; [exact Er|]. apply KI_set. auto.
Qed.
Lemma parse_request_KI c now i x c1 e1 p1 : parse_request c now i x = Ok (c1, e1, p1) -> KI c -> KI c1.
Proof.
  intros H HK. unfold parse_request in H. destruct (nth_error (reqs c) i) as [r|] eqn:En; [|inv H; auto].
  destruct (negb _); [inv H; auto|]. destruct (r_listeners r) as [ls|] eqn:El; [|inv H; auto].
  destruct (parse _ x) as [[m' [|]]|] eqn:Ep; [|inv H; auto|discriminate]. destruct (negb _); [inv H; auto|].
  destruct (notify_all _ now _ ls) as [[c2 ev]|] eqn:Ea; [|discriminate]. apply notify_all_KI in Ea; [|exact HK].
  destruct (r_life r); inv H; exact Ea.
Qed.
Lemma receive_loop_KI fuel : forall c now i x c' evs q f, receive_loop fuel c now i x = Some (Ok (c', evs, q, f)) -> KI c -> KI c'.
Proof.
  induction fuel as [|fuel IH]; intros c now i x c' evs q f H HK; cbn in H; [discriminate|].
  destruct (length (reqs c) <=? i)%nat; [inv H; auto|].
  destruct (parse_request c now i x) as [[[c1 e1] p1]|] eqn:Ep; [|discriminate].
  destruct (receive_loop fuel c1 now (S i) x) as [[[[[c2 e2] p2] f2]|]|] eqn:El; try discriminate. inv H.
  eapply IH; [exact El|]. eapply parse_request_KI; eauto.
Qed.
Lemma cstep_KI c o c' evs : Inv bi maps0 lt c -> cstep bi c o = Ok (c', evs) -> KI c -> KI c'.
Proof.
  intros HI H HK. destruct o as [now k l|now k l|now x|now k a| |k v]; cbn in H.
  - unfold register in H. destruct (negb _ && _); [|inv H; destruct (bi k); auto].
    eapply register_KI; [exact H|]. destruct (bi k); auto.
  - unfold request_param in H. destruct (negb _ || negb _); [inv H; auto|].
    destruct (depends (maps c k)) as [q|] eqn:Ed; (eapply register_KI; [exact H|]); auto.
    destruct (find_dep k (deps c)) eqn:Ef; auto. intros j x Hj. cbn in Hj.
    assert (find_dep j (deps c) = Some x \/ j = k) as [Hx| ->].
    { clear - Hj. induction (deps c) as [|[k' y] l' IH]; cbn in *; [destruct (k =? j)%nat eqn:E; [apply Nat.eqb_eq in E; auto|discriminate]|].
      destruct (k' =? j)%nat; auto. }
    + eapply HK; eauto.
    + destruct HI as [((_ & _ & _ & Hd) & _) _]. destruct (Hd k) as [E|E]; rewrite Ed in E; [rewrite <- E; discriminate|discriminate].
  - destruct (receive c now x) as [[[c1 e1]|]|] eqn:E; try discriminate. inv H. unfold receive in E.
    destruct (timeouts c now) as [c1 e1] eqn:Et. destruct (timeouts_facts _ _ _ _ Et) as (_ & _ & _ & Ed).
    assert (KI c1) as HK1 by (intros j y; rewrite Ed; apply HK).
    destruct x as [x|]; [|inv E; exact HK1].
    destruct (receive_loop _ c1 now 0 x) as [[[[[c2 e2] p2] f2]|]|] eqn:El; try discriminate. inv E.
    apply receive_loop_KI in El; auto. destruct f2; exact El.
  - destruct (set_param_shape _ _ _ _ _ _ _ H) as (c1 & e1 & H1 & H2).
    assert (KI c1) as HK1 by (destruct H1 as [(_ & -> & _)|(m' & _ & _ & -> & _)]; exact HK).
    destruct H2 as [(_ & -> & _)|(_ & r & ls & z & e2 & _ & _ & _ & _ & Hn)]; [auto|].
    eapply notify_all_KI; [exact Hn|exact HK1].
  - destruct (connection_lost bi (maps c) (reqs c)) as [[f e]|] eqn:E; [|discriminate]. inv H. exact HK.
  - inv H. exact HK.
Qed.
Lemma crun_KI ops : forall c c' evs, Inv bi maps0 lt c -> crun bi c ops = Ok (c', evs) -> KI c -> KI c'.
Proof.
  induction ops as [|o ops IH]; intros c c' evs HI H HK; cbn in H; [inv H; auto|].
  destruct (cstep bi c o) as [[c1 e1]|] eqn:Es; [|discriminate].
  destruct (crun bi c1 ops) as [[c2 es]|] eqn:Er; [|discriminate]. inv H.
  destruct (cstep_ok bi maps0 lt Hself _ _ _ _ HI Es) as [HI1 _]. eapply IH; [exact HI1|exact Er|]. exact (cstep_KI _ _ _ _ HI Es HK).
Qed.

(* ---- delivery to a permanent registration ---- *)

Lemma filter_changes m evs : changes_of m evs =
  changes_of m (filter (fun e => match e with EvChanged _ m' _ => (m' =? m)%nat | _ => false end) evs).
Proof.
  induction evs as [|e evs IH]; cbn; auto. destruct e; cbn; auto. destruct (m0 =? m)%nat eqn:E; cbn; auto.
  rewrite E. cbn. f_equal. exact IH.
Qed.
Lemma changes_map m v ls : changes_of m (map (fun l => EvChanged l m v) ls) = map (fun l => (l, v)) ls.
Proof. induction ls as [|l ls IH]; cbn; auto. rewrite Nat.eqb_refl. cbn. f_equal. exact IH. Qed.
Lemma changes_none m evs : Forall (fun e => match e with EvChanged _ k _ => k <> m | _ => True end) evs -> changes_of m evs = [].
Proof.
  induction 1 as [|e evs He H IH]; cbn; auto. destruct e; auto. replace (m0 =? m)%nat with false by lia. exact IH.
Qed.

Lemma notify_all_frame m ls : forall c now k c' evs, find_dep m (deps c) = None -> notify_all c now k ls = Ok (c', evs) ->
  find_req m (reqs c') = find_req m (reqs c) /\ find_dep m (deps c') = None.
Proof.
  induction ls as [|l ls IH]; intros c now k c' evs Hd H; cbn in H; [inv H; auto|].
  destruct (notify c now k l) as [[c1 e1]|] eqn:E1; [|discriminate].
  destruct (notify_all c1 now k ls) as [[c2 e2]|] eqn:E2; [|discriminate]. inv H.
  assert (find_req m (reqs c1) = find_req m (reqs c) /\ find_dep m (deps c1) = None) as [A B].
  { unfold notify in E1. destruct l as [x|d]; [inv E1; auto|].
    destruct (find_dep d (deps c)) as [[last inner]|] eqn:Ed; [|inv E1; auto].
    assert (d <> m) by congruence.
    destruct (value_eqb _ _); [inv E1; auto|].
    destruct (register_mapping _ now d _ true) as [[c3 e3]|] eqn:Er; [|discriminate]. inv E1.
    destruct (register_frame lt _ now d _ true c1 e3 m H Er) as [Hfr _]. destruct (register_deps _ _ _ _ _ _ _ Er) as [Ed' _].
    split; [exact Hfr|]. rewrite Ed'. cbn. rewrite find_set_dep, Hd. reflexivity. }
  destruct (IH _ _ _ _ _ B E2) as [C D]. split; auto. congruence.
Qed.

Lemma parse_request_frame m c now i x c1 e1 p1 : I0 c -> find_dep m (deps c) = None ->
  (forall r, nth_error (reqs c) i = Some r -> r_map r <> m) ->
  parse_request c now i x = Ok (c1, e1, p1) ->
  find_req m (reqs c1) = find_req m (reqs c) /\ maps c1 m = maps c m /\ find_dep m (deps c1) = None /\ changes_of m e1 = [] /\ prefix c c1.
Proof.
  intros HI Hd Hr H. unfold parse_request in H.
  assert (Hun : find_req m (reqs c) = find_req m (reqs c) /\ maps c m = maps c m /\ find_dep m (deps c) = None /\ changes_of m [] = [] /\ prefix c c)
    by (repeat split; auto; apply prefix_refl).
  destruct (nth_error (reqs c) i) as [r|] eqn:En; [|inv H; auto]. specialize (Hr r eq_refl).
  destruct (negb _); [inv H; auto|]. destruct (r_listeners r) as [ls|] eqn:El; [|inv H; auto].
  destruct (parse _ x) as [[m' [|]]|] eqn:Ep; [|inv H; auto|discriminate].
  assert (Hmm : upd (maps c) (r_map r) m' m = maps c m) by (unfold upd; replace (m =? r_map r)%nat with false by lia; reflexivity).
  destruct (negb _); [inv H; repeat split; auto; exact (prefix_refl c)|].
  destruct (notify_all _ now _ ls) as [[c2 ev]|] eqn:Ea; [|discriminate].
  destruct (notify_all_frame m ls (with_maps c (upd (maps c) (r_map r) m')) _ _ _ _ Hd Ea) as [A B]. destruct (notify_all_events _ _ _ _ _ _ Ea) as (F & M & _).
  pose proof (notify_all_prefix _ _ _ _ _ _ Ea) as Hp.
  assert (changes_of m ev = []) as Hc.
  { apply changes_none. eapply Forall_impl; [|exact F]. intros e He. destruct e; auto. cbn in He. destruct He as (_ & -> & _). auto. }
  destruct (r_life r); inv H.
  - cbn [reqs with_reqs maps deps]. rewrite find_upd_other, M, changes_of_app, Hc by auto. repeat split; auto.
    destruct Hp as (tl & Hp). exists tl. cbn in Hp |- *. rewrite upd_req_maps by auto. exact Hp.
  - rewrite M. repeat split; auto.
Qed.

Lemma nth_after_prefix c c1 k r : NoDup (map r_map (reqs c1)) -> prefix c c1 -> find_req (r_map r) (reqs c1) = Some r ->
  nth_error (reqs c) k = Some r -> nth_error (reqs c1) k = Some r.
Proof.
  intros Hd (tl & Hp) Hf Hn. assert (nth_error (map r_map (reqs c1)) k = Some (r_map r)) as H.
  { rewrite Hp, nth_error_app1; [apply map_nth_error; auto|]. rewrite map_length. apply nth_error_Some. congruence. }
  rewrite nth_error_map in H. destruct (nth_error (reqs c1) k) as [r'|] eqn:E; [|discriminate]. cbn in H. injection H as H.
  rewrite (find_req_in (r_map r) (reqs c1) r') in Hf; auto. eapply nth_error_In; eauto.
Qed.

(* after the position of m *)
Lemma receive_loop_after m fuel : forall c now i x c' evs q f k r, I0 c -> find_dep m (deps c) = None ->
  nth_error (reqs c) k = Some r -> r_map r = m -> (k < i)%nat ->
  receive_loop fuel c now i x = Some (Ok (c', evs, q, f)) -> changes_of m evs = [] /\ maps c' m = maps c m.
Proof.
  induction fuel as [|fuel IH]; intros c now i x c' evs q f k r HI Hd Hn Hr Hk H; cbn in H; [discriminate|].
  destruct (length (reqs c) <=? i)%nat; [inv H; auto|].
  destruct (parse_request c now i x) as [[[c1 e1] p1]|] eqn:Ep; [|discriminate].
  destruct (receive_loop fuel c1 now (S i) x) as [[[[[c2 e2] p2] f2]|]|] eqn:El; try discriminate. inv H.
  destruct (parse_request_ok bi maps0 lt _ _ _ _ _ _ _ HI Ep) as (HI1 & _).
  assert (Hne : forall r0, nth_error (reqs c) i = Some r0 -> r_map r0 <> r_map r).
  { intros r0 H0 E. assert (k = i); [|lia]. destruct HI as (_ & Hnd & _). rewrite NoDup_nth_error in Hnd. apply Hnd.
    - rewrite map_length. apply nth_error_Some. congruence.
    - rewrite !nth_error_map, Hn, H0. cbn. congruence. }
  destruct (parse_request_frame (r_map r) _ _ _ _ _ _ _ HI Hd Hne Ep) as (A & M & D & C & P).
  rewrite changes_of_app, C. rewrite <- M. eapply IH; [exact HI1|exact D| |reflexivity| |exact El]; [|instantiate (1 := k); lia].
  eapply nth_after_prefix; [apply HI1|exact P| |exact Hn]. rewrite A. apply find_req_in; auto. apply HI. eapply nth_error_In; eauto.
Qed.

Lemma receive_loop_delivers m fuel : forall c now i x c' evs q f k r ls m', I0 c -> find_dep m (deps c) = None ->
  nth_error (reqs c) k = Some r -> r_map r = m -> r_listeners r = Some ls -> (i <= k)%nat ->
  truthy (response_t (maps c m)) = true -> parse (maps c m) x = Ok (m', true) ->
  receive_loop fuel c now i x = Some (Ok (c', evs, q, f)) ->
  changes_of m evs = (if result_finished m' then map (fun l => (l, val m')) ls else []) /\ maps c' m = m'.
Proof.
  induction fuel as [|fuel IH]; intros c now i x c' evs q f k r ls m' HI Hd Hn Hr Hls Hk Hresp Hp H; cbn in H; [discriminate|].
  destruct (length (reqs c) <=? i)%nat eqn:Elen.
  { exfalso. assert (k < length (reqs c))%nat by (apply nth_error_Some; congruence). lia. }
  destruct (parse_request c now i x) as [[[c1 e1] p1]|] eqn:Ep; [|discriminate].
  destruct (receive_loop fuel c1 now (S i) x) as [[[[[c2 e2] p2] f2]|]|] eqn:El; try discriminate. injection H as <- <- _ _.
  destruct (parse_request_ok bi maps0 lt _ _ _ _ _ _ _ HI Ep) as (HI1 & _).
  assert (Hin : In r (reqs c)) by (eapply nth_error_In; eauto).
  destruct (Nat.eq_dec i k) as [->|Hik].
  - pose proof Ep as Ep0. unfold parse_request in Ep. rewrite Hn, Hr, Hresp, Hls, Hp in Ep. cbn [negb] in Ep.
    destruct (parse_fields _ _ _ _ Hp) as (Fr & Fd & _).
    set (c3 := with_maps c (upd (maps c) m m')) in *.
    assert (Hnd3 : nth_error (reqs c3) k = Some r) by exact Hn.
    destruct (result_finished m') eqn:Erf; cbn [negb] in Ep.
    + destruct (notify_all c3 now m ls) as [[c4 e4]|] eqn:Ea; [|discriminate].
      pose proof (I0_upd_map bi maps0 lt c m m' HI Fr Fd) as HI3.
      assert (Hdl : forall d, In (LDep d) ls -> d <> m).
      { rewrite <- Hr. destruct HI as (_ & _ & Hok). rewrite Forall_forall in Hok. apply (Hok r Hin). auto. }
      destruct (notify_all_ok bi maps0 lt ls c3 now m c4 e4 HI3 Hdl Ea) as (HI4 & (M & _) & P & Hf & _ & _ & Hflt).
      destruct (notify_all_frame m ls c3 now m c4 e4 Hd Ea) as [_ Hd4].
      assert (nth_error (reqs c4) k = Some r) as Hn4.
      { eapply nth_after_prefix; [apply HI4|exact P| |exact Hn]. rewrite Hr, Hf. cbn. apply find_req_in; auto. apply HI. }
      assert (maps c1 = maps c4 /\ changes_of m e1 = changes_of m e4 /\ find_dep m (deps c1) = None /\
              exists r1, nth_error (reqs c1) k = Some r1 /\ r_map r1 = m) as (M1 & Hc1 & Hd1 & r1 & Hn1 & Hr1).
      { destruct (r_life r); injection Ep as <- <- _.
        - split; [reflexivity|]. split; [rewrite changes_of_app; cbn; apply app_nil_r|]. split; [exact Hd4|].
          assert (Hnm : nth_error (map r_map (upd_req m (fun r0 => mkReq m None (r_life r0)) (reqs c4))) k = Some m).
          { rewrite upd_req_maps by auto. rewrite nth_error_map, Hn4. cbn. congruence. }
          cbn [reqs with_reqs]. rewrite nth_error_map in Hnm. destruct (nth_error (upd_req m _ (reqs c4)) k) as [r1|]; [|discriminate].
          exists r1. split; [reflexivity|]. cbn in Hnm. congruence.
        - eauto 10. }
      destruct (receive_loop_after m _ _ _ _ _ _ _ _ _ k r1 HI1 Hd1 Hn1 Hr1 (Nat.lt_succ_diag_r k) El) as [Hc5 M5].
      rewrite changes_of_app, Hc5, app_nil_r, M5, M1, M, Hc1. cbn [maps c3 with_maps]. unfold upd. rewrite Nat.eqb_refl. split; auto.
      rewrite filter_changes, Hflt, changes_map. cbn. unfold upd. rewrite Nat.eqb_refl. reflexivity.
    + injection Ep as <- <- _.
      destruct (receive_loop_after m _ _ _ _ _ _ _ _ _ k r HI1 Hd Hn Hr (Nat.lt_succ_diag_r k) El) as [Hc5 M5].
      cbn [app]. rewrite Hc5, M5. cbn. unfold upd. rewrite Nat.eqb_refl. auto.
  - assert (Hne : forall r0, nth_error (reqs c) i = Some r0 -> r_map r0 <> m).
    { intros r0 H0 E. apply Hik. destruct HI as (_ & Hnd & _). rewrite NoDup_nth_error in Hnd. apply Hnd.
      - rewrite map_length. apply nth_error_Some. congruence.
      - rewrite !nth_error_map, Hn, H0. cbn. congruence. }
    destruct (parse_request_frame m _ _ _ _ _ _ _ HI Hd Hne Ep) as (A & M & D & C & P).
    assert (nth_error (reqs c1) k = Some r) as Hn1.
    { eapply nth_after_prefix; [apply HI1|exact P| |exact Hn]. rewrite Hr, A. apply find_req_in; auto. apply HI. }
    rewrite changes_of_app, C. cbn [app]. eapply IH; [exact HI1|exact D|exact Hn1|exact Hr|exact Hls| | | |exact El]; try lia; rewrite M; auto.
Qed.

Lemma delivers c now x c' evs m ls m' : Inv bi maps0 lt c -> KI c -> depends (maps0 m) = None ->
  perm_l (reqs c) m = Some ls -> truthy (response_t (maps c m)) = true -> parse (maps c m) x = Ok (m', true) ->
  cstep bi c (Receive now (Some x)) = Ok (c', evs) ->
  changes_of m evs = (if result_finished m' then map (fun l => (l, val m')) ls else []) /\ maps c' m = m'.
Proof.
  intros HI HK Hdep Hp Hresp Hparse H. cbn in H.
  destruct (receive c now (Some x)) as [[[c1 e1]|]|] eqn:E; try discriminate. inv H. unfold receive in E.
  destruct (timeouts c now) as [c1 e1] eqn:Et. destruct (timeouts_facts _ _ _ _ Et) as (F & K & _ & Ed).
  destruct (timeouts_ok _ _ _ _ _ _ _ HI Et) as (HI1 & _).
  destruct (receive_loop _ c1 now 0 x) as [[[[[c2 e2] p2] f2]|]|] eqn:El; try discriminate. injection E as <- <-.
  assert (Hm1 : maps c1 m = maps c m).
  { apply K. intros r p Hin Hr Hlf. unfold perm_l in Hp. rewrite (find_req_in m (reqs c) r) in Hp; auto; [|apply HI]. rewrite Hlf in Hp. discriminate. }
  assert (Hp1' : perm_l (reqs c1) m = Some ls).
  { clear - HI Et Hp. unfold timeouts, p_exceeded in Et. destruct (_ <? now); cbn in Et; [|inv Et; exact Hp].
    destruct (expire (maps c) now (reqs c)) as [[f rs] ev] eqn:Ee. inv Et. destruct HI as ((_ & Hnd & Hok) & _).
    assert (Hmaps : map r_map rs = map r_map (reqs c)) by (eapply (expire_ok bi maps0 lt); eauto).
    cbn. apply perm_cleanup; [rewrite Hmaps; auto|]. eapply expire_perm; eauto. }
  unfold perm_l in Hp1'. destruct (find_req m (reqs c1)) as [r|] eqn:Ef; [|discriminate]. destruct (r_life r) eqn:Elf; [discriminate|].
  destruct (find_req_some _ _ _ Ef) as [Hin Hr]. destruct (In_nth_error _ _ Hin) as (k & Hk).
  assert (Hd : find_dep m (deps c1) = None).
  { rewrite Ed. destruct (find_dep m (deps c)) eqn:Efd; auto. exfalso. eapply HK; eauto. }
  rewrite <- Hm1 in Hresp, Hparse.
  destruct (receive_loop_delivers m _ _ _ _ _ _ _ _ _ k r ls m' (proj1 HI1) Hd Hk Hr Hp1' (Nat.le_0_l k) Hresp Hparse El) as [A B].
  split.
  - rewrite !changes_of_app, A. replace (changes_of m e1) with (@nil (listener * option value)).
    + destruct p2; cbn; rewrite app_nil_r; reflexivity.
    + symmetry. apply changes_none. eapply Forall_impl; [|exact F]. intros e He. destruct e; auto; destruct He.
  - destruct f2; exact B.
Qed.

(* ---- an answer in time ---- *)

Lemma expire_keeps l : forall f now f' l' ev m r p, expire f now l = (f', l', ev) -> find_req m l = Some r ->
  r_life r = Some p -> now <= last_reset p + interval p -> find_req m l' = Some r.
Proof.
  induction l as [|r0 l IH]; intros f now f' l' ev m r p H Hf Hl Hn; [discriminate|].
  rewrite expire_cons in H. destruct (expire1 f now r0) as [[f1 r1] e1] eqn:E1.
  destruct (expire f1 now l) as [[f2 rs] e2] eqn:E2. inv H. destruct (expire1_map bi maps0 lt _ _ _ _ _ _ E1) as (Hm1 & _).
  cbn in *. rewrite Hm1. destruct (r_map r0 =? m)%nat; [|eapply IH; eauto]. inv Hf.
  unfold expire1, p_exceeded in E1. rewrite Hl in E1. replace (last_reset p + interval p <? now) with false in E1 by lia.
  inv E1. f_equal. destruct r; cbn in *. congruence.
Qed.
Lemma expire_maps l : forall f now f' l' ev m r p, NoDup (map r_map l) -> expire f now l = (f', l', ev) -> find_req m l = Some r ->
  r_life r = Some p -> now <= last_reset p + interval p -> f' m = f m.
Proof.
  induction l as [|r0 l IH]; intros f now f' l' ev m r p Hd H Hf Hl Hn; [discriminate|].
  rewrite expire_cons in H. destruct (expire1 f now r0) as [[f1 r1] e1] eqn:E1.
  destruct (expire f1 now l) as [[f2 rs] e2] eqn:E2. inv H.
  cbn in *. apply NoDup_cons_iff in Hd. destruct Hd as [Hni Hd]. destruct (r_map r0 =? m)%nat eqn:E.
  - inv Hf. apply Nat.eqb_eq in E. subst m.
    unfold expire1, p_exceeded in E1. rewrite Hl in E1. replace (last_reset p + interval p <? now) with false in E1 by lia. inv E1.
    destruct (expire_events _ _ _ _ _ _ E2) as [_ K]. apply K. intros r0 p0 Hin Hr _. apply Hni. rewrite <- Hr. apply in_map. exact Hin.
  - rewrite (IH _ _ _ _ _ _ _ _ Hd E2 Hf Hl Hn). apply Nat.eqb_neq in E. unfold expire1 in E1.
    destruct (r_life r0); [|inv E1; auto]. destruct (p_exceeded p0 now) as [ex p']. destruct ex; [|inv E1; auto].
    destruct (r_listeners r0) as [ls|]; [|inv E1; auto].
    pose proof (notify_terminated_other f (r_map r0) ls m) as Ho. destruct (notify_terminated f (r_map r0) ls). inv E1. cbn in Ho. auto.
Qed.
Lemma answers c now x c' evs m t ls m' : Inv bi maps0 lt c -> KI c -> depends (maps0 m) = None -> requested bi maps0 lt m ->
  outstanding c m = Waiting t Open ls -> now <= t + lt -> truthy (response_t (maps c m)) = true -> parse (maps c m) x = Ok (m', true) ->
  cstep bi c (Receive now (Some x)) = Ok (c', evs) ->
  changes_of m evs = (if result_finished m' then map (fun l => (l, val m')) ls else []) /\ maps c' m = m'.
Proof.
  intros HI HK Hdep Hm Ho Hnow Hresp Hparse H. cbn in H.
  destruct (receive c now (Some x)) as [[[c1 e1]|]|] eqn:E; try discriminate. inv H. unfold receive in E.
  destruct (timeouts c now) as [c1 e1] eqn:Et. destruct (timeouts_facts _ _ _ _ Et) as (F & K & _ & Ed).
  destruct (timeouts_ok _ _ _ _ _ _ _ HI Et) as (HI1 & _).
  destruct (receive_loop _ c1 now 0 x) as [[[[[c2 e2] p2] f2]|]|] eqn:El; try discriminate. injection E as <- <-.
  destruct (abs_idle_or_waiting _ _ _ c m HI Hm) as [(Ho' & _)|(r & t' & ls' & Ho' & Ef & Els & _ & Elf)]; [congruence|].
  rewrite Ho in Ho'. injection Ho' as <- <-.
  assert (find_req m (reqs c1) = Some r /\ maps c1 m = maps c m) as [Hf1 Hm1].
  { clear - HI Et Ef Els Elf Hnow. unfold timeouts, p_exceeded in Et. destruct (_ <? now); cbn in Et; [|inv Et; auto].
    destruct (expire (maps c) now (reqs c)) as [[f rs] ev] eqn:Ee. inv Et. destruct HI as ((_ & Hnd & Hok) & _).
    assert (Hmaps : map r_map rs = map r_map (reqs c)) by (eapply (expire_ok bi maps0 lt); eauto).
    split; [|cbn; eapply expire_maps; eauto].
    assert (find_req m rs = Some r) as Hr by (eapply expire_keeps; eauto). cbn. unfold cleanup_requests. destruct (find_req_some _ _ _ Hr) as [Hin Hrm].
    apply find_req_in; auto; [apply NoDup_map_filter; rewrite Hmaps; auto|]. apply filter_In. split; auto. unfold finished. rewrite Els. reflexivity. }
  destruct (find_req_some _ _ _ Hf1) as [Hin Hr]. destruct (In_nth_error _ _ Hin) as (k & Hk).
  assert (Hd : find_dep m (deps c1) = None).
  { rewrite Ed. destruct (find_dep m (deps c)) eqn:Efd; auto. exfalso. eapply HK; eauto. }
  rewrite <- Hm1 in Hresp, Hparse.
  destruct (receive_loop_delivers m _ _ _ _ _ _ _ _ _ k r ls m' (proj1 HI1) Hd Hk Hr Els (Nat.le_0_l k) Hresp Hparse El) as [A B].
  split.
  - rewrite !changes_of_app, A. replace (changes_of m e1) with (@nil (listener * option value)).
    + destruct p2; cbn; rewrite app_nil_r; reflexivity.
    + symmetry. apply changes_none. eapply Forall_impl; [|exact F]. intros e He. destruct e; auto; destruct He.
  - destruct f2; exact B.
Qed.

(* ---- C10 ---- *)

Lemma parse_with_val m v x m' : parse m x = Ok (m', false) -> parse (with_val m v) x = Ok (with_val m v, false).
Proof.
  unfold parse, parse_two, parse_plain. destruct m as [n s rq rs vl ty dp tp v1]; cbn. intros H. destruct tp; cbn in *.
  - destruct rs as [|?|[|r0 [|r1 rest]]]; try discriminate.
    + destruct (parse_against ty x r0) as [[?|]|]; discriminate.
    + destruct (parse_against ty x r0) as [[?|]|]; try discriminate. destruct (parse_against ty x r1) as [[?|]|]; try discriminate; auto.
      destruct v1; [|auto]. destruct (combine _ _); discriminate.
  - destruct (parse_against _ _ _) as [[?|]|]; try discriminate. reflexivity.
Qed.
Lemma not_concerns_with_val x m v : ~ concerns x m -> truthy (response_t m) = true -> parse (with_val m v) x = Ok (with_val m v, false).
Proof.
  intros Hn Ht. assert (parse m x = Ok (m, false)) as E.
  { destruct (parse m x) as [[m' b]|] eqn:E.
    - destruct b; [exfalso; apply Hn; split; [auto|congruence]|]. destruct (parse_fields _ _ _ _ E) as (_ & _ & _ & _ & _ & _ & _ & H). rewrite H; auto.
    - exfalso. apply Hn. split; [auto|congruence]. }
  eapply parse_with_val; eauto.
Qed.

Lemma receive_loop_foreign fuel : forall c now i x,
  (forall r, In r (reqs c) -> truthy (response_t (maps c (r_map r))) = true -> parse (maps c (r_map r)) x = Ok (maps c (r_map r), false)) ->
  Forall (fun r => finished r = false) (reqs c) -> (length (reqs c) < fuel + i)%nat -> (i <= length (reqs c))%nat ->
  receive_loop fuel c now i x = Some (Ok (c, [], false, false)).
Proof.
  induction fuel as [|fuel IH]; intros c now i x Hx Hf Hl Hi; cbn; [lia|].
  destruct (length (reqs c) <=? i)%nat eqn:E; auto.
  destruct (nth_error (reqs c) i) as [r|] eqn:En; [|apply nth_error_None in En; lia].
  assert (Hin : In r (reqs c)) by (eapply nth_error_In; eauto).
  assert (parse_request c now i x = Ok (c, [], false)) as ->.
  { unfold parse_request. rewrite En. destruct (truthy _) eqn:Et; cbn [negb]; auto. destruct (r_listeners r); auto.
    rewrite Hx; auto. }
  rewrite En. pose proof (proj1 (Forall_forall _ _) Hf r Hin) as Hr. cbn in Hr. rewrite Hr. rewrite IH; auto; try lia.
Qed.

Lemma foreign c now x c1 e1 : Inv bi maps0 lt c ->
  (forall r, In r (reqs c) -> ~ concerns x (maps c (r_map r))) ->
  cstep bi c (Receive now None) = Ok (c1, e1) -> cstep bi c (Receive now (Some x)) = Ok (c1, e1 ++ [EvUnused x]).
Proof.
  intros HI Hx H. cbn in *. unfold receive in *. destruct (timeouts c now) as [c2 e2] eqn:Et. inv H.
  destruct (timeouts_facts _ _ _ _ Et) as (_ & _ & V & _). destruct (timeouts_ok _ _ _ _ _ _ _ HI Et) as (HI1 & _).
  rewrite receive_loop_foreign; auto; try lia; [|apply HI1].
  intros r Hin Ht. destruct (V (r_map r)) as (v & E). rewrite E in *. apply not_concerns_with_val; auto.
  assert (forall r, In r (reqs c1) -> exists r0, In r0 (reqs c) /\ r_map r0 = r_map r) as Hsub.
  { clear - Et. intros r Hin. unfold timeouts, p_exceeded in Et. destruct (_ <? now); cbn in Et; [|inv Et; eauto].
    destruct (expire (maps c) now (reqs c)) as [[f rs] ev] eqn:Ee. inv Et. cbn in Hin. unfold cleanup_requests in Hin. apply filter_In in Hin.
    destruct Hin as [Hin _]. apply (in_map r_map) in Hin.
    assert (map r_map rs = map r_map (reqs c)) as E.
    { revert Ee. clear. generalize (maps c). revert rs e1 f. induction (reqs c) as [|r l IH]; intros rs ev f f0 H; [inv H; auto|].
      rewrite expire_cons in H. destruct (expire1 f0 now r) as [[f3 r3] e3] eqn:E3. destruct (expire f3 now l) as [[f4 r4] e4] eqn:E4. inv H.
      cbn. f_equal; [|eapply IH; eauto]. eapply (expire1_map (fun _ => false) (fun _ => f0 0%nat) 0); eauto. }
    rewrite E in Hin. apply in_map_iff in Hin. destruct Hin as (r0 & A & B). eauto. }
  destruct (Hsub r Hin) as (r0 & A & <-). apply Hx. exact A.
Qed.
End Perm.
