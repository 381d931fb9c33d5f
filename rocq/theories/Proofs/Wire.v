From Verif.Lib Require Import Base.
From Verif.Model Require Import Midi Period Mapping Client.
From Verif.Spec Require Import Mapping Client System Wire.
From Verif.Proofs Require Import Client ClientOps ClientDep ClientProps System.
Open Scope Z_scope.

Definition like (x x0 : option msg) : Prop :=
  match x, x0 with None, None => True | Some y, Some y0 => forall v, carrying y v = carrying y0 v | _, _ => False end.
Definition likes (t t0 : tmpl) : Prop :=
  match t, t0 with
  | TNone, TNone => True
  | TOne x, TOne x0 => forall v, carrying x v = carrying x0 v
  | TMany xs, TMany xs0 => Forall2 like xs xs0
  | _, _ => False
  end.
Lemma likes_refl t : likes t t.
Proof. destruct t; cbn; auto. induction l as [|[x|] l IH]; constructor; cbn; auto. Qed.
Lemma likes_trans t1 t2 t3 : likes t1 t2 -> likes t2 t3 -> likes t1 t3.
Proof.
  destruct t1, t2, t3; cbn; auto; try contradiction.
  - intros A B v. rewrite A. auto.
  - intros A. revert l1. induction A as [|x y l l' H A IH]; intros l1 B; inv B; constructor; auto.
    destruct x, y, y0; cbn in *; auto; try contradiction. intros v. rewrite H. auto.
Qed.
Lemma like_truthy t t0 : likes t t0 -> truthy t = truthy t0.
Proof. destruct t, t0; cbn; try contradiction; auto. intros H. inv H; auto. Qed.

Lemma list_filled xs : forall xs0 vs xs', Forall2 like xs xs0 -> set_value_list Numeric xs vs = (xs', true) ->
  Forall2 like xs' xs0 /\ flat_map (fun o => match o with Some x => [x] | None => [] end) xs' =
    flat_map (fun p => match fst p with Some x => [carrying x (snd p)] | None => [] end) (List.combine xs0 vs).
Proof.
  induction xs as [|x xs IH]; intros xs0 vs xs' HF H; inversion HF as [|x0 y l l' Hxy Hrest]; subst; cbn [set_value_list] in H;
    [injection H as <-; split; [constructor|reflexivity]|].
  destruct vs as [|v vs]; [discriminate|]. destruct x as [x|].
  - destruct (set_value_one Numeric x v) as [x1|] eqn:E; [|discriminate]. destruct (set_value_list Numeric xs vs) as [r ok] eqn:El. injection H as <- ->.
    destruct (IH _ _ _ Hrest El) as [A B]. apply set_one_carrying in E. destruct y as [y|]; [|contradiction]. cbn in Hxy. rewrite Hxy in E. subst x1.
    split; [constructor; auto; cbn; intros w; apply carrying_carrying|]. cbn. rewrite B. reflexivity.
  - destruct (set_value_list Numeric xs vs) as [r ok] eqn:El. injection H as <- ->.
    destruct (IH _ _ _ Hrest El) as [A B]. destruct y as [y|]; [contradiction|]. split; [constructor; auto|]. cbn. exact B.
Qed.
Lemma set_filled m a m' t0 : set_value m a = (m', true) -> likes (set_t m) t0 -> likes (set_t m') t0 /\ wire (set_t m') = filled t0 a.
Proof.
  intros H L. unfold set_value in H. destruct (set_t m) as [|x|xs] eqn:Es; destruct t0 as [|x0|xs0]; cbn in L; try contradiction.
  - destruct (typ m); [|discriminate]. injection H as <-. rewrite Es. split; [exact I|]. destruct a; reflexivity.
  - destruct a as [v|]; [|discriminate]. destruct (typ m); [|discriminate]. destruct (set_value_one Numeric x v) as [x1|] eqn:E; [|discriminate].
    injection H as <-. cbn. apply set_one_carrying in E. subst x1. rewrite L. split; [intros w; apply carrying_carrying|reflexivity].
  - destruct a as [v|vs].
    + inv L; [|discriminate]. injection H as <-. rewrite Es. split; [constructor|reflexivity].
    + destruct (set_value_list (typ m) xs vs) as [xs' ok] eqn:El. injection H as <- ->. cbn. destruct (typ m).
      * exact (list_filled _ _ _ _ L El).
      * inv L; cbn in El; [injection El as <-; split; [constructor|reflexivity]|]. destruct vs as [|v vs]; [discriminate|]. destruct x; discriminate.
Qed.

Lemma likes_reached bi maps0 lt ops c evs m : reached bi maps0 lt ops c evs -> likes (set_t (maps c m)) (set_t (maps0 m)).
Proof.
  intros [_ H]. refine (crun_maps (fun a b => likes (set_t b) (set_t a)) _ _ _ _ _ _ _ _ _ _ _ m H); try (intros; apply likes_refl).
  - intros x y z A B. eapply likes_trans; eauto.
  - intros x a x' Hs. exact (proj1 (set_filled _ _ _ _ Hs (likes_refl _))).
Qed.

Lemma c62_set bi maps0 lt ops c evs now m a c' ev : reached bi maps0 lt ops c evs -> cstep bi c (Set_ now m a) = Ok (c', ev) ->
  filter is_set ev = (if truthy (set_t (maps0 m)) then [EvSet m (filled (set_t (maps0 m)) a)] else []).
Proof.
  intros Hr H. pose proof (likes_reached _ _ _ _ _ _ m Hr) as L. rewrite <- (like_truthy _ _ L). cbn in H.
  destruct (set_param_shape _ _ _ _ _ _ _ H) as (c1 & e1 & H1 & H2).
  assert (filter is_set ev = filter is_set e1) as ->.
  { destruct H2 as [(_ & _ & ->)|(_ & r & ls & z & e2 & _ & _ & _ & -> & Hn)]; auto. rewrite filter_app.
    destruct (notify_all_events _ _ _ _ _ _ Hn) as [F _]. assert (filter is_set e2 = []) as ->; [|apply app_nil_r].
    clear - F. induction F as [|y l Hy F IH]; cbn; auto. destruct y; cbn in *; auto; contradiction. }
  destruct H1 as [(Et & _ & ->)|(m' & Et & Es & _ & ->)]; rewrite Et; [reflexivity|]. cbn. destruct (set_filled _ _ _ _ Es L) as [_ ->]. reflexivity.
Qed.

(* requests *)
Lemma req_reached bi maps0 lt ops c evs m : reached bi maps0 lt ops c evs -> request_t (maps c m) = request_t (maps0 m) \/ request_t (maps c m) = TNone.
Proof.
  intros [_ H]. refine (crun_maps (fun a b => request_t b = request_t a \/ request_t b = TNone) _ _ _ _ _ _ _ _ _ _ _ m H); auto.
  - intros x y z [A|A] [B|B]; rewrite ?B, ?A; auto.
  - intros x a x' Hs. left. unfold set_value in Hs. destruct (set_t x).
    + destruct (typ x); [injection Hs as <-; auto|discriminate].
    + destruct a; [|discriminate]. destruct (set_value_one _ _ _); [|discriminate]. injection Hs as <-. auto.
    + destruct a; [destruct l; [injection Hs as <-; auto|discriminate]|]. destruct (set_value_list _ _ _) as [xs ok]. injection Hs as <- _. auto.
Qed.

Section Req.
Variable maps0 : mid -> mapping.
Definition Q (f : mid -> mapping) : Prop := forall k, request_t (f k) = request_t (maps0 k) \/ request_t (f k) = TNone.
Definition P (e : event) : Prop := match e with EvReqSent k w => w = messages (request_t (maps0 k)) | _ => True end.

Lemma register_P c now m l send c' evs : Q (maps c) -> register_mapping c now m l send = Ok (c', evs) -> Forall P evs /\ maps c' = maps c.
Proof.
  intros HQ H. split; [|destruct (register_deps _ _ _ _ _ _ _ H); auto]. unfold register_mapping in H. destruct (find_req m (reqs c)) as [r|].
  - destruct l as [l|]; [|inv H; constructor]. destruct (r_listeners r); [|discriminate]. destruct (existsb _ _); inv H; repeat constructor.
  - injection H as _ <-. constructor; [exact I|]. apply Forall_app. split; [destruct l; repeat constructor|].
    destruct (send && truthy (request_t (maps c m))) eqn:E; [|constructor]. apply andb_prop in E. destruct E as [_ E].
    repeat constructor. cbn. destruct (HQ m) as [Hq|Hq]; rewrite Hq in *; [reflexivity|discriminate].
Qed.
Lemma notify_P c now m l c' evs : Q (maps c) -> notify c now m l = Ok (c', evs) -> Forall P evs /\ maps c' = maps c.
Proof.
  intros HQ H. unfold notify in H. destruct l as [x|d]; [inv H; repeat constructor|].
  destruct (find_dep d (deps c)) as [[last inner]|]; [|inv H; repeat constructor]. destruct (value_eqb _ _); [inv H; repeat constructor|].
  destruct (register_mapping _ now d _ true) as [[c1 e1]|] eqn:Er; [|discriminate]. injection H as <- <-.
  apply register_P in Er; [|exact HQ]. destruct Er as [A B]. split; [constructor; [exact I|exact A]|]. rewrite B. reflexivity.
Qed.
Lemma notify_all_P ls : forall c now m c' evs, Q (maps c) -> notify_all c now m ls = Ok (c', evs) -> Forall P evs /\ maps c' = maps c.
Proof.
  induction ls as [|l ls IH]; intros c now m c' evs HQ H; cbn in H; [inv H; auto|].
  destruct (notify c now m l) as [[c1 e1]|] eqn:E1; [|discriminate]. destruct (notify_all c1 now m ls) as [[c2 e2]|] eqn:E2; [|discriminate]. inv H.
  destruct (notify_P _ _ _ _ _ _ HQ E1) as [A B]. rewrite <- B in HQ. destruct (IH _ _ _ _ _ HQ E2) as [A' B']. split; [apply Forall_app; auto|congruence].
Qed.
Lemma Q_upd f k x : Q f -> request_t x = request_t (f k) -> Q (upd f k x).
Proof. intros H E m. unfold upd. destruct (m =? k)%nat eqn:Ek; auto. apply Nat.eqb_eq in Ek. subst. rewrite E. auto. Qed.
Lemma parse_req x y m' b : parse x y = Ok (m', b) -> request_t m' = request_t x.
Proof. intros H. destruct (parse_shape _ _ _ _ H) as [(-> & ->)|(-> & [(v & ->)|[(v & ->)|(v & ->)]])]; auto. Qed.
Lemma loop_P n : forall c1 now i x c2 e2 p2 f2, Q (maps c1) -> receive_loop n c1 now i x = Some (Ok (c2, e2, p2, f2)) -> Forall P e2.
Proof.
  induction n as [|n IH]; intros c1 now i x c2 e2 p2 f2 HQ H; cbn in H; [discriminate|].
  destruct (length (reqs c1) <=? i)%nat; [inv H; auto|].
  destruct (parse_request c1 now i x) as [[[c3 e3] p3]|] eqn:Ep; [|discriminate].
  destruct (receive_loop n c3 now (S i) x) as [[[[[c4 e4] p4] f4]|]|] eqn:El; try discriminate. inv H.
  assert (Forall P e3 /\ Q (maps c3)) as [A B]; [|apply Forall_app; split; [exact A|eapply IH; eauto]].
  clear IH El. unfold parse_request in Ep.
  destruct (nth_error (reqs c1) i) as [r|]; [|inv Ep; auto].
  destruct (negb _); [inv Ep; auto|]. destruct (r_listeners r) as [ls|]; [|inv Ep; auto].
  destruct (parse _ x) as [[m' b]|] eqn:Epp; [|discriminate]. apply parse_req in Epp.
  destruct b; [|inv Ep; auto]. assert (Q (upd (maps c1) (r_map r) m')) as HQ' by (apply Q_upd; auto).
  destruct (negb _); [inv Ep; cbn; auto|].
  destruct (notify_all _ now _ ls) as [[c5 ev5]|] eqn:Ea; [|discriminate]. apply notify_all_P in Ea; [|exact HQ']. destruct Ea as [A B].
  destruct (r_life r); inv Ep; cbn [maps with_reqs]; rewrite B; (split; [|exact HQ']); auto. apply Forall_app. split; auto. repeat constructor.
Qed.
Lemma expire_P q : forall f0 now f l' ev, expire f0 now q = (f, l', ev) -> Forall P ev.
Proof.
  induction q as [|r q IH]; intros f0 now f l' ev H; cbn in H; [injection H as <- <- <-; constructor|].
  set (t := match r_life r with None => _ | Some _ => _ end) in H. destruct t as [[f1 r1] e1] eqn:Et.
  assert (Forall P e1) as F0.
  { subst t. destruct (r_life r) as [p|]; [|injection Et as <- <- <-; constructor]. destruct (p_exceeded p now) as [ex p'].
    destruct ex; [|injection Et as <- <- <-; constructor]. destruct (r_listeners r) as [ls|]; [|injection Et as <- <- <-; constructor].
    injection Et as <- <- <-. apply Forall_app. split; [|repeat constructor]. apply Forall_forall. intros y Hy. apply in_map_iff in Hy.
    destruct Hy as (? & <- & _). exact I. }
  clearbody t. subst t. destruct (expire f1 now q) as [[f2 l2] e2] eqn:E2. injection H as <- <- <-. apply Forall_app. split; eauto.
Qed.
End Req.

Lemma c62_request bi maps0 lt ops c evs o c' ev m w : reached bi maps0 lt ops c evs -> cstep bi c o = Ok (c', ev) -> In (EvReqSent m w) ev ->
  w = messages (request_t (maps0 m)).
Proof.
  intros Hr H Hin. assert (HQ : Q maps0 (maps c)) by (intros k; eapply req_reached; eauto).
  assert (Forall (P maps0) ev) as HF; [|rewrite Forall_forall in HF; exact (HF _ Hin)]. clear Hin.
  destruct o as [now k l|now k l|now x|now k a| |k v]; cbn in H.
  - unfold register in H. destruct (negb _ && _); [|inv H; auto]. apply register_P with (maps0 := maps0) in H; [apply H|].
    destruct (bi k); auto. intros j. cbn. unfold upd. destruct (j =? k)%nat eqn:E; auto.
  - unfold request_param in H. destruct (negb _ || negb _); [inv H; auto|].
    destruct (depends (maps c k)); apply register_P with (maps0 := maps0) in H; try apply H; auto. destruct (find_dep k (deps c)); cbn; auto.
  - destruct (receive c now x) as [[[c1 e1]|]|] eqn:E; try discriminate. injection H as -> ->.
    unfold receive in E. destruct (timeouts c now) as [c1 e1] eqn:Et. destruct (timeouts_facts _ _ _ _ Et) as (_ & _ & V & _).
    assert (HQ1 : Q maps0 (maps c1)) by (intros j; destruct (V j) as (v & ->); apply HQ).
    assert (Forall (P maps0) e1) as F1.
    { unfold timeouts in Et. destruct (p_exceeded _ _) as [r pp]. destruct r; [|injection Et as <- <-; constructor].
      destruct (expire _ now _) as [[f l'] e0] eqn:Ee. injection Et as <- <-. eapply expire_P; eauto. }
    destruct x as [x|]; [|inv E; exact F1].
    destruct (receive_loop _ c1 now 0 x) as [[[[[c2 e2] p2] f2]|]|] eqn:El; try discriminate. apply loop_P with (maps0 := maps0) in El; auto.
    injection E as <- <-. apply Forall_app. split; auto. apply Forall_app. split; auto. destruct p2; repeat constructor.
  - destruct (set_param_shape _ _ _ _ _ _ _ H) as (c1 & e1 & H1 & H2).
    assert (Forall (P maps0) e1) as F1 by (destruct H1 as [(_ & _ & ->)|(m' & _ & _ & _ & ->)]; repeat constructor).
    destruct H2 as [(_ & _ & ->)|(_ & r & ls & z & e2 & _ & _ & _ & -> & Hn)]; auto. apply Forall_app. split; auto.
    apply notify_all_P with (maps0 := maps0) in Hn; [apply Hn|]. cbn. apply Q_upd; [|reflexivity].
    destruct H1 as [(_ & -> & _)|(m' & _ & Es & -> & _)]; auto. cbn. apply Q_upd; auto.
    unfold set_value in Es. destruct (set_t (maps c k)).
    + destruct (typ _); [injection Es as <-; auto|discriminate].
    + destruct a; [|discriminate]. destruct (set_value_one _ _ _); [|discriminate]. injection Es as <-. auto.
    + destruct a; [destruct l; [injection Es as <-; auto|discriminate]|]. destruct (set_value_list _ _ _) as [xs ok]. injection Es as <- _. auto.
  - destruct (connection_lost _ _ _) as [[f e]|] eqn:E; [|discriminate]. injection H as _ <-.
    rewrite (lost_shape _ _ _ _ _ E). apply Forall_flat_map, Forall_forall. intros r _. destruct (bi (r_map r)); auto.
    destruct (r_listeners r); auto. apply Forall_forall. intros y Hy. apply in_map_iff in Hy. destruct Hy as (? & <- & _). exact I.
  - inv H. constructor.
Qed.

Lemma c62_sets_only bi c o c' ev m w : cstep bi c o = Ok (c', ev) -> In (EvSet m w) ev -> exists now a, o = Set_ now m a.
Proof.
  intros H Hin. set (g := System.mkYcfg (fun _ => Switch.mkSwitchCfg [] [] false) (fun _ => 0) (fun _ => System.mkAcfg PushButton.LATCH 0 (BinaryCb.mkBcfg BinaryCb.EQUAL 0 (BinaryCb.SOne 0) (BinaryCb.OOne None) false true false false) 0%nat 0) bi).
  pose proof (call_sets g c o c' ev m H) as Hs.
  assert (In w (set_events m ev)) as Hi. { unfold set_events. apply in_flat_map. exists (EvSet m w). split; auto. rewrite Nat.eqb_refl. left. reflexivity. }
  rewrite Hs in Hi. destruct o as [| | |now k a| |]; try destruct Hi. destruct ((k =? m)%nat) eqn:E; [|destruct Hi]. apply Nat.eqb_eq in E. subst. eauto.
Qed.

Lemma c62_everything bi maps0 lt ops c evs o c' ev x : reached bi maps0 lt ops c evs -> cstep bi c o = Ok (c', ev) -> In x (sends ev) ->
  (exists m, In x (messages (request_t (maps0 m)))) \/ (exists now m a, o = Set_ now m a /\ In x (filled (set_t (maps0 m)) a)).
Proof.
  intros Hr H Hx. unfold sends in Hx. apply in_flat_map in Hx. destruct Hx as (e & He & Hx). destruct e; try destruct Hx.
  - left. exists m. rewrite <- (c62_request _ _ _ _ _ _ _ _ _ _ _ Hr H He). exact Hx.
  - right. destruct (c62_sets_only _ _ _ _ _ _ _ H He) as (now & a & ->). exists now, m, a. split; auto.
    pose proof (c62_set _ _ _ _ _ _ _ _ _ _ _ Hr H) as Hs. assert (In (EvSet m w) (filter is_set ev)) as Hi by (apply filter_In; auto).
    rewrite Hs in Hi. destruct (truthy _); [|destruct Hi]. destruct Hi as [Hi|[]]. injection Hi as <-. exact Hx.
Qed.
