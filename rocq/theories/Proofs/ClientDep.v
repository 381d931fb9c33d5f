(* Dependent parameters (C11). *)
From Verif.Lib Require Import Base.
From Verif.Model Require Import Midi Period Mapping Client.
From Verif.Spec Require Import Client.
From Verif.Proofs Require Import Client ClientTotal ClientHist.
Open Scope Z_scope.

Lemma drun_app p d s e1 e2 : drun p d s (e1 ++ e2) = match drun p d s e1 with Some s' => drun p d s' e2 | None => None end.
Proof. revert s. induction e1 as [|e e1 IH]; intros s; cbn; auto. destruct (dstep p d s e); auto. Qed.

Definition d_silent (d : mid) (e : event) : Prop :=
  match e with
  | EvChanged (LDep d') _ _ => d' <> d
  | EvOpened d' _ | EvJoined _ d' | EvReqSent d' _ | EvAnswered d' _ | EvExpired d' _ => d' <> d
  | _ => True
  end.
Lemma dstep_silent p d s e : d_silent d e -> d_ph s = DRest -> dstep p d s e = Some s.
Proof.
  intros H Hs. destruct e as [? ?|? ?|[?|?] ? ?|? ?|? ?|? ?|? ?|? ?|?]; cbn in *; unfold d_only_at_rest; rewrite ?Hs; auto;
    match goal with |- context [(?a =? ?b)%nat] => replace (a =? b)%nat with false by lia end; auto.
Qed.
Lemma drun_silent p d s evs : Forall (d_silent d) evs -> d_ph s = DRest -> drun p d s evs = Some s.
Proof. intros H Hs. induction H as [|e evs He H IH]; cbn; auto. rewrite dstep_silent; auto. Qed.

Section Dep.
Variable bi : mid -> bool.
Variable maps0 : mid -> mapping.
Variable lt : Z.
Hypothesis Hself : no_self_dependency maps0.
Variables p d : mid.
Hypothesis Hdep : depends (maps0 d) = Some p.
Hypothesis Hreq : requested bi maps0 lt d.
Hypothesis Hnone : forall k, depends (maps0 k) <> Some d.

Notation I0 := (Inv0 bi maps0 lt).

Lemma Hpd : p <> d. Proof. intros ->. apply (Hself d). exact Hdep. Qed.

Definition watched (c : client) (r : request) : Prop :=
  forall ls k, r_listeners r = Some ls -> In (LDep k) ls ->
    depends (maps0 k) = Some (r_map r) /\ exists last x, find_dep k (deps c) = Some (last, Some x).
Definition DI (c : client) : Prop :=
  Forall (watched c) (reqs c) /\ (forall m, bi m = false -> depends (maps c m) = depends (maps0 m)) /\
  (forall k last l, find_dep k (deps c) = Some (last, l) -> l <> None).

Definition last_of (c : client) : option value := match find_dep d (deps c) with Some (v, _) => v | None => None end.
Definition alive (c : client) : bool := match find_req d (reqs c) with Some r => negb (finished r) | None => false end.
Definition dabs (c : client) : dst := mkD (last_of c) (alive c) DRest.

Definition dtrace (c : client) (evs : list event) (c' : client) : Prop := drun p d (dabs c) evs = Some (dabs c').
Lemma dtrace_trans c1 e1 c2 e2 c3 : dtrace c1 e1 c2 -> dtrace c2 e2 c3 -> dtrace c1 (e1 ++ e2) c3.
Proof. unfold dtrace. intros H1 H2. rewrite drun_app, H1. exact H2. Qed.

(* deps only gain entries, and the listeners in them stay *)
Definition deps_ext (c c' : client) : Prop :=
  forall k last x, find_dep k (deps c) = Some (last, x) -> exists last', find_dep k (deps c') = Some (last', x).
Lemma deps_ext_refl c : deps_ext c c. Proof. intros k last x H. eauto. Qed.
Lemma deps_ext_trans a b c : deps_ext a b -> deps_ext b c -> deps_ext a c.
Proof. intros H1 H2 k last x H. destruct (H1 _ _ _ H) as (l' & H'). eauto. Qed.
Lemma find_set_dep k e v l : find_dep k (set_dep_last e v l) =
  match find_dep k l with Some (last, x) => Some (if (k =? e)%nat then v else last, x) | None => None end.
Proof.
  induction l as [|[k' [o li]] l IH]; cbn; auto. destruct (k' =? e)%nat eqn:E; cbn.
  - destruct (k' =? k)%nat eqn:E2.
    + apply Nat.eqb_eq in E, E2. subst. rewrite Nat.eqb_refl. reflexivity.
    + destruct (find_dep k l) as [[last x]|]; auto. apply Nat.eqb_eq in E. subst. rewrite Nat.eqb_sym, E2. reflexivity.
  - destruct (k' =? k)%nat eqn:E2; [|exact IH]. apply Nat.eqb_eq in E2. subst. rewrite E. reflexivity.
Qed.
Lemma watched_ext c c' r : deps_ext c c' -> watched c r -> watched c' r.
Proof. intros H Hw ls k Hl Hi. destruct (Hw ls k Hl Hi) as (A & last & x & B). split; auto. destruct (H _ _ _ B). eauto. Qed.

(* registration of another mapping *)
Lemma register_events c now m l send c' evs : register_mapping c now m l send = Ok (c', evs) ->
  Forall (fun e => match e with EvOpened m' t => m' = m /\ t = now | EvJoined l' m' => m' = m /\ l = Some l' | EvReqSent m' w => m' = m /\ send = true | _ => False end) evs.
Proof.
  intros H. unfold register_mapping in H. destruct (find_req m (reqs c)) as [r|].
  - destruct l as [l|]; [|inv H; constructor]. destruct (r_listeners r); [|discriminate].
    destruct (existsb _ _); inv H; repeat constructor.
  - injection H as _ <-. constructor; auto. apply Forall_app. split; [destruct l; repeat constructor|].
    destruct send; cbn; [|constructor]. destruct (truthy _); repeat constructor.
Qed.
Lemma register_other_silent c now m l send c' evs : m <> d -> register_mapping c now m l send = Ok (c', evs) -> Forall (d_silent d) evs.
Proof.
  intros Hn H. apply register_events in H. eapply Forall_impl; [|exact H].
  intros e He. destruct e; try destruct He; subst; cbn; auto.
Qed.
Lemma register_deps c now m l send c' evs : register_mapping c now m l send = Ok (c', evs) -> deps c' = deps c /\ maps c' = maps c.
Proof.
  intros H. unfold register_mapping in H. destruct (find_req m (reqs c)) as [r|].
  - destruct l as [l|]; [|inv H; auto]. destruct (r_listeners r); [|discriminate]. destruct (existsb _ _); inv H; auto.
  - inv H. auto.
Qed.
Lemma register_watched c now m l send c' evs :
  Forall (watched c) (reqs c) ->
  (forall k, l = Some (LDep k) -> depends (maps0 k) = Some m /\ exists last x, find_dep k (deps c) = Some (last, Some x)) ->
  register_mapping c now m l send = Ok (c', evs) -> Forall (watched c') (reqs c').
Proof.
  intros Hw Hl H. destruct (register_deps _ _ _ _ _ _ _ H) as [Ed _].
  assert (forall r, watched c r -> watched c' r) as Hx by (intros r; unfold watched; rewrite Ed; auto).
  unfold register_mapping in H. destruct (find_req m (reqs c)) as [r|] eqn:Ef.
  - destruct l as [l|]; [|inv H; auto]. destruct (r_listeners r) as [ls|] eqn:El; [|discriminate].
    destruct (existsb _ _); [inv H; auto|]. injection H as <- <-. cbn [reqs with_reqs].
    apply find_req_some in Ef. destruct Ef as [Hin Hm]. rewrite Forall_forall in Hw. pose proof (Hw r Hin) as Hr.
    apply upd_req_Forall; [rewrite Forall_forall; intros r' Hr'; apply Hx; auto|].
    intros r0 _ _ _ ls' k Hs Hk. inv Hs. apply in_app_or in Hk. destruct Hk as [Hk|[->|[]]].
    + apply (Hr ls k El Hk).
    + cbn. apply Hl. reflexivity.
  - set (r := match l with Some _ => _ | None => _ end) in *. injection H as <- <-. cbn [reqs with_reqs]. apply Forall_app. split; [exact Hw|].
    constructor; [|constructor]. intros ls k Hs Hk. unfold r in *. destruct l as [l|]; cbn in Hs; inv Hs; [|destruct Hk].
    destruct Hk as [->|[]]. cbn. apply Hl. reflexivity.
Qed.

Lemma alive_find c c' : find_req d (reqs c') = find_req d (reqs c) -> alive c' = alive c.
Proof. unfold alive. intros ->. reflexivity. Qed.

(* registration of d itself, with a listener: what the dependency listener does *)
Lemma register_self c now x c' evs :
  cfg_ok bi maps0 lt c -> register_mapping c now d (Some (LExt x)) true = Ok (c', evs) ->
  drun p d (mkD (last_of c) (alive c) (if alive c then DRest else DMust)) evs = Some (dabs c').
Proof.
  intros Hcfg H. pose proof (register_deps _ _ _ _ _ _ _ H) as [Ed _]. unfold dabs, last_of. rewrite Ed. fold (last_of c).
  unfold register_mapping in H. unfold alive at 1 2. destruct (find_req d (reqs c)) as [r|] eqn:Ef.
  - destruct (r_listeners r) as [ls|] eqn:El; [|discriminate].
    assert (finished r = false) as Hf by (unfold finished; rewrite El; reflexivity). rewrite Hf. cbn [negb].
    destruct (existsb _ _); injection H as <- <-.
    + cbn. unfold alive. rewrite Ef, Hf. reflexivity.
    + cbn. rewrite Nat.eqb_refl. cbn. unfold alive. cbn [reqs with_reqs].
      match goal with |- context [upd_req d ?f _] => rewrite (find_upd_same d f _ r) end; auto.
  - rewrite (request_t_requested _ _ _ c d Hcfg Hreq) in H. cbn in H. injection H as <- <-. cbn. rewrite !Nat.eqb_refl. cbn. f_equal. unfold alive. cbn [reqs with_reqs]. rewrite find_req_app, Ef. cbn.
    rewrite Nat.eqb_refl. reflexivity.
Qed.

Lemma notify_dep c now m l c' evs :
  I0 c -> DI c -> (forall k, l = LDep k -> depends (maps0 k) = Some m /\ exists last x, find_dep k (deps c) = Some (last, Some x)) ->
  notify c now m l = Ok (c', evs) -> DI c' /\ dtrace c evs c' /\ deps_ext c c'.
Proof.
  intros HI HD Hl H. unfold notify in H. destruct l as [x|k].
  - inv H. split; auto. split; [|apply deps_ext_refl]. reflexivity.
  - destruct (Hl k eq_refl) as (Hk & last & x & Hf). rewrite Hf in H.
    destruct (value_eqb (val (maps c m)) last) eqn:Ev.
    + inv H. split; auto. split; [|apply deps_ext_refl]. unfold dtrace. cbn. destruct (k =? d)%nat eqn:E; [|reflexivity].
      apply Nat.eqb_eq in E. subst k. assert (m = p) by congruence. subst m. rewrite Nat.eqb_refl.
      assert (last_of c' = last) as El by (unfold last_of; rewrite Hf; reflexivity). rewrite El, Ev. cbn.
      apply value_eqb_spec in Ev. rewrite Ev. unfold dabs. rewrite El. reflexivity.
    + set (c0 := with_deps c (set_dep_last k (val (maps c m)) (deps c))) in *. cbn [option_map] in H.
      destruct (register_mapping c0 now k (Some (LExt x)) true) as [[c1 e1]|] eqn:Er; [|discriminate]. inv H.
      pose proof (register_deps _ _ _ _ _ _ _ Er) as [Ed Em].
      assert (deps_ext c c') as Hext.
      { intros k' last' x' H. rewrite Ed. cbn. rewrite find_set_dep, H. eauto. }
      assert (deps_ext c c0) as Hext0.
      { intros k' last' x' H. cbn. rewrite find_set_dep, H. eauto. }
      destruct HD as (W & Dm & Dn). split; [|split; [|exact Hext]].
      * split; [|split].
        -- eapply register_watched; [| |exact Er]; [|intros k' E; discriminate].
           eapply Forall_impl; [|exact W]. intros r. apply watched_ext. exact Hext0.
        -- rewrite Em. exact Dm.
        -- intros k' last' l' H. rewrite Ed in H. cbn in H. rewrite find_set_dep in H. destruct (find_dep k' (deps c)) as [[a b]|] eqn:E; [|discriminate].
           inv H. eapply Dn; eauto.
      * unfold dtrace. cbn. destruct (k =? d)%nat eqn:E.
        -- apply Nat.eqb_eq in E. subst k. assert (m = p) by congruence. subst m. rewrite Nat.eqb_refl.
           assert (last_of c = last) as El by (unfold last_of; rewrite Hf; reflexivity). rewrite El, Ev. cbn [orb].
           assert (last_of c0 = val (maps c p)) as El0 by (unfold last_of; cbn; rewrite find_set_dep, Hf, Nat.eqb_refl; reflexivity).
           rewrite <- El0. change (alive c) with (alive c0). eapply register_self; [|exact Er]. apply HI.
        -- unfold d_only_at_rest. cbn. apply Nat.eqb_neq in E.
           rewrite drun_silent; [|eapply register_other_silent; eauto|reflexivity]. f_equal. unfold dabs.
           destruct (register_frame lt c0 now k _ true c' e1 d E Er) as [Hfr _].
           rewrite (alive_find c c' Hfr). f_equal. unfold last_of. rewrite Ed. cbn. rewrite find_set_dep.
           destruct (find_dep d (deps c)) as [[a b]|]; auto. replace (d =? k)%nat with false by lia. reflexivity.
Qed.

Lemma notify_all_dep ls : forall c now m c' evs,
  I0 c -> DI c -> (forall k, In (LDep k) ls -> depends (maps0 k) = Some m /\ exists last x, find_dep k (deps c) = Some (last, Some x)) ->
  notify_all c now m ls = Ok (c', evs) -> DI c' /\ dtrace c evs c' /\ deps_ext c c'.
Proof.
  induction ls as [|l ls IH]; intros c now m c' evs HI HD Hl H; cbn in H.
  - inv H. split; auto. split; [reflexivity|apply deps_ext_refl].
  - destruct (notify c now m l) as [[c1 e1]|] eqn:E1; [|discriminate].
    destruct (notify_all c1 now m ls) as [[c2 e2]|] eqn:E2; [|discriminate]. inv H.
    destruct (notify_dep c now m l c1 e1 HI HD) as (HD1 & Ht1 & Hx1); [intros k ->; apply Hl; left; auto|exact E1|].
    destruct (notify_ok bi maps0 lt c now m l c1 e1 HI) as (HI1 & _).
    { intros k ->. destruct (Hl k (or_introl eq_refl)) as [A _]. intros ->. apply (Hself m A). }
    { exact E1. }
    destruct (IH c1 now m c' e2 HI1 HD1) as (HD2 & Ht2 & Hx2); [|exact E2|].
    { intros k Hk. destruct (Hl k (or_intror Hk)) as (A & last & x & B). split; auto. destruct (Hx1 _ _ _ B). eauto. }
    split; auto. split; [eapply dtrace_trans; eauto|eapply deps_ext_trans; eauto].
Qed.

Lemma DI_upd_map c m x : DI c -> depends x = depends (maps c m) -> DI (with_maps c (upd (maps c) m x)).
Proof.
  intros (A & B & C) Hx. split; [exact A|]. split; [|exact C]. intros k Hk. cbn. unfold upd. destruct (k =? m)%nat eqn:E; auto.
  apply Nat.eqb_eq in E. subst. rewrite Hx. auto.
Qed.

Lemma parse_request_dep c now i x c1 e1 p1 : I0 c -> DI c -> parse_request c now i x = Ok (c1, e1, p1) -> DI c1 /\ dtrace c e1 c1.
Proof.
  intros HI HD H. pose proof H as Hpr. unfold parse_request in H.
  assert (Hun : DI c /\ dtrace c [] c) by (split; auto; reflexivity).
  destruct (nth_error (reqs c) i) as [r|] eqn:En; [|inv H; exact Hun].
  destruct (negb _); [inv H; exact Hun|]. destruct (r_listeners r) as [ls|] eqn:El; [|inv H; exact Hun].
  destruct (parse _ x) as [[m' [|]]|] eqn:Ep; [|inv H; exact Hun|discriminate].
  destruct (parse_fields _ _ _ _ Ep) as (Fr & Fd & _).
  set (c0 := with_maps c (upd (maps c) (r_map r) m')) in *.
  pose proof (DI_upd_map c (r_map r) m' HD Fd) as HD0. fold c0 in HD0.
  pose proof (I0_upd_map bi maps0 lt c (r_map r) m' HI Fr Fd) as HI0. fold c0 in HI0.
  destruct (negb (result_finished m')); [inv H; split; [exact HD0|reflexivity]|].
  destruct (notify_all c0 now (r_map r) ls) as [[c2 ev]|] eqn:Ea; [|discriminate].
  assert (Hin : In r (reqs c)) by (eapply nth_error_In; eauto).
  assert (Hls : forall k, In (LDep k) ls -> depends (maps0 k) = Some (r_map r) /\ exists last x, find_dep k (deps c0) = Some (last, Some x)).
  { intros k Hk. destruct HD as (W & _). rewrite Forall_forall in W. apply (W r Hin ls k El Hk). }
  destruct (notify_all_dep ls c0 now (r_map r) c2 ev HI0 HD0 Hls Ea) as (HD2 & Ht2 & _).
  destruct (notify_all_ok bi maps0 lt ls c0 now (r_map r) c2 ev HI0) as (_ & _ & _ & Hf2 & _).
  { intros k Hk. destruct (Hls k Hk) as [A _]. intros ->. apply (Hself (r_map r) A). }
  { exact Ea. }
  destruct (r_life r) as [pd|] eqn:Elf; injection H as <- <- _.
  - split.
    + destruct HD2 as (W & D2 & D3). split; [|split; [exact D2|exact D3]]. cbn. apply upd_req_Forall; [exact W|].
      intros r0 _ _ _ ls' k Hs. discriminate.
    + unfold dtrace. rewrite drun_app. unfold dtrace in Ht2. change (dabs c) with (dabs c0). rewrite Ht2. cbn.
      destruct (r_map r =? d)%nat eqn:E.
      * apply Nat.eqb_eq in E. f_equal. unfold dabs. f_equal. unfold alive. cbn [reqs with_reqs]. rewrite <- E.
        assert (find_req (r_map r) (reqs c2) = Some r) as Hfr.
        { rewrite Hf2. apply find_req_in; auto. apply HI. }
        match goal with |- context [upd_req (r_map r) ?f _] => rewrite (find_upd_same (r_map r) f _ r) end; auto.
      * unfold d_only_at_rest. cbn. f_equal. unfold dabs. f_equal. symmetry. apply alive_find. cbn [reqs with_reqs]. apply find_upd_other; auto.
        apply Nat.eqb_neq in E. auto.
  - split; [exact HD2|]. exact Ht2.
Qed.

Lemma receive_loop_dep fuel : forall c now i x c' evs q f,
  I0 c -> DI c -> receive_loop fuel c now i x = Some (Ok (c', evs, q, f)) -> DI c' /\ dtrace c evs c'.
Proof.
  induction fuel as [|fuel IH]; intros c now i x c' evs q f HI HD H; cbn in H; [discriminate|].
  destruct (length (reqs c) <=? i)%nat; [inv H; split; auto; reflexivity|].
  destruct (parse_request c now i x) as [[[c1 e1] p1]|] eqn:Ep; [|discriminate].
  destruct (receive_loop fuel c1 now (S i) x) as [[[[[c2 e2] p2] f2]|]|] eqn:El; try discriminate. inv H.
  destruct (parse_request_dep _ _ _ _ _ _ _ HI HD Ep) as [HD1 Ht1].
  destruct (parse_request_ok bi maps0 lt _ _ _ _ _ _ _ HI Ep) as (HI1 & _).
  destruct (IH _ _ _ _ _ _ _ _ HI1 HD1 El) as [HD2 Ht2]. split; auto. eapply dtrace_trans; eauto.
Qed.

Lemma alive_cleanup c : NoDup (map r_map (reqs c)) -> alive (with_reqs c (cleanup_requests (reqs c))) = alive c.
Proof.
  intros Hd. unfold alive. cbn [reqs with_reqs]. unfold cleanup_requests. induction (reqs c) as [|r l IH]; cbn; auto.
  cbn in Hd. apply NoDup_cons_iff in Hd. destruct Hd as [Hn Hd]. specialize (IH Hd).
  destruct (finished r) eqn:Ef; cbn.
  - destruct (r_map r =? d)%nat eqn:E; auto. rewrite Ef. cbn. rewrite IH. apply Nat.eqb_eq in E. subst d.
    replace (find_req (r_map r) l) with (@None request); auto. symmetry. apply find_req_none. auto.
  - destruct (r_map r =? d)%nat; auto.
Qed.
Lemma cleanup_dep c : NoDup (map r_map (reqs c)) -> DI c -> DI (with_reqs c (cleanup_requests (reqs c))) /\ dabs (with_reqs c (cleanup_requests (reqs c))) = dabs c.
Proof.
  intros Hd (W & D2 & D3). split.
  - split; [|split; auto]. cbn. apply Forall_filter. exact W.
  - unfold dabs. rewrite alive_cleanup by auto. reflexivity.
Qed.

Lemma expire_dep l : forall f now f' l' ev s, NoDup (map r_map l) -> Forall (req_ok bi maps0 lt) l -> expire f now l = (f', l', ev) ->
  d_ph s = DRest -> (forall r, find_req d l = Some r -> d_out s = negb (finished r)) ->
  (forall (P : request -> Prop), (forall r, P r -> forall p', P (mkReq (r_map r) (r_listeners r) p') /\ P (mkReq (r_map r) None p')) -> Forall P l -> Forall P l') /\
  drun p d s ev = Some (mkD (d_last s) (match find_req d l with Some _ => match find_req d l' with Some r => negb (finished r) | None => false end | None => d_out s end) DRest).
Proof.
  induction l as [|r l IH]; intros f now f' l' ev s Hd Hok H Hs Hout.
  - inv H. split; [auto|]. cbn. destruct s; cbn in *; subst; reflexivity.
  - rewrite expire_cons in H. destruct (expire1 f now r) as [[f1 r1] e1] eqn:E1.
    destruct (expire f1 now l) as [[f2 rs] e2] eqn:E2. inv H.
    cbn in Hd. apply NoDup_cons_iff in Hd. destruct Hd as [Hni Hd]. apply Forall_cons_iff in Hok. destruct Hok as [Hr Hok].
    destruct (expire1_map bi maps0 lt _ _ _ _ _ _ E1) as (Hm1 & _ & _).
    assert (Hmaps : map r_map rs = map r_map l) by (eapply expire_ok; eauto).
    assert (Hshape : (exists p', r1 = mkReq (r_map r) (r_listeners r) p' \/ r1 = mkReq (r_map r) None p') /\
      drun p d s e1 = Some (mkD (d_last s) (if (r_map r =? d)%nat then negb (finished r1) else d_out s) DRest)).
    { assert (Hs' : forall b, b = d_out s -> s = mkD (d_last s) b DRest) by (intros b ->; destruct s; cbn in *; subst; reflexivity).
      assert (Hsame : finished r1 = finished r -> Some s = Some (mkD (d_last s) (if (r_map r =? d)%nat then negb (finished r1) else d_out s) DRest)).
      { intros Hf. f_equal. apply Hs'. destruct (r_map r =? d)%nat eqn:E; auto. rewrite Hf. symmetry. apply Hout. cbn. rewrite E. reflexivity. }
      unfold expire1 in E1. destruct (r_life r) as [pd|] eqn:El.
      - unfold p_exceeded in E1. destruct (_ <? now).
        + destruct (r_listeners r) as [ls|] eqn:Els.
          * cbn in E1. inv E1. split; [eauto|]. rewrite drun_app, drun_silent; auto.
            2: { clear. induction ls; cbn; constructor; cbn; auto. }
            cbn. destruct (r_map r =? d)%nat; cbn; [rewrite Hs; reflexivity|]. unfold d_only_at_rest. rewrite Hs.
            rewrite (Hs' (d_out s) eq_refl) at 1. reflexivity.
          * inv E1. split; [eauto|]. cbn [drun]. apply Hsame. unfold finished. rewrite Els. reflexivity.
        + inv E1. split; [eauto|]. apply Hsame. reflexivity.
      - inv E1. split; [exists None; left; rewrite <- El; destruct r1; reflexivity|]. apply Hsame. reflexivity. }
    destruct Hshape as [Hsh Hrun1].
    set (s1 := mkD (d_last s) _ DRest) in Hrun1.
    assert (Hout1 : forall r0, find_req d l = Some r0 -> d_out s1 = negb (finished r0)).
    { intros r0 Hf. unfold s1. cbn. destruct (r_map r =? d)%nat eqn:E; [|apply Hout; cbn; rewrite E; auto].
      apply Nat.eqb_eq in E. subst d. exfalso. apply Hni. apply find_req_some in Hf. destruct Hf as [Hi <-]. apply in_map. auto. }
    destruct (IH _ _ _ _ _ s1 Hd Hok E2 eq_refl Hout1) as [IHP IHr]. split.
    + intros P HP HF. apply Forall_cons_iff in HF. destruct HF as [HF1 HF2]. constructor; [|apply IHP; auto].
      destruct Hsh as (p' & [-> | ->]); apply (HP r HF1 p').
    + rewrite drun_app, Hrun1, IHr. unfold s1. cbn. rewrite Hm1. destruct (r_map r =? d)%nat eqn:E; auto.
      replace (find_req d l) with (@None request); auto. symmetry. apply find_req_none. apply Nat.eqb_eq in E. subst d. auto.
Qed.

Lemma timeouts_dep c now c' evs : Inv bi maps0 lt c -> DI c -> timeouts c now = (c', evs) -> DI c' /\ dtrace c evs c'.
Proof.
  intros ((Hcfg & Hnd & Hok) & Hfin) (W & D2 & D3) H. unfold timeouts, p_exceeded in H.
  destruct (_ <? now).
  - cbn in H. destruct (expire (maps c) now (reqs c)) as [[f rs] ev] eqn:E. inv H.
    destruct (expire_dep (reqs c) _ _ _ _ _ (dabs c) Hnd Hok E eq_refl) as [HP Hr].
    { intros r Hf. cbn. unfold alive. rewrite Hf. reflexivity. }
    pose proof (expire_fields _ _ _ _ _ _ E) as Hf.
    set (c1 := mkClient f rs (deps c) (life c) (mkPeriod (interval (clean c)) now)).
    assert (Hmaps : map r_map rs = map r_map (reqs c)) by (eapply expire_ok; eauto).
    assert (DI c1) as HD1.
    { split; [|split; [|exact D3]].
      - cbn. apply HP; [|exact W]. intros r Hw p'. split; [exact Hw|]. intros ls k Hs. discriminate.
      - intros m Hm. cbn. destruct (Hf m) as [_ ->]. auto. }
    destruct (cleanup_dep c1) as [A B]; [cbn; rewrite Hmaps; auto|exact HD1|]. split; [exact A|].
    unfold dtrace. rewrite Hr. f_equal. change (dabs c1 = dabs (with_reqs c1 (cleanup_requests (reqs c1)))) in B || idtac.
    transitivity (dabs c1); [|symmetry; exact B]. unfold dabs. f_equal. unfold alive. cbn.
    destruct (find_req d (reqs c)) eqn:Ed; auto. replace (find_req d rs) with (@None request); auto. symmetry. apply find_req_none.
    rewrite Hmaps. apply find_req_none. auto.
  - cbn in H. inv H. split; [split; [exact W|split; [exact D2|exact D3]]|reflexivity].
Qed.

Lemma receive_dep c now x c' evs : Inv bi maps0 lt c -> DI c -> receive c now x = Some (Ok (c', evs)) -> DI c' /\ dtrace c evs c'.
Proof.
  intros HI HD H. unfold receive in H. destruct (timeouts c now) as [c1 e1] eqn:Et.
  destruct (timeouts_dep _ _ _ _ HI HD Et) as (HD1 & Ht1). destruct (timeouts_ok _ _ _ _ _ _ _ HI Et) as (HI1 & _).
  destruct x as [x|]; [|inv H; auto].
  destruct (receive_loop _ c1 now 0 x) as [[[[[c2 e2] p2] f2]|]|] eqn:El; try discriminate. inv H.
  destruct HI1 as [HI1 Hf1]. destruct (receive_loop_dep _ _ _ _ _ _ _ _ _ HI1 HD1 El) as (HD2 & Ht2).
  destruct (receive_loop_ok bi maps0 lt _ _ _ _ _ _ _ _ _ HI1 El) as (HI2 & _).
  assert (dtrace c2 (if p2 then [] else [EvUnused x]) c2) as Hu by (destruct p2; reflexivity).
  assert (dtrace c (e1 ++ e2 ++ (if p2 then [] else [EvUnused x])) c2) as Ht by (eapply dtrace_trans; eauto; eapply dtrace_trans; eauto).
  destruct f2; [|auto]. destruct (cleanup_dep c2) as [A B]; [apply HI2|exact HD2|]. split; auto. unfold dtrace. rewrite B. exact Ht.
Qed.

Lemma cstep_dep c o c' evs : Inv bi maps0 lt c -> DI c -> names_listener o -> cstep bi c o = Ok (c', evs) -> DI c' /\ dtrace c evs c'.
Proof.
  intros HI HD Hno H. destruct o as [now m l|now m l|now x|now m a| |m v]; cbn in H.
  - (* Register *)
    unfold register in H. set (c1 := if bi m then _ else c) in *.
    assert (DI c1 /\ reqs c1 = reqs c /\ deps c1 = deps c) as (HD1 & Er & Ed).
    { unfold c1. destruct (bi m) eqn:Eb; auto. split; auto. destruct HD as (W & D2 & D3). split; [exact W|]. split; [|exact D3].
      intros k Hk. cbn. unfold upd. destruct (k =? m)%nat eqn:E; auto. apply Nat.eqb_eq in E. congruence. }
    assert (Hab : dabs c1 = dabs c) by (unfold dabs, last_of, alive; rewrite Er, Ed; reflexivity).
    destruct (negb _ && _) eqn:Ec; [|inv H; split; auto; unfold dtrace; rewrite Hab; reflexivity].
    apply andb_true_iff in Ec. destruct Ec as [Ec _]. apply negb_true_iff in Ec.
    assert (m <> d) as Hmd.
    { intros ->. destruct HI as [HI _]. assert (request_t (maps c1 d) = request_t (maps c d)) as E by (unfold c1; destruct Hreq as (-> & _); reflexivity).
      rewrite E, (request_t_requested _ _ _ c d (proj1 HI) Hreq) in Ec. discriminate. }
    destruct (register_deps _ _ _ _ _ _ _ H) as [E1 E2]. destruct HD1 as (W & D2 & D3). split.
    + split; [|split; [rewrite E2; exact D2|rewrite E1; exact D3]]. eapply register_watched; [exact W| |exact H].
      intros k E. destruct l; discriminate.
    + unfold dtrace. rewrite drun_silent; [|eapply register_other_silent; eauto|reflexivity].
      f_equal. rewrite <- Hab. unfold dabs. destruct (register_frame lt c1 now m _ false c' evs d Hmd H) as [Hfr _].
      rewrite (alive_find c1 c' Hfr). unfold last_of. rewrite E1. reflexivity.
  - (* Request *)
    unfold request_param in H. destruct (negb _ || negb _); [inv H; split; auto; reflexivity|].
    destruct l as [l|]; [|destruct Hno]. destruct (depends (maps c m)) as [q|] eqn:Edp.
    + set (c1 := match find_dep m (deps c) with Some _ => c | None => _ end) in *.
      assert (Hq : depends (maps0 m) = Some q).
      { destruct HI as [((_ & _ & _ & Hd) & _) _]. destruct (Hd m) as [E|E]; rewrite Edp in E; [auto|discriminate]. }
      assert (Hqd : q <> d) by (intros ->; apply (Hnone m Hq)).
      assert (Hext : deps_ext c c1).
      { unfold c1. destruct (find_dep m (deps c)) eqn:E; [apply deps_ext_refl|]. intros k last x Hk. cbn. exists last.
        clear - Hk. induction (deps c) as [|[k' y] l' IH]; cbn in *; [discriminate|]. destruct (k' =? k)%nat; auto. }
      assert (Hlast : last_of c1 = last_of c).
      { unfold c1, last_of. destruct (find_dep m (deps c)) eqn:E; auto. cbn.
        destruct (find_dep d (deps c)) as [[a b]|] eqn:Ed.
        - replace (find_dep d (deps c ++ [(m, (None, Some l))])) with (Some (a, b)); auto. symmetry.
          clear - Ed. induction (deps c) as [|[k' y] l' IH]; cbn in *; [discriminate|]. destruct (k' =? d)%nat; auto.
        - assert (find_dep d (deps c ++ [(m, (None, Some l))]) = if (m =? d)%nat then Some (None, Some l) else None) as ->.
          { clear - Ed. induction (deps c) as [|[k' y] l' IH]; cbn in *; auto. destruct (k' =? d)%nat; auto. discriminate. }
          destruct (m =? d)%nat; reflexivity. }
      assert (HD1 : DI c1).
      { destruct HD as (W & D2 & D3). split; [|split].
        - replace (reqs c1) with (reqs c) by (unfold c1; destruct (find_dep m (deps c)); reflexivity).
          eapply Forall_impl; [|exact W]. intros r. apply watched_ext. exact Hext.
        - replace (maps c1) with (maps c) by (unfold c1; destruct (find_dep m (deps c)); reflexivity). exact D2.
        - unfold c1. destruct (find_dep m (deps c)) eqn:E; [exact D3|]. intros k last x Hk. cbn in Hk.
          assert (find_dep k (deps c) = Some (last, x) \/ x = Some l) as [Hx|Hx]; [|eapply D3; eauto|congruence].
          { clear - Hk. induction (deps c) as [|[k' y] l' IH]; cbn in *.
            - destruct (m =? k)%nat; inv Hk; auto.
            - destruct (k' =? k)%nat; auto. } }
      assert (Hfd : exists last x, find_dep m (deps c1) = Some (last, Some x)).
      { unfold c1. destruct (find_dep m (deps c)) as [[a [b|]]|] eqn:E.
        - rewrite E. eauto.
        - exfalso. destruct HD as (_ & _ & D3). apply (D3 m a None E). reflexivity.
        - cbn. exists None, l. clear - E. induction (deps c) as [|[k' y] l' IH]; cbn in *; [rewrite Nat.eqb_refl; auto|].
          destruct (k' =? m)%nat; [discriminate|auto]. }
      destruct (register_deps _ _ _ _ _ _ _ H) as [E1 E2]. destruct HD1 as (W & D2 & D3). split.
      * split; [|split; [rewrite E2; exact D2|rewrite E1; exact D3]]. eapply register_watched; [exact W| |exact H].
        intros k E. inv E. auto.
      * unfold dtrace. rewrite drun_silent; [|eapply register_other_silent; eauto|reflexivity].
        f_equal. unfold dabs. destruct (register_frame lt c1 now q _ true c' evs d Hqd H) as [Hfr _].
        rewrite (alive_find c1 c' Hfr). replace (last_of c') with (last_of c1) by (unfold last_of; rewrite E1; reflexivity).
        rewrite Hlast. f_equal. unfold alive, c1. destruct (find_dep m (deps c)); reflexivity.
    + assert (m <> d) as Hmd.
      { intros ->. destruct HD as (_ & D2 & _). rewrite D2, Hdep in Edp; [discriminate|]. apply Hreq. }
      destruct (register_deps _ _ _ _ _ _ _ H) as [E1 E2]. destruct HD as (W & D2 & D3). split.
      * split; [|split; [rewrite E2; exact D2|rewrite E1; exact D3]]. eapply register_watched; [exact W| |exact H].
        intros k E. discriminate.
      * unfold dtrace. rewrite drun_silent; [|eapply register_other_silent; eauto|reflexivity].
        f_equal. unfold dabs. destruct (register_frame lt c now m _ true c' evs d Hmd H) as [Hfr _].
        rewrite (alive_find c c' Hfr). unfold last_of. rewrite E1. reflexivity.
  - destruct (receive c now x) as [[[c1 e1]|]|] eqn:E; try discriminate. inv H. eapply receive_dep; eauto.
  - (* Set *)
    unfold set_param in H.
    set (step1 := if negb (truthy (set_t (maps c m))) then _ else _) in H.
    assert (forall c1 e1, step1 = Ok (c1, e1) -> I0 c1 /\ DI c1 /\ dtrace c e1 c1) as H1.
    { intros c1 e1 E. unfold step1 in E. destruct (negb _); [inv E; split; [apply HI|]; split; auto; reflexivity|].
      destruct (set_value (maps c m) a) as [m' ok] eqn:Es. destruct ok; [|discriminate]. inv E.
      assert (request_t m' = request_t (maps c m) /\ depends m' = depends (maps c m)) as [Fr Fd].
      { clear - Es. unfold set_value in Es. destruct (set_t (maps c m)); destruct a; cbn in Es;
        repeat match type of Es with
        | context [match ?t with _ => _ end] => destruct t
        end; inv Es; auto. }
      split; [apply I0_upd_map; auto; apply HI|]. split; [apply DI_upd_map; auto|]. reflexivity. }
    destruct step1 as [[c1 e1]|]; [|discriminate]. destruct (H1 c1 e1 eq_refl) as (HI1 & HD1 & Ht1). clear H1.
    destruct (bi m) eqn:Eb; [|inv H; auto].
    destruct (find_req m (reqs c1)) as [r|] eqn:Ef; [|discriminate]. destruct a as [z|]; [|discriminate].
    destruct (r_listeners r) as [ls|] eqn:El; [|discriminate].
    destruct (notify_all _ now m ls) as [[c3 e3]|] eqn:Ea; [|discriminate]. inv H.
    pose proof (I0_upd_map bi maps0 lt c1 m (with_val (maps c1 m) (Some (VNum z))) HI1 eq_refl eq_refl) as HI2.
    pose proof (DI_upd_map c1 m (with_val (maps c1 m) (Some (VNum z))) HD1 eq_refl) as HD2.
    destruct (find_req_some _ _ _ Ef) as [Hin Hrm].
    assert (Hls : forall k, In (LDep k) ls -> depends (maps0 k) = Some m /\ exists last x, find_dep k (deps c1) = Some (last, Some x)).
    { intros k Hk. destruct HD1 as (W & _). rewrite Forall_forall in W. rewrite <- Hrm. apply (W r Hin ls k El Hk). }
    destruct (notify_all_dep ls _ now m c' e3 HI2 HD2 Hls Ea) as (HD3 & Ht3 & _). split; auto. eapply dtrace_trans; eauto.
  - (* Lost *)
    destruct (connection_lost bi (maps c) (reqs c)) as [[f e]|] eqn:E; [|discriminate]. inv H.
    assert (forall l f0 f1 ev, connection_lost bi f0 l = Ok (f1, ev) ->
      (forall k, depends (f1 k) = depends (f0 k)) /\ (Forall (d_silent d) ev)) as HL.
    { clear. induction l as [|r l IH]; intros f0 f1 ev H; cbn in H; [inv H; split; [auto|constructor]|].
      destruct (bi (r_map r)) eqn:Eb; [|eapply IH; eauto]. destruct (r_listeners r) as [ls|]; [|discriminate].
      destruct (connection_lost bi _ l) as [[f2 e2]|] eqn:E; [|discriminate]. inv H. destruct (IH _ _ _ E) as [A B]. split.
      - intros k. rewrite (A k). pose proof (notify_terminated_fields f0 (r_map r) ls k) as [C D]. exact D.
      - apply Forall_app. split; [|exact B]. clear. induction ls; cbn; constructor; cbn; auto. }
    destruct (HL _ _ _ _ E) as [A B]. destruct HD as (W & D2 & D3). split.
    + split; [exact W|]. split; [|exact D3]. intros m Hm. cbn. rewrite A. auto.
    + unfold dtrace. rewrite drun_silent; auto.
  - inv H. split; [apply DI_upd_map; auto|reflexivity].
Qed.

Lemma crun_dep ops : forall c c' evs, Inv bi maps0 lt c -> DI c -> Forall names_listener ops -> crun bi c ops = Ok (c', evs) ->
  DI c' /\ dtrace c (concat evs) c'.
Proof.
  induction ops as [|o ops IH]; intros c c' evs HI HD Hn H; cbn in H; [inv H; split; auto; reflexivity|].
  destruct (cstep bi c o) as [[c1 e1]|] eqn:Es; [|discriminate].
  destruct (crun bi c1 ops) as [[c2 es]|] eqn:Er; [|discriminate]. inv H. apply Forall_cons_iff in Hn. destruct Hn as [Hn1 Hn].
  destruct (cstep_dep _ _ _ _ HI HD Hn1 Es) as [HD1 Ht1]. destruct (cstep_ok bi maps0 lt Hself _ _ _ _ HI Es) as [HI1 _].
  destruct (IH _ _ _ HI1 HD1 Hn Er) as [HD2 Ht2]. split; auto. cbn. eapply dtrace_trans; eauto.
Qed.

Lemma DI_init : DI (init_client maps0 lt).
Proof. split; [constructor|]. split; [reflexivity|]. intros k last l H. discriminate. Qed.

Lemma crun_init_dep ops c evs : Forall names_listener ops -> crun bi (init_client maps0 lt) ops = Ok (c, evs) ->
  drun p d (mkD None false DRest) (concat evs) = Some (dabs c).
Proof. intros Hn H. apply (crun_dep ops _ _ _ (init_inv bi maps0 lt) DI_init Hn H). Qed.

End Dep.
