From Verif.Lib Require Import Base.
From Verif.Model Require Import Midi Period Mapping Client.
From Verif.Spec Require Import Client.
Open Scope Z_scope.

(* ---- basics ---- *)

Lemma listener_eqb_spec a b : listener_eqb a b = true <-> a = b.
Proof.
  destruct a as [[i x]|d], b as [[j y]|e]; cbn; split; intros H; try discriminate.
  - apply andb_true_iff in H. destruct H as [H1 H2]. apply Nat.eqb_eq in H1. apply eqb_prop in H2. subst. reflexivity.
  - inv H. rewrite Nat.eqb_refl, eqb_reflx. reflexivity.
  - apply Nat.eqb_eq in H. subst. reflexivity.
  - inv H. apply Nat.eqb_refl.
Qed.
Lemma listener_eqb_refl a : listener_eqb a a = true.
Proof. apply listener_eqb_spec. reflexivity. Qed.
Lemma existsb_listener l ls : existsb (listener_eqb l) ls = true <-> In l ls.
Proof.
  rewrite existsb_exists. split.
  - intros (x & Hx & E). apply listener_eqb_spec in E. subst. exact Hx.
  - intros H. exists l. split; auto. apply listener_eqb_refl.
Qed.

Lemma codes_eqb_spec a b : codes_eqb a b = true <-> a = b.
Proof.
  revert b. induction a as [|x a IH]; intros [|y b]; cbn; split; intros H; try discriminate; auto.
  - apply andb_true_iff in H. destruct H as [H1 H2]. apply IH in H2. f_equal; auto. lia.
  - inv H. rewrite Z.eqb_refl. apply IH. reflexivity.
Qed.
Lemma value_eqb_spec a b : value_eqb a b = true <-> a = b.
Proof.
  destruct a as [[x|x]|], b as [[y|y]|]; cbn; split; intros H; try discriminate; auto.
  - f_equal. f_equal. lia.
  - inv H. apply Z.eqb_refl.
  - apply codes_eqb_spec in H. subst. reflexivity.
  - inv H. apply codes_eqb_spec. reflexivity.
Qed.

Lemma find_req_find m l : find_req m l = find (fun r => (r_map r =? m)%nat) l.
Proof. induction l as [|r l IH]; cbn; auto. rewrite IH. reflexivity. Qed.

Lemma find_req_some m l r : find_req m l = Some r -> In r l /\ r_map r = m.
Proof.
  induction l as [|r' l IH]; cbn; [discriminate|]. destruct (r_map r' =? m)%nat eqn:E.
  - intros H. inv H. split; [left; auto|]. apply Nat.eqb_eq. exact E.
  - intros H. destruct (IH H). split; auto.
Qed.
Lemma find_req_none m l : find_req m l = None <-> ~ In m (map r_map l).
Proof.
  induction l as [|r' l IH]; cbn; [tauto|]. destruct (r_map r' =? m)%nat eqn:E.
  - apply Nat.eqb_eq in E. split; [discriminate|]. intros H. exfalso. auto.
  - apply Nat.eqb_neq in E. rewrite IH. tauto.
Qed.
Lemma find_req_in m l r : NoDup (map r_map l) -> In r l -> r_map r = m -> find_req m l = Some r.
Proof.
  induction l as [|r' l IH]; cbn; intros Hd Hin E; [tauto|]. inv Hd. destruct Hin as [->|Hin].
  - rewrite Nat.eqb_refl. reflexivity.
  - destruct (r_map r' =? r_map r)%nat eqn:E; auto. apply Nat.eqb_eq in E. exfalso. apply H1. rewrite E. apply in_map. auto.
Qed.

Lemma find_req_app m l1 l2 : find_req m (l1 ++ l2) = match find_req m l1 with Some r => Some r | None => find_req m l2 end.
Proof. induction l1 as [|r l1 IH]; cbn; auto. destruct (r_map r =? m)%nat; auto. Qed.

Lemma find_upd_same m f l r : (forall r, r_map (f r) = r_map r \/ r_map (f r) = m) -> find_req m l = Some r ->
  find_req m (upd_req m f l) = Some (f r).
Proof.
  intros Hf. induction l as [|r' l IH]; cbn; [discriminate|]. destruct (r_map r' =? m)%nat eqn:E; cbn.
  - intros H. inv H. apply Nat.eqb_eq in E. destruct (Hf r) as [H|H]; rewrite H; rewrite ?E, Nat.eqb_refl; reflexivity.
  - rewrite E. exact IH.
Qed.
Lemma find_upd_other m m' f l : m' <> m -> (forall r, r_map (f r) = m) ->
  find_req m' (upd_req m f l) = find_req m' l.
Proof.
  intros Hn Hf. induction l as [|r l IH]; cbn; auto. destruct (r_map r =? m)%nat eqn:E; cbn.
  - apply Nat.eqb_eq in E. rewrite Hf. replace (m =? m')%nat with false by lia. replace (r_map r =? m')%nat with false by lia. reflexivity.
  - destruct (r_map r =? m')%nat; auto.
Qed.
Lemma upd_req_maps m f l : (forall r, r_map (f r) = m) -> map r_map (upd_req m f l) = map r_map l.
Proof.
  intros Hf. induction l as [|r l IH]; cbn; auto. destruct (r_map r =? m)%nat eqn:E; cbn.
  - apply Nat.eqb_eq in E. rewrite Hf, E. reflexivity.
  - f_equal. exact IH.
Qed.
Lemma upd_req_length m f l : length (upd_req m f l) = length l.
Proof. induction l as [|r l IH]; cbn; auto. destruct (r_map r =? m)%nat; cbn; auto. Qed.
Lemma upd_req_Forall (P : request -> Prop) m f l :
  Forall P l -> (forall r, In r l -> r_map r = m -> P r -> P (f r)) -> Forall P (upd_req m f l).
Proof.
  induction l as [|r l IH]; intros HF Hf; cbn; auto. inv HF. destruct (r_map r =? m)%nat eqn:E.
  - apply Nat.eqb_eq in E. constructor; auto. apply Hf; auto. left; auto.
  - constructor; auto. apply IH; auto. intros r' Hin. apply Hf. right. auto.
Qed.

Definition abs_l (l : list request) (m : mid) : ast :=
  match find_req m l with
  | Some r => match r_listeners r, r_life r with Some ls, Some p => Waiting (last_reset p) Open ls | _, _ => Idle end
  | None => Idle
  end.
Lemma outstanding_abs c m : outstanding c m = abs_l (reqs c) m.
Proof. unfold outstanding, abs_l. rewrite find_req_find. reflexivity. Qed.

Lemma arun_app lt m a e1 e2 : arun lt m a (e1 ++ e2) = match arun lt m a e1 with Some a' => arun lt m a' e2 | None => None end.
Proof. revert a. induction e1 as [|e e1 IH]; intros a; cbn; auto. destruct (astep lt m a e); auto. Qed.

Lemma arun_other lt m a evs : Forall (fun e => astep lt m a e = Some a) evs -> arun lt m a evs = Some a.
Proof. induction evs as [|e evs IH]; intros H; cbn; auto. inv H. rewrite H2. auto. Qed.

Lemma NoDup_app_snoc_local {A} (l : list A) x : NoDup l -> ~ In x l -> NoDup (l ++ [x]).
Proof.
  intros Hl Hx. induction Hl as [|y l Hy Hl IH]; cbn; repeat constructor; auto.
  - intros H. apply in_app_or in H. destruct H as [H|[->|[]]]; auto. apply Hx. left. auto.
  - apply IH. intros H. apply Hx. right. auto.
Qed.

(* ---- invariant ---- *)

Definition req_ok (bi : mid -> bool) (maps0 : mid -> mapping) (lt : Z) (r : request) : Prop :=
  (forall ls, r_listeners r = Some ls -> NoDup ls /\ (forall d, In (LDep d) ls -> d <> r_map r)) /\
  (forall p, r_life r = Some p -> interval p = lt /\ truthy (request_t (maps0 (r_map r))) = true) /\
  (requested bi maps0 lt (r_map r) -> r_life r <> None).

(* [maps0] are the mappings at the start: request / depends fields only ever get cleared, for protocol mappings. *)
Definition cfg_ok (bi : mid -> bool) (maps0 : mid -> mapping) (lt : Z) (c : client) : Prop :=
  life c = lt /\ interval (clean c) = Z.quot lt 2 /\
  (forall m, request_t (maps c m) = request_t (maps0 m) \/ (bi m = true /\ request_t (maps c m) = TNone)) /\
  (forall m, depends (maps c m) = depends (maps0 m) \/ depends (maps c m) = None).

Definition Inv0 bi maps0 lt (c : client) : Prop :=
  cfg_ok bi maps0 lt c /\ NoDup (map r_map (reqs c)) /\ Forall (req_ok bi maps0 lt) (reqs c).
Definition Inv bi maps0 lt (c : client) : Prop := Inv0 bi maps0 lt c /\ Forall (fun r => finished r = false) (reqs c).

Section Refinement.
Variable bi : mid -> bool.
Variable maps0 : mid -> mapping.
Variable lt : Z.
Hypothesis Hself : no_self_dependency maps0.

Notation I0 := (Inv0 bi maps0 lt).

Lemma cfg_with_reqs c r : cfg_ok bi maps0 lt c -> cfg_ok bi maps0 lt (with_reqs c r).
Proof. auto. Qed.
Lemma cfg_with_deps c d : cfg_ok bi maps0 lt c -> cfg_ok bi maps0 lt (with_deps c d).
Proof. auto. Qed.
Lemma I0_with_deps c d : I0 c -> I0 (with_deps c d).
Proof. auto. Qed.

(* changing a mapping without touching request_t and depends *)
Lemma cfg_upd_map c m x : cfg_ok bi maps0 lt c -> request_t x = request_t (maps c m) -> depends x = depends (maps c m) ->
  cfg_ok bi maps0 lt (with_maps c (upd (maps c) m x)).
Proof.
  intros (H1 & H1' & H2 & H3) Hr Hd. repeat split; auto; intros k; cbn; unfold upd; destruct (k =? m)%nat eqn:E; auto;
    apply Nat.eqb_eq in E; subst; rewrite ?Hr, ?Hd; auto.
Qed.

Definition trace_ok (c : client) (evs : list event) (c' : client) : Prop :=
  forall m, requested bi maps0 lt m -> arun lt m (abs_l (reqs c) m) evs = Some (abs_l (reqs c') m).

Lemma trace_refl c : trace_ok c [] c.
Proof. intros m _. reflexivity. Qed.
Lemma trace_trans c1 e1 c2 e2 c3 : trace_ok c1 e1 c2 -> trace_ok c2 e2 c3 -> trace_ok c1 (e1 ++ e2) c3.
Proof. intros H1 H2 m Hm. rewrite arun_app, (H1 m Hm). apply H2. exact Hm. Qed.

Lemma request_t_truthy c m : cfg_ok bi maps0 lt c -> truthy (request_t (maps c m)) = true -> truthy (request_t (maps0 m)) = true.
Proof. intros (_ & _ & H & _) Ht. destruct (H m) as [E|[_ E]]; rewrite E in Ht; auto. discriminate. Qed.
Lemma request_t_requested c m : cfg_ok bi maps0 lt c -> requested bi maps0 lt m -> truthy (request_t (maps c m)) = true.
Proof. intros (_ & _ & H & _) (Hb & Ht & _). destruct (H m) as [E|[E _]]; [rewrite E; auto|congruence]. Qed.

Lemma register_ok c now m l send c' evs :
  I0 c -> (forall d, l = Some (LDep d) -> d <> m) ->
  (requested bi maps0 lt m -> send = true) ->
  register_mapping c now m l send = Ok (c', evs) ->
  I0 c' /\ trace_ok c evs c' /\ maps c' = maps c /\ deps c' = deps c /\ life c' = life c /\ clean c' = clean c.
Proof.
  intros (Hcfg & Hnd & Hok) Hl Hs H. unfold register_mapping in H.
  destruct (find_req m (reqs c)) as [r|] eqn:Ef.
  - assert (Hun : I0 c /\ trace_ok c [] c /\ maps c = maps c /\ deps c = deps c /\ life c = life c /\ clean c = clean c).
    { split; [split; auto|]. split; [apply trace_refl|auto]. }
    destruct l as [l|]; [|inv H; exact Hun].
    destruct (r_listeners r) as [ls|] eqn:El; [|discriminate].
    destruct (existsb (listener_eqb l) ls) eqn:Ex; inv H; [exact Hun|]. clear Hun.
    destruct (find_req_some _ _ _ Ef) as [Hin Hrm]. rewrite Forall_forall in Hok. pose proof (Hok r Hin) as Hr.
    split; [|split; [|auto]].
    + split; [apply cfg_with_reqs; auto|]. split.
      * cbn. rewrite upd_req_maps; auto.
      * apply upd_req_Forall; [rewrite Forall_forall; auto|].
        intros r' Hin' Er' _. assert (r' = r).
        { assert (find_req m (reqs c) = Some r') by (apply find_req_in; auto). congruence. }
        subst r'. destruct Hr as (Ha & Hb & Hc). split; [|split].
        -- intros ls' E. cbn in E. injection E as <-. destruct (Ha ls El) as [Hn Hd]. split.
           ++ apply NoDup_app_snoc_local; auto.
              intros Hc'. apply existsb_listener in Hc'. congruence.
           ++ intros d Hd'. cbn. apply in_app_or in Hd'. destruct Hd' as [Hd'|[Hd'|[]]]; [rewrite <- Hrm; auto|subst l; apply Hl; auto].
        -- cbn. rewrite <- Er'. exact Hb.
        -- cbn. rewrite <- Er'. exact Hc.
    + intros k Hk. cbn [reqs with_reqs arun astep]. destruct (m =? k)%nat eqn:E.
      * apply Nat.eqb_eq in E. subst k. unfold abs_l. erewrite find_upd_same; [|intros; right; reflexivity|exact Ef].
        rewrite Ef, El. destruct Hr as (_ & _ & Hlim). rewrite Hrm in Hlim. cbn [r_listeners r_life].
        destruct (r_life r) as [p|]; [|exfalso; apply Hlim; auto]. rewrite Ex. reflexivity.
      * unfold abs_l. rewrite find_upd_other; [reflexivity|apply Nat.eqb_neq in E; auto|reflexivity].
  - apply find_req_none in Ef as Hni. inv H.
    set (r := match l with Some l0 => mkReq m (Some [l0]) _ | None => _ end).
    assert (Hrm : r_map r = m) by (unfold r; destruct l; reflexivity).
    assert (Hrl : r_life r = if 0 <? (if truthy (request_t (maps c m)) then life c else 0)
                             then Some (p_reset (new_period (if truthy (request_t (maps c m)) then life c else 0)) now) else None)
      by (unfold r; destruct l; reflexivity).
    assert (Hls : r_listeners r = Some (match l with None => [] | Some l => [l] end)) by (unfold r; destruct l; reflexivity).
    assert (Hlife : life c = lt) by (destruct Hcfg; auto).
    split; [|split; [|auto]].
    + split; [apply cfg_with_reqs; auto|]. cbn [reqs with_reqs]. split.
      * rewrite map_app. cbn. rewrite Hrm. apply NoDup_app_snoc_local; auto.
      * apply Forall_app. split; auto. constructor; auto. split; [|split].
        -- intros ls E. rewrite Hls in E. injection E as <-. destruct l as [l|]; split; try (repeat constructor; cbn; tauto).
           intros d [E|[]]. rewrite Hrm. apply Hl. congruence.
        -- intros p E. rewrite Hrl in E. destruct (truthy (request_t (maps c m))) eqn:Et; [|discriminate].
           destruct (0 <? life c); [|discriminate]. injection E as <-. split; [exact Hlife|]. rewrite Hrm. eapply request_t_truthy; eauto.
        -- rewrite Hrm. intros Hreq. rewrite Hrl, (request_t_requested c m Hcfg Hreq).
           destruct Hreq as (_ & _ & Hpos). replace (0 <? life c) with true by lia. discriminate.
    + intros k Hk. destruct (m =? k)%nat eqn:E.
      * apply Nat.eqb_eq in E. subst k. cbn [reqs with_reqs]. unfold abs_l at 1. rewrite Ef.
        unfold abs_l. rewrite find_req_app, Ef. cbn [find_req]. rewrite Hrm, Nat.eqb_refl, Hls, Hrl.
        rewrite (request_t_requested c m Hcfg Hk), (Hs Hk). destruct Hk as (_ & _ & Hpos). replace (0 <? life c) with true by lia.
        cbn [andb p_reset new_period interval last_reset].
        destruct l as [l|]; cbn [arun astep app]; rewrite !Nat.eqb_refl; cbn [existsb app arun astep]; rewrite ?Nat.eqb_refl; reflexivity.
      * apply Nat.eqb_neq in E. assert (abs_l (reqs c ++ [r]) k = abs_l (reqs c) k) as Ea.
        { unfold abs_l. rewrite find_req_app. destruct (find_req k (reqs c)); auto. cbn [find_req]. rewrite Hrm.
          replace (m =? k)%nat with false by lia. reflexivity. }
        cbn [reqs with_reqs]. rewrite Ea. apply arun_other. constructor; [cbn; replace (m =? k)%nat with false by lia; reflexivity|].
        apply Forall_app. split.
        -- destruct l; repeat constructor. cbn. replace (m =? k)%nat with false by lia. reflexivity.
        -- destruct (send && truthy (request_t (maps c m))); repeat constructor. cbn. replace (m =? k)%nat with false by lia. reflexivity.
Qed.

Definition prefix (c c' : client) : Prop := exists tl, map r_map (reqs c') = map r_map (reqs c) ++ tl.
Lemma prefix_refl c : prefix c c.
Proof. exists []. rewrite app_nil_r. reflexivity. Qed.
Lemma prefix_trans a b c : prefix a b -> prefix b c -> prefix a c.
Proof. intros (t1 & H1) (t2 & H2). exists (t1 ++ t2). rewrite H2, H1, app_assoc. reflexivity. Qed.

Definition silent_for (m : mid) (evs : list event) : Prop := Forall (fun e => forall a, astep lt m a e = Some a) evs.
Lemma silent_arun m evs a : silent_for m evs -> arun lt m a evs = Some a.
Proof. intros H. apply arun_other. eapply Forall_impl; [|exact H]. cbn. auto. Qed.

Lemma register_frame c now d l send c' evs m : d <> m -> register_mapping c now d l send = Ok (c', evs) ->
  find_req m (reqs c') = find_req m (reqs c) /\ silent_for m evs.
Proof.
  intros Hn H. unfold register_mapping in H. assert (Hb : (d =? m)%nat = false) by (apply Nat.eqb_neq; auto).
  destruct (find_req d (reqs c)) as [r|] eqn:Ef.
  - destruct l as [l|]; [|inv H; split; [auto|constructor]]. destruct (r_listeners r) as [ls|]; [|discriminate].
    destruct (existsb (listener_eqb l) ls); inv H; [split; [auto|constructor]|]. split.
    + cbn. apply find_upd_other; auto.
    + repeat constructor. intros a. cbn. rewrite Hb. reflexivity.
  - inv H. split.
    + cbn [reqs with_reqs]. rewrite find_req_app. destruct (find_req m (reqs c)); auto. cbn [find_req].
      replace (r_map (match l with Some l0 => _ | None => _ end)) with d by (destruct l; reflexivity). rewrite Hb. reflexivity.
    + constructor; [intros a; cbn; rewrite Hb; reflexivity|]. apply Forall_app. split.
      * destruct l; repeat constructor. intros a. cbn. rewrite Hb. reflexivity.
      * destruct (send && _); repeat constructor. intros a. cbn. rewrite Hb. reflexivity.
Qed.

Lemma register_prefix c now d l send c' evs : register_mapping c now d l send = Ok (c', evs) -> prefix c c'.
Proof.
  intros H. unfold register_mapping in H. destruct (find_req d (reqs c)) as [r|] eqn:Ef.
  - destruct l as [l|]; [|inv H; apply prefix_refl]. destruct (r_listeners r) as [ls|]; [|discriminate].
    destruct (existsb (listener_eqb l) ls); inv H; [apply prefix_refl|]. exists []. cbn. rewrite app_nil_r. apply upd_req_maps. auto.
  - inv H. eexists. cbn [reqs with_reqs]. rewrite map_app. reflexivity.
Qed.

Definition cfg_same (c c' : client) : Prop := maps c' = maps c /\ life c' = life c /\ clean c' = clean c.

Lemma notify_ok c now m l c' evs :
  I0 c -> (forall d, l = LDep d -> d <> m) -> notify c now m l = Ok (c', evs) ->
  I0 c' /\ cfg_same c c' /\ prefix c c' /\ find_req m (reqs c') = find_req m (reqs c) /\
  exists evs', evs = EvChanged l m (val (maps c m)) :: evs' /\ silent_for m evs' /\ trace_ok c evs' c'.
Proof.
  intros HI Hl H. unfold notify in H.
  assert (Hun : I0 c /\ cfg_same c c /\ prefix c c /\ find_req m (reqs c) = find_req m (reqs c) /\
    exists evs', [EvChanged l m (val (maps c m))] = EvChanged l m (val (maps c m)) :: evs' /\ silent_for m evs' /\ trace_ok c evs' c).
  { split; auto. split; [repeat split|]. split; [apply prefix_refl|]. split; auto. exists []. split; auto.
    split; [constructor|apply trace_refl]. }
  destruct l as [x|d]; [inv H; exact Hun|].
  destruct (find_dep d (deps c)) as [[last inner]|]; [|inv H; exact Hun].
  destruct (value_eqb (val (maps c m)) last); [inv H; exact Hun|]. clear Hun.
  destruct (register_mapping _ now d _ true) as [[c1 e1]|] eqn:Er; [|discriminate]. inv H.
  assert (Hin : forall d', option_map LExt inner = Some (LDep d') -> d' <> d) by (intros d' E; destruct inner; discriminate).
  pose proof (register_ok _ now d _ true _ _ (I0_with_deps c _ HI) Hin (fun _ => eq_refl) Er)
    as (HI' & Ht & Hm & Hd & Hlf & Hcl).
  pose proof (register_frame _ now d _ true _ _ m (Hl d eq_refl) Er) as [Hf Hs].
  pose proof (register_prefix _ _ _ _ _ _ _ Er) as Hp.
  split; auto. split; [repeat split; auto|]. split; [exact Hp|]. split; auto. exists e1. auto.
Qed.

Lemma trace_skip c evs c' l m v k : m <> k -> requested bi maps0 lt k ->
  arun lt k (abs_l (reqs c) k) evs = Some (abs_l (reqs c') k) ->
  arun lt k (abs_l (reqs c) k) (EvChanged l m v :: evs) = Some (abs_l (reqs c') k).
Proof. intros Hn Hk H. cbn. replace (m =? k)%nat with false by lia. exact H. Qed.

Lemma notify_all_ok ls : forall c now m c' evs,
  I0 c -> (forall d, In (LDep d) ls -> d <> m) -> notify_all c now m ls = Ok (c', evs) ->
  I0 c' /\ cfg_same c c' /\ prefix c c' /\ find_req m (reqs c') = find_req m (reqs c) /\
  (forall k, k <> m -> requested bi maps0 lt k -> arun lt k (abs_l (reqs c) k) evs = Some (abs_l (reqs c') k)) /\
  (forall t ph rest, open_or_answering ph = true -> exists ph', open_or_answering ph' = true /\
     arun lt m (Waiting t ph (ls ++ rest)) evs = Some (Waiting t ph' rest)) /\
  filter (fun e => match e with EvChanged _ m' _ => (m' =? m)%nat | _ => false end) evs = map (fun l => EvChanged l m (val (maps c m))) ls.
Proof.
  induction ls as [|l ls IH]; intros c now m c' evs HI Hl H; cbn in H.
  - inv H. split; auto. split; [repeat split|]. split; [apply prefix_refl|]. repeat split; auto. intros t ph rest Hph. exists ph. auto.
  - destruct (notify c now m l) as [[c1 e1]|] eqn:E1; [|discriminate].
    destruct (notify_all c1 now m ls) as [[c2 e2]|] eqn:E2; [|discriminate]. inv H.
    destruct (notify_ok c now m l c1 e1 HI) as (HI1 & (Hm1 & Hl1 & Hc1) & Hp1 & Hf1 & e1' & -> & Hs1 & Ht1);
      [intros d ->; apply Hl; left; auto|exact E1|].
    destruct (IH c1 now m c' e2 HI1) as (HI2 & (Hm2 & Hl2 & Hc2) & Hp2 & Hf2 & Ht2 & Hw2 & Hev); [intros d Hd; apply Hl; right; auto|exact E2|].
    split; auto. split; [repeat split; congruence|]. split; [eapply prefix_trans; eauto|]. split; [congruence|]. split; [|split].
    + intros k Hk Hreq. change ((EvChanged l m (val (maps c m)) :: e1') ++ e2) with (EvChanged l m (val (maps c m)) :: (e1' ++ e2)).
      apply trace_skip; auto. rewrite arun_app, (Ht1 k Hreq). auto.
    + intros t ph rest Hph. cbn [app arun astep]. rewrite Nat.eqb_refl. cbn [told]. rewrite listener_eqb_refl, Hph. cbn [andb].
      rewrite arun_app, silent_arun by exact Hs1. apply Hw2. reflexivity.
    + rewrite Hm1 in Hev. cbn [app filter]. rewrite Nat.eqb_refl. cbn [map]. f_equal. rewrite filter_app, Hev.
      replace (filter _ e1') with (@nil event); [reflexivity|]. symmetry. clear - Hs1. induction Hs1 as [|e es He Hes IHs]; auto.
      cbn. destruct e; auto. destruct (m0 =? m)%nat eqn:E; auto. specialize (He Idle). cbn in He. rewrite E in He. discriminate.
Qed.

Lemma parse_shape m x m' b : parse m x = Ok (m', b) ->
  (b = false /\ m' = m) \/ (b = true /\ ((exists v, m' = with_value_1 m v) \/ (exists v, m' = with_val m v) \/
                                        (exists v, m' = with_value_1 (with_val m v) None))).
Proof.
  unfold parse, parse_two, parse_plain. intros H.
  repeat match type of H with
  | context [if ?b then _ else _] => destruct b
  | context [match ?t with _ => _ end] => destruct t; try discriminate
  end; try discriminate; inv H; eauto 10.
Qed.
Lemma parse_fields m x m' b : parse m x = Ok (m', b) ->
  request_t m' = request_t m /\ depends m' = depends m /\ response_t m' = response_t m /\ set_t m' = set_t m /\ typ m' = typ m /\
  two_part m' = two_part m /\ name m' = name m /\ (b = false -> m' = m).
Proof.
  intros H. destruct (parse_shape _ _ _ _ H) as [(-> & ->)|(-> & [(v & ->)|[(v & ->)|(v & ->)]])];
    repeat split; auto; intros; discriminate.
Qed.

Lemma I0_upd_map c m x : I0 c -> request_t x = request_t (maps c m) -> depends x = depends (maps c m) ->
  I0 (with_maps c (upd (maps c) m x)).
Proof. intros (H1 & H2 & H3) Hr Hd. split; [apply cfg_upd_map; auto|]. auto. Qed.

Lemma parse_request_ok c now i x c1 e1 p1 :
  I0 c -> parse_request c now i x = Ok (c1, e1, p1) ->
  I0 c1 /\ trace_ok c e1 c1 /\ prefix c c1 /\ life c1 = life c /\ clean c1 = clean c.
Proof.
  intros HI H. unfold parse_request in H.
  assert (Hun : I0 c /\ trace_ok c [] c /\ prefix c c /\ life c = life c /\ clean c = clean c).
  { split; auto. split; [apply trace_refl|]. split; [apply prefix_refl|auto]. }
  destruct (nth_error (reqs c) i) as [r|] eqn:En; [|inv H; exact Hun].
  destruct (negb (truthy (response_t (maps c (r_map r))))); [inv H; exact Hun|].
  destruct (r_listeners r) as [ls|] eqn:El; [|inv H; exact Hun].
  destruct (parse (maps c (r_map r)) x) as [[m' b]|] eqn:Ep; [|discriminate].
  destruct (parse_fields _ _ _ _ Ep) as (Fr & Fd & _).
  destruct b; [|inv H; exact Hun]. clear Hun. set (m := r_map r) in *.
  pose proof (I0_upd_map c m m' HI Fr Fd) as HI1.
  destruct (negb (result_finished m')).
  { inv H. split; auto. split; [intros k _; reflexivity|]. split; [exact (prefix_refl c)|auto]. }
  assert (Hin : In r (reqs c)) by (eapply nth_error_In; eauto).
  destruct HI as (Hcfg & Hnd & Hok). rewrite Forall_forall in Hok. destruct (Hok r Hin) as (Ha & Hb & Hlim).
  assert (Hfr : find_req m (reqs c) = Some r) by (apply find_req_in; auto).
  destruct (notify_all _ now m ls) as [[c2 ev]|] eqn:Ea; [|discriminate].
  destruct (notify_all_ok ls _ now m c2 ev HI1) as (HI2 & (_ & Hl2 & Hc2) & Hp2 & Hf2 & Ht2 & Hw2 & _);
    [intros d Hd; apply (proj2 (Ha ls El)); auto|exact Ea|].
  cbn [reqs with_maps life clean] in *. destruct (r_life r) as [p|] eqn:Elf.
  - inv H. split; [|split; [|split; [|split]]]; auto.
    + destruct HI2 as (Hcfg2 & Hnd2 & Hok2). split; [apply cfg_with_reqs; auto|]. cbn [reqs with_reqs]. split.
      * rewrite upd_req_maps; auto.
      * apply upd_req_Forall; auto. intros r' _ Er' (_ & Hb' & Hc'). split; [intros ls' E; discriminate|].
        cbn. rewrite <- Er'. auto.
    + intros k Hk. cbn [reqs with_reqs]. rewrite arun_app. destruct (Nat.eq_dec k m) as [->|Hne].
      * replace (abs_l (reqs c) m) with (Waiting (last_reset p) Open ls) by (unfold abs_l; rewrite Hfr, El, Elf; reflexivity).
        rewrite <- (app_nil_r ls) at 1. destruct (Hw2 (last_reset p) Open [] eq_refl) as (ph' & Hph' & ->).
        cbn. rewrite Nat.eqb_refl, Hph'. unfold abs_l.
        erewrite find_upd_same; [|intros; right; reflexivity|rewrite Hf2; exact Hfr]. reflexivity.
      * rewrite (Ht2 k Hne Hk). cbn. replace (m =? k)%nat with false by lia. unfold abs_l. rewrite find_upd_other; auto.
    + destruct Hp2 as (tl & Hp2). exists tl. cbn in *. rewrite upd_req_maps; auto.
  - inv H. split; auto. split; [|auto].
    intros k Hk. destruct (Nat.eq_dec k m) as [->|Hne]; [exfalso; apply Hlim; auto|]. apply Ht2; auto.
Qed.

Lemma receive_loop_ok fuel : forall c now i x c' evs p f,
  I0 c -> receive_loop fuel c now i x = Some (Ok (c', evs, p, f)) ->
  I0 c' /\ trace_ok c evs c' /\ life c' = life c /\ clean c' = clean c.
Proof.
  induction fuel as [|fuel IH]; intros c now i x c' evs p f HI H; cbn in H; [discriminate|].
  destruct (length (reqs c) <=? i)%nat; [inv H; split; auto; split; [apply trace_refl|auto]|].
  destruct (parse_request c now i x) as [[[c1 e1] p1]|] eqn:Ep; [|discriminate].
  destruct (receive_loop fuel c1 now (S i) x) as [[[[[c2 e2] p2] f2]|]|] eqn:El; try discriminate. inv H.
  destruct (parse_request_ok _ _ _ _ _ _ _ HI Ep) as (HI1 & Ht1 & _ & Hl1 & Hc1).
  destruct (IH _ _ _ _ _ _ _ _ HI1 El) as (HI2 & Ht2 & Hl2 & Hc2).
  split; auto. split; [eapply trace_trans; eauto|]. split; congruence.
Qed.

Lemma abs_cleanup l m : NoDup (map r_map l) -> abs_l (cleanup_requests l) m = abs_l l m.
Proof.
  unfold abs_l. induction l as [|r l IH]; intros Hd; cbn; auto. inv Hd.
  unfold finished at 1. destruct (r_map r =? m)%nat eqn:E.
  - destruct (r_listeners r) as [ls|] eqn:El; cbn; [rewrite E, El; reflexivity|].
    apply Nat.eqb_eq in E. rewrite E in H1.
    replace (find_req m (filter _ l)) with (@None request); [reflexivity|].
    symmetry. apply find_req_none. intros Hin. apply H1. clear - Hin. induction l as [|r l IH]; cbn in *; auto.
    destruct (negb (finished r)); cbn in Hin; [destruct Hin; auto|auto].
  - destruct (r_listeners r); cbn; [rewrite E|]; apply IH; auto.
Qed.

Lemma Forall_filter {A} (P : A -> Prop) f l : Forall P l -> Forall P (filter f l).
Proof. intros H. apply Forall_forall. intros x Hx. apply filter_In in Hx. rewrite Forall_forall in H. apply H. tauto. Qed.
Lemma NoDup_map_filter {A B} (g : A -> B) p l : NoDup (map g l) -> NoDup (map g (filter p l)).
Proof.
  induction l as [|x l IH]; cbn; auto. intros H. inv H. destruct (p x); auto. cbn. constructor; auto.
  intros Hin. apply H2. apply in_map_iff in Hin. destruct Hin as (y & E & Hy). apply filter_In in Hy.
  apply in_map_iff. exists y. tauto.
Qed.

Lemma cleanup_ok c : I0 c -> I0 (with_reqs c (cleanup_requests (reqs c))) /\
  trace_ok c [] (with_reqs c (cleanup_requests (reqs c))) /\
  Forall (fun r => finished r = false) (cleanup_requests (reqs c)).
Proof.
  intros (H1 & H2 & H3). split; [|split].
  - split; [apply cfg_with_reqs; auto|]. split; [apply NoDup_map_filter; auto|apply Forall_filter; auto].
  - intros m _. cbn [reqs with_reqs arun]. rewrite abs_cleanup; auto.
  - apply Forall_forall. intros r Hr. apply filter_In in Hr. destruct Hr as [_ Hr]. apply negb_true_iff in Hr. exact Hr.
Qed.

(* ---- timeouts ---- *)

Lemma terminated_fields f m l k : let f' := terminated f m l in
  request_t (f' k) = request_t (f k) /\ depends (f' k) = depends (f k).
Proof.
  unfold terminated, upd. destruct l as [[i []]|]; cbn; auto. destruct (k =? m)%nat eqn:E; auto.
  apply Nat.eqb_eq in E. subst. auto.
Qed.
Lemma notify_terminated_fields f m ls k : let f' := fst (notify_terminated f m ls) in
  request_t (f' k) = request_t (f k) /\ depends (f' k) = depends (f k).
Proof.
  unfold notify_terminated. cbn [fst]. revert f. induction ls as [|l ls IH]; intros f; cbn; auto.
  destruct (IH (terminated f m l)) as [A B]. destruct (terminated_fields f m l k) as [C D]. cbn in *. split; congruence.
Qed.

Lemma expire_fields l : forall f now f' l' ev, expire f now l = (f', l', ev) ->
  forall k, request_t (f' k) = request_t (f k) /\ depends (f' k) = depends (f k).
Proof.
  induction l as [|r l IH]; intros f now f' l' ev H k; cbn in H; [inv H; auto|].
  destruct (r_life r) as [p|].
  - destruct (p_exceeded p now) as [ex p']. destruct ex.
    + destruct (r_listeners r) as [ls|].
      * cbn in H. destruct (expire _ now l) as [[f2 rs] e2] eqn:E. inv H. destruct (IH _ _ _ _ _ E k) as [A B].
        pose proof (notify_terminated_fields f (r_map r) ls k) as [C D]. cbn in *. split; congruence.
      * destruct (expire f now l) as [[f2 rs] e2] eqn:E. inv H. eapply IH; eauto.
    + destruct (expire f now l) as [[f2 rs] e2] eqn:E. inv H. eapply IH; eauto.
  - destruct (expire f now l) as [[f2 rs] e2] eqn:E. inv H. eapply IH; eauto.
Qed.

Lemma arun_terminated m ls : forall t ph rest, open_or_expiring ph = true -> exists ph', open_or_expiring ph' = true /\
  arun lt m (Waiting t ph (ls ++ rest)) (map (fun l => EvTerminated l m) ls) = Some (Waiting t ph' rest).
Proof.
  induction ls as [|l ls IH]; intros t ph rest Hph; cbn; [eauto|]. rewrite Nat.eqb_refl, listener_eqb_refl, Hph. apply IH. reflexivity.
Qed.
Lemma silent_terminated m k ls : m <> k -> silent_for k (map (fun l => EvTerminated l m) ls).
Proof. intros Hn. apply Forall_forall. intros e He a. apply in_map_iff in He. destruct He as (l & <- & _). cbn. replace (m =? k)%nat with false by lia. reflexivity. Qed.

(* one request of the loop *)
Definition expire1 (f : mid -> mapping) (now : Z) (r : request) : (mid -> mapping) * request * list event :=
  match r_life r with
  | None => (f, r, [])
  | Some p =>
      let '(ex, p') := p_exceeded p now in
      if ex then
        match r_listeners r with
        | None => (f, mkReq (r_map r) None (Some p'), [])
        | Some ls => let '(f', ev) := notify_terminated f (r_map r) ls in
                     (f', mkReq (r_map r) None (Some p'), ev ++ [EvExpired (r_map r) now])
        end
      else (f, mkReq (r_map r) (r_listeners r) (Some p'), [])
  end.
Lemma expire_cons f now r l : expire f now (r :: l) =
  let '(f1, r1, e1) := expire1 f now r in let '(f2, rs, e2) := expire f1 now l in (f2, r1 :: rs, e1 ++ e2).
Proof. reflexivity. Qed.

Lemma expire1_map f now r f1 r1 e1 : expire1 f now r = (f1, r1, e1) -> r_map r1 = r_map r /\
  (forall k, k <> r_map r -> silent_for k e1) /\ (req_ok bi maps0 lt r -> req_ok bi maps0 lt r1).
Proof.
  unfold expire1. intros H. destruct (r_life r) as [p|] eqn:El.
  - unfold p_exceeded in H. destruct (last_reset p + interval p <? now).
    + destruct (r_listeners r) as [ls|] eqn:Els.
      * cbn in H. inv H. split; auto. split.
        -- intros k Hk. apply Forall_app. split; [apply silent_terminated; auto|]. repeat constructor. intros a. cbn.
           replace (r_map r =? k)%nat with false by lia. reflexivity.
        -- intros (A & B & C). split; [intros ls' E; discriminate|]. split.
           ++ intros q E. cbn in E. inv E. cbn. apply B. exact El.
           ++ discriminate.
      * inv H. split; auto. split; [constructor|]. intros (A & B & C). split; [intros ls' E; discriminate|]. split.
        ++ intros q E. cbn in E. inv E. cbn. apply B. exact El.
        ++ discriminate.
    + inv H. split; auto. split; [constructor|]. intros (A & B & C). split; [exact A|]. split.
      * intros q E. cbn in E. inv E. apply B. exact El.
      * discriminate.
  - inv H. split; auto. split; [constructor|auto].
Qed.

Lemma expire_ok l : forall f now f' l' ev, NoDup (map r_map l) -> Forall (req_ok bi maps0 lt) l ->
  expire f now l = (f', l', ev) ->
  map r_map l' = map r_map l /\ Forall (req_ok bi maps0 lt) l' /\
  (forall k, ~ In k (map r_map l) -> silent_for k ev) /\
  (forall m, requested bi maps0 lt m -> arun lt m (abs_l l m) ev = Some (abs_l l' m)).
Proof.
  induction l as [|r l IH]; intros f now f' l' ev Hd Hok H; [inv H; repeat split; auto; constructor|].
  rewrite expire_cons in H. destruct (expire1 f now r) as [[f1 r1] e1] eqn:E1.
  destruct (expire f1 now l) as [[f2 rs] e2] eqn:E2. inv H.
  cbn in Hd. apply NoDup_cons_iff in Hd. destruct Hd as [Hni Hd]. apply Forall_cons_iff in Hok. destruct Hok as [Hr Hok].
  destruct (IH _ _ _ _ _ Hd Hok E2) as (IHm & IHok & IHs & IHa).
  destruct (expire1_map _ _ _ _ _ _ E1) as (Hm1 & Hs1 & Hok1).
  split; [cbn; congruence|]. split; [constructor; auto|]. split.
  - intros k Hk. cbn in Hk. apply Forall_app. split; [apply Hs1; intros ->; auto|apply IHs; auto].
  - intros m Hm. rewrite arun_app. unfold abs_l. cbn [find_req]. rewrite Hm1. destruct (r_map r =? m)%nat eqn:E.
    + apply Nat.eqb_eq in E. subst m. specialize (IHs (r_map r) Hni).
      unfold expire1 in E1. destruct Hr as (_ & Hlt & Hlim). destruct (r_life r) as [p|] eqn:El; [|exfalso; apply Hlim; auto].
      destruct (Hlt p eq_refl) as [Hint _].
      unfold p_exceeded in E1. destruct (last_reset p + interval p <? now) eqn:Eex.
      * destruct (r_listeners r) as [ls|] eqn:Els.
        -- cbn in E1. inv E1. cbn [r_listeners r_life]. rewrite arun_app. rewrite <- (app_nil_r ls) at 1.
           destruct (arun_terminated (r_map r) ls (last_reset p) Open [] eq_refl) as (ph' & Hph' & ->).
           cbn. rewrite Hint in Eex. rewrite Nat.eqb_refl, Hph', Eex. apply silent_arun; auto.
        -- inv E1. cbn. apply silent_arun; auto.
      * inv E1. cbn [r_listeners r_life arun]. apply silent_arun; auto.
    + apply Nat.eqb_neq in E. rewrite silent_arun by (apply Hs1; auto). apply IHa. exact Hm.
Qed.

Lemma timeouts_ok c now c' evs : Inv bi maps0 lt c -> timeouts c now = (c', evs) ->
  Inv bi maps0 lt c' /\ trace_ok c evs c' /\ life c' = life c.
Proof.
  intros ((Hcfg & Hnd & Hok) & Hfin) H. unfold timeouts, p_exceeded in H.
  destruct (last_reset (clean c) + interval (clean c) <? now).
  - cbn in H. destruct (expire (maps c) now (reqs c)) as [[f rs] ev] eqn:E. inv H.
    destruct (expire_ok _ _ _ _ _ _ Hnd Hok E) as (Hm & Hok' & _ & Ha).
    pose proof (expire_fields _ _ _ _ _ _ E) as Hf.
    assert (I0 (mkClient f rs (deps c) (life c) (mkPeriod (interval (clean c)) now))) as HI.
    { destruct Hcfg as (C1 & C2 & C3 & C4). split; [|split; [cbn; rewrite Hm; auto|exact Hok']].
      split; [exact C1|]. split; [exact C2|]. split; intros k; cbn; destruct (Hf k) as [A B]; rewrite ?A, ?B; auto. }
    destruct (cleanup_ok _ HI) as (HI' & Ht' & Hf'). cbn in *. split; [split; [exact HI'|exact Hf']|]. split; auto.
    intros m Hm'. rewrite (Ha m Hm'). specialize (Ht' m Hm'). cbn in Ht'. exact Ht'.
  - cbn in H. inv H. split; [|split; [intros m _; reflexivity|reflexivity]]. split; [|exact Hfin].
    destruct Hcfg as (C1 & C2 & C3 & C4). split; [|split; auto]. repeat split; auto.
Qed.

(* positions: finished requests stay finished, and only the request being parsed can become finished *)
Definition fin_same (c c' : client) (except : option nat) : Prop :=
  forall j r, Some j <> except -> nth_error (reqs c) j = Some r ->
    exists r', nth_error (reqs c') j = Some r' /\ finished r' = finished r.
Lemma fin_same_refl c e : fin_same c c e.
Proof. intros j r _ H. eauto. Qed.
Lemma fin_same_trans a b c e : fin_same a b e -> fin_same b c e -> fin_same a c e.
Proof. intros H1 H2 j r Hj Hr. destruct (H1 j r Hj Hr) as (r1 & Hr1 & E1). destruct (H2 j r1 Hj Hr1) as (r2 & Hr2 & E2). exists r2. split; congruence. Qed.
Lemma fin_same_weaken a b e : fin_same a b None -> fin_same a b e.
Proof. intros H j r _ Hr. apply H; auto. discriminate. Qed.

Lemma upd_req_nth m f l j r : nth_error l j = Some r ->
  nth_error (upd_req m f l) j = Some r \/ (r_map r = m /\ nth_error (upd_req m f l) j = Some (f r) /\ find_req m l = Some r).
Proof.
  revert j. induction l as [|r0 l IH]; intros [|j] H; cbn in *; try discriminate.
  - inv H. destruct (r_map r =? m)%nat eqn:E; cbn; auto. apply Nat.eqb_eq in E. auto.
  - destruct (r_map r0 =? m)%nat eqn:E; cbn; auto.
Qed.

Lemma register_fin c now d l send c' evs : register_mapping c now d l send = Ok (c', evs) -> fin_same c c' None.
Proof.
  intros H. unfold register_mapping in H. destruct (find_req d (reqs c)) as [r|] eqn:Ef.
  - destruct l as [l|]; [|inv H; apply fin_same_refl]. destruct (r_listeners r) as [ls|] eqn:El; [|discriminate].
    destruct (existsb (listener_eqb l) ls); inv H; [apply fin_same_refl|].
    intros j r' _ Hr. cbn. destruct (upd_req_nth d (fun r => mkReq d (Some (ls ++ [l])) (r_life r)) _ _ _ Hr) as [E|(E1 & E2 & E3)]; [eauto|].
    eexists. split; [exact E2|]. assert (r' = r) by congruence. subst. unfold finished. rewrite El. reflexivity.
  - inv H. intros j r' _ Hr. cbn. exists r'. split; auto. rewrite nth_error_app1; auto. apply nth_error_Some. congruence.
Qed.

Lemma notify_all_fin ls : forall c now m c' evs, notify_all c now m ls = Ok (c', evs) -> fin_same c c' None.
Proof.
  induction ls as [|l ls IH]; intros c now m c' evs H; cbn in H; [inv H; apply fin_same_refl|].
  destruct (notify c now m l) as [[c1 e1]|] eqn:E1; [|discriminate].
  destruct (notify_all c1 now m ls) as [[c2 e2]|] eqn:E2; [|discriminate]. inv H.
  eapply fin_same_trans; [|eapply IH; eauto]. unfold notify in E1. destruct l as [x|d]; [inv E1; apply fin_same_refl|].
  destruct (find_dep d (deps c)) as [[last inner]|]; [|inv E1; apply fin_same_refl].
  destruct (value_eqb _ _); [inv E1; apply fin_same_refl|].
  destruct (register_mapping _ now d _ true) as [[c3 e3]|] eqn:Er; [|discriminate]. inv E1.
  apply register_fin in Er. exact Er.
Qed.

Lemma notify_all_prefix ls : forall c now m c' evs, notify_all c now m ls = Ok (c', evs) -> prefix c c'.
Proof.
  induction ls as [|l ls IH]; intros c now m c' evs H; cbn in H; [inv H; apply prefix_refl|].
  destruct (notify c now m l) as [[c1 e1]|] eqn:E1; [|discriminate].
  destruct (notify_all c1 now m ls) as [[c2 e2]|] eqn:E2; [|discriminate]. inv H.
  eapply prefix_trans; [|eapply IH; eauto]. unfold notify in E1. destruct l as [x|d]; [inv E1; apply prefix_refl|].
  destruct (find_dep d (deps c)) as [[last inner]|]; [|inv E1; apply prefix_refl].
  destruct (value_eqb _ _); [inv E1; apply prefix_refl|].
  destruct (register_mapping _ now d _ true) as [[c3 e3]|] eqn:Er; [|discriminate]. inv E1.
  apply register_prefix in Er. exact Er.
Qed.

Lemma parse_request_fin c now i x c1 e1 p1 : I0 c -> parse_request c now i x = Ok (c1, e1, p1) -> fin_same c c1 (Some i).
Proof.
  intros HI H. pose proof (parse_request_ok _ _ _ _ _ _ _ HI H) as (HI1 & _). unfold parse_request in H.
  destruct (nth_error (reqs c) i) as [r|] eqn:En; [|inv H; apply fin_same_refl].
  destruct (negb (truthy _)); [inv H; apply fin_same_refl|].
  destruct (r_listeners r) as [ls|]; [|inv H; apply fin_same_refl].
  destruct (parse _ x) as [[m' b]|]; [|discriminate]. destruct b; [|inv H; apply fin_same_refl].
  destruct (negb (result_finished m')); [inv H; intros j r' _ Hr; eauto|].
  destruct (notify_all _ now _ ls) as [[c2 ev]|] eqn:Ea; [|discriminate]. pose proof Ea as Ea'. apply notify_all_fin in Ea.
  assert (fin_same c c2 (Some i)) as Hc2 by (apply fin_same_weaken; exact Ea).
  destruct (r_life r); inv H; auto.
  intros j r' Hj Hr. destruct (Hc2 j r' Hj Hr) as (r2 & Hr2 & Ef2). cbn [reqs with_reqs].
  destruct (upd_req_nth (r_map r) (fun r0 => mkReq (r_map r) None (r_life r0)) _ _ _ Hr2) as [E|(E1 & E2 & E3)]; [eauto|].
  (* then j = i *)
  exfalso. apply Hj. f_equal.
  destruct HI as (_ & Hnd & _). destruct HI1 as (_ & Hnd1 & _). cbn [reqs with_reqs] in Hnd1. rewrite upd_req_maps in Hnd1 by auto.
  destruct (Ea i r ltac:(discriminate)) as (r3 & Hr3 & _); [exact En|].
  assert (r_map r3 = r_map r) as E4.
  { assert (exists tl, map r_map (reqs c2) = map r_map (reqs c) ++ tl) as (tl & Etl).
    { destruct (notify_all_prefix ls _ _ _ _ _ Ea') as (tl & E). exists tl. exact E. }
    assert (nth_error (map r_map (reqs c2)) i = Some (r_map r3)) as A by (apply map_nth_error; auto).
    rewrite Etl, nth_error_app1 in A.
    - rewrite (map_nth_error r_map _ _ En) in A. congruence.
    - rewrite map_length. apply nth_error_Some. congruence. }
  eapply (NoDup_nth_error (map r_map (reqs c2))); auto.
  - rewrite map_length. apply nth_error_Some. congruence.
  - rewrite (map_nth_error r_map _ _ Hr2), (map_nth_error r_map _ _ Hr3). congruence.
Qed.

Lemma fin_flag fuel : forall c now i x c' evs p,
  I0 c -> (forall j r, (j < i)%nat -> nth_error (reqs c) j = Some r -> finished r = false) ->
  receive_loop fuel c now i x = Some (Ok (c', evs, p, false)) -> Forall (fun r => finished r = false) (reqs c').
Proof.
  induction fuel as [|fuel IH]; intros c now i x c' evs p HI Hj H; cbn in H; [discriminate|].
  destruct (length (reqs c) <=? i)%nat eqn:El.
  - inv H. apply Forall_forall. intros r Hr. apply In_nth_error in Hr. destruct Hr as (j & Hr). eapply Hj; eauto.
    apply Nat.leb_le in El. assert (j < length (reqs c'))%nat by (apply nth_error_Some; congruence). lia.
  - destruct (parse_request c now i x) as [[[c1 e1] p1]|] eqn:Ep; [|discriminate].
    destruct (receive_loop fuel c1 now (S i) x) as [[[[[c2 e2] p2] f2]|]|] eqn:Er; try discriminate.
    injection H as Ec Ee Epp Ef. apply orb_false_iff in Ef. destruct Ef as [Ef Ef2]. subst c2 f2.
    eapply IH; [|  |exact Er].
    + apply (parse_request_ok _ _ _ _ _ _ _ HI Ep).
    + intros j r Hlt Hr. destruct (Nat.eq_dec j i) as [->|Hne].
      * rewrite Hr in Ef. exact Ef.
      * destruct (nth_error (reqs c) j) as [r0|] eqn:E0.
        -- destruct (parse_request_fin _ _ _ _ _ _ _ HI Ep j r0) as (r' & Hr' & Efin); [congruence|auto|].
           assert (r' = r) by congruence. subst. rewrite Efin. eapply Hj; eauto. lia.
        -- apply nth_error_None in E0. apply Nat.leb_gt in El. lia.
Qed.

Lemma receive_ok c now x c' evs : Inv bi maps0 lt c -> receive c now x = Some (Ok (c', evs)) ->
  Inv bi maps0 lt c' /\ trace_ok c evs c' /\ life c' = life c.
Proof.
  intros HI H. unfold receive in H. destruct (timeouts c now) as [c1 e1] eqn:Et.
  destruct (timeouts_ok _ _ _ _ HI Et) as (HI1 & Ht1 & Hl1). destruct x as [x|]; [|inv H; auto].
  destruct (receive_loop _ c1 now 0 x) as [[[[[c2 e2] p2] f2]|]|] eqn:El; try discriminate. inv H.
  destruct HI1 as [HI1 Hf1]. destruct (receive_loop_ok _ _ _ _ _ _ _ _ _ HI1 El) as (HI2 & Ht2 & Hl2 & _).
  assert (trace_ok c2 (if p2 then [] else [EvUnused x]) c2) as Hu by (intros m _; destruct p2; reflexivity).
  destruct f2.
  - destruct (cleanup_ok c2 HI2) as (HI3 & Ht3 & Hf3). split; [split; auto|]. split; [|cbn; congruence].
    eapply trace_trans; eauto. eapply trace_trans; [exact Ht2|].
    pose proof (trace_trans _ _ _ _ _ Hu Ht3) as Ht4. rewrite app_nil_r in Ht4. exact Ht4.
  - split; [split; auto|].
    + eapply (fin_flag _ c1); [exact HI1| |exact El]. intros j r Hj. inv Hj.
    + split; [|congruence]. eapply trace_trans; eauto. eapply trace_trans; eauto.
Qed.

(* ---- the other operations ---- *)

Lemma register_unfinished c now m l send c' evs :
  Forall (fun r => finished r = false) (reqs c) -> register_mapping c now m l send = Ok (c', evs) ->
  Forall (fun r => finished r = false) (reqs c').
Proof.
  intros Hf H. unfold register_mapping in H. destruct (find_req m (reqs c)) as [r|].
  - destruct l as [l|]; [|inv H; auto]. destruct (r_listeners r); [|discriminate].
    destruct (existsb _ _); inv H; auto. cbn. apply upd_req_Forall; auto.
  - inv H. cbn. apply Forall_app. split; auto. destruct l; repeat constructor.
Qed.
Lemma notify_all_unfinished ls : forall c now m c' evs,
  Forall (fun r => finished r = false) (reqs c) -> notify_all c now m ls = Ok (c', evs) ->
  Forall (fun r => finished r = false) (reqs c').
Proof.
  induction ls as [|l ls IH]; intros c now m c' evs Hf H; cbn in H; [inv H; auto|].
  destruct (notify c now m l) as [[c1 e1]|] eqn:E1; [|discriminate].
  destruct (notify_all c1 now m ls) as [[c2 e2]|] eqn:E2; [|discriminate]. inv H.
  eapply IH; [|exact E2]. unfold notify in E1. destruct l as [x|d]; [inv E1; auto|].
  destruct (find_dep d (deps c)) as [[last inner]|]; [|inv E1; auto].
  destruct (value_eqb _ _); [inv E1; auto|].
  destruct (register_mapping _ now d _ true) as [[c3 e3]|] eqn:Er; [|discriminate]. inv E1.
  eapply register_unfinished; [|exact Er]. exact Hf.
Qed.

Lemma cstep_ok c o c' evs : Inv bi maps0 lt c -> cstep bi c o = Ok (c', evs) ->
  Inv bi maps0 lt c' /\ trace_ok c evs c'.
Proof.
  intros HI H. destruct o as [now m l|now m l|now x|now m a| |m v]; cbn in H.
  - (* Register *)
    unfold register in H. set (c1 := if bi m then _ else c) in *.
    assert (Inv bi maps0 lt c1 /\ reqs c1 = reqs c) as [HI1 Er].
    { unfold c1. destruct (bi m) eqn:Eb; auto. split; auto. destruct HI as ((Hcfg & Hnd & Hok) & Hf).
      split; [|exact Hf]. split; [|split; auto]. destruct Hcfg as (C1 & C2 & C3 & C4). split; [exact C1|]. split; [exact C2|].
      split; intros k; cbn; unfold upd; destruct (k =? m)%nat eqn:E; auto. apply Nat.eqb_eq in E. subst. right. auto. }
    assert (Hun : Inv bi maps0 lt c1 /\ trace_ok c [] c1).
    { split; auto. intros k _. rewrite Er. reflexivity. }
    destruct (negb (truthy (request_t (maps c1 m))) && truthy (response_t (maps c1 m))) eqn:Ec; [|inv H; exact Hun].
    destruct HI1 as [HI1 Hf1]. apply andb_true_iff in Ec. destruct Ec as [Ec _]. apply negb_true_iff in Ec.
    assert (requested bi maps0 lt m -> False) as Hnr.
    { intros Hr. rewrite (request_t_requested c1 m (proj1 HI1) Hr) in Ec. discriminate. }
    assert (Hld : forall d, option_map LExt l = Some (LDep d) -> d <> m) by (intros d E; destruct l; discriminate).
    destruct (register_ok _ _ _ _ _ _ _ HI1 Hld (fun Hr => False_ind _ (Hnr Hr)) H)
      as (HI2 & Ht2 & _). split; [split; auto; eapply register_unfinished; eauto|].
    intros k Hk. specialize (Ht2 k Hk). rewrite Er in Ht2. exact Ht2.
  - (* Request *)
    unfold request_param in H. destruct (negb _ || negb _); [inv H; split; auto; apply trace_refl|].
    destruct HI as [HI Hf]. destruct (depends (maps c m)) as [p|] eqn:Ed.
    + set (c1 := match find_dep m (deps c) with Some _ => c | None => _ end) in *.
      assert (I0 c1 /\ reqs c1 = reqs c) as [HI1 Er] by (unfold c1; destruct (find_dep m (deps c)); auto).
      assert (Hnp : m <> p).
      { destruct HI as ((_ & _ & _ & Hd) & _). destruct (Hd m) as [E|E]; rewrite Ed in E; [|discriminate].
        intros ->. apply (Hself p). auto. }
      assert (Hld : forall d, Some (LDep m) = Some (LDep d) -> d <> p) by (intros d E; inv E; auto).
      destruct (register_ok _ _ _ _ _ _ _ HI1 Hld (fun _ => eq_refl) H) as (HI2 & Ht2 & _).
      split; [split; auto; eapply register_unfinished; [|exact H]; rewrite Er; auto|].
      intros k Hk. specialize (Ht2 k Hk). rewrite Er in Ht2. exact Ht2.
    + assert (Hld : forall d, option_map LExt l = Some (LDep d) -> d <> m) by (intros d E; destruct l; discriminate).
      destruct (register_ok _ _ _ _ _ _ _ HI Hld (fun _ => eq_refl) H) as (HI2 & Ht2 & _).
      split; [split; auto; eapply register_unfinished; eauto|]. exact Ht2.
  - (* Receive *)
    destruct (receive c now x) as [[[c1 e1]|]|] eqn:E; try discriminate. inv H.
    destruct (receive_ok _ _ _ _ _ HI E) as (A & B & _). auto.
  - (* Set *)
    unfold set_param in H.
    set (step1 := if negb (truthy (set_t (maps c m))) then _ else _) in H.
    assert (forall c1 e1, step1 = Ok (c1, e1) -> Inv bi maps0 lt c1 /\ reqs c1 = reqs c /\ (forall k, silent_for k e1)) as H1.
    { intros c1 e1 E. unfold step1 in E. destruct (negb _); [inv E; repeat split; auto; try apply HI; constructor|].
      destruct (set_value (maps c m) a) as [m' ok] eqn:Es. destruct ok; [|discriminate]. inv E.
      assert (request_t m' = request_t (maps c m) /\ depends m' = depends (maps c m)) as [Fr Fd].
      { clear - Es. unfold set_value in Es. destruct (set_t (maps c m)); destruct a; cbn in Es;
        repeat match type of Es with
        | context [match ?t with _ => _ end] => destruct t
        end; inv Es; auto. }
      destruct HI as [HI Hf]. split; [split; [apply I0_upd_map; auto|exact Hf]|]. split; auto.
      intros k. repeat constructor. }
    destruct step1 as [[c1 e1]|]; [|discriminate]. destruct (H1 c1 e1 eq_refl) as (HI1 & Er & Hs). clear H1.
    assert (Ht1 : trace_ok c e1 c1) by (intros k _; rewrite silent_arun by auto; rewrite Er; reflexivity).
    destruct (bi m) eqn:Eb; [|inv H; auto].
    destruct (find_req m (reqs c1)) as [r|] eqn:Ef; [|discriminate]. destruct a as [z|]; [|discriminate].
    destruct (r_listeners r) as [ls|] eqn:El; [|discriminate].
    destruct (notify_all _ now m ls) as [[c3 e3]|] eqn:Ea; [|discriminate]. inv H.
    destruct HI1 as [HI1 Hf1].
    pose proof (I0_upd_map c1 m (with_val (maps c1 m) (Some (VNum z))) HI1 eq_refl eq_refl) as HI2.
    destruct (find_req_some _ _ _ Ef) as [Hin Hrm].
    assert (Hdep : forall d, In (LDep d) ls -> d <> m).
    { destruct HI1 as (_ & _ & Hok). rewrite Forall_forall in Hok. destruct (Hok r Hin) as (A & _). rewrite <- Hrm. apply (A ls El). }
    destruct (notify_all_ok ls _ _ _ _ _ HI2 Hdep Ea) as (HI3 & _ & _ & _ & Ht3 & _).
    split; [split; auto; eapply notify_all_unfinished; [|exact Ea]; exact Hf1|].
    eapply trace_trans; [exact Ht1|]. intros k Hk. apply Ht3; auto. intros ->. destruct Hk as (Hb & _). congruence.
  - (* Lost *)
    destruct (connection_lost bi (maps c) (reqs c)) as [[f e]|] eqn:E; [|discriminate]. inv H.
    assert (forall l f0 f1 ev, connection_lost bi f0 l = Ok (f1, ev) ->
      (forall k, request_t (f1 k) = request_t (f0 k) /\ depends (f1 k) = depends (f0 k)) /\ (forall k, bi k = false -> silent_for k ev)) as HL.
    { clear. induction l as [|r l IH]; intros f0 f1 ev H; cbn in H; [inv H; split; [auto|constructor]|].
      destruct (bi (r_map r)) eqn:Eb; [|eapply IH; eauto]. destruct (r_listeners r) as [ls|]; [|discriminate].
      destruct (connection_lost bi _ l) as [[f2 e2]|] eqn:E; [|discriminate]. inv H. destruct (IH _ _ _ E) as [A B]. split.
      - intros k. destruct (A k) as [A1 A2]. pose proof (notify_terminated_fields f0 (r_map r) ls k) as [C D]. cbn in C, D. split; congruence.
      - intros k Hk. apply Forall_app. split; [|apply B; auto]. apply silent_terminated. intros <-. congruence. }
    destruct (HL _ _ _ _ E) as [A B]. destruct HI as ((Hcfg & Hnd & Hok) & Hf). split.
    + split; [|exact Hf]. split; [|split; auto]. destruct Hcfg as (C1 & C2 & C3 & C4). split; [exact C1|]. split; [exact C2|].
      split; intros k; cbn; destruct (A k) as [A1 A2]; rewrite ?A1, ?A2; auto.
    + intros k (Hk & _). cbn. apply silent_arun. auto.
  - (* Assign *)
    inv H. destruct HI as [HI Hf]. split; [split; [apply I0_upd_map; auto|exact Hf]|]. intros k _. reflexivity.
Qed.

Lemma crun_ok ops : forall c c' evs, Inv bi maps0 lt c -> crun bi c ops = Ok (c', evs) ->
  Inv bi maps0 lt c' /\ trace_ok c (concat evs) c'.
Proof.
  induction ops as [|o ops IH]; intros c c' evs HI H; cbn in H; [inv H; split; auto; apply trace_refl|].
  destruct (cstep bi c o) as [[c1 e1]|] eqn:Es; [|discriminate].
  destruct (crun bi c1 ops) as [[c2 es]|] eqn:Er; [|discriminate]. inv H.
  destruct (cstep_ok _ _ _ _ HI Es) as [HI1 Ht1]. destruct (IH _ _ _ HI1 Er) as [HI2 Ht2].
  split; auto. cbn. eapply trace_trans; eauto.
Qed.

End Refinement.

Lemma init_inv bi maps0 lt : Inv bi maps0 lt (init_client maps0 lt).
Proof. repeat split; auto; try constructor. Qed.
