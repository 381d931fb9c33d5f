(* Who is told what by a client whose listeners each belong to one mapping, and how values follow from what is told. *)
From Verif.Lib Require Import Base.
From Verif.Model Require Import Midi Period Mapping Client.
From Verif.Spec Require Import Mapping Client.
From Verif.Proofs Require Import Client ClientOps ClientDep.
Open Scope Z_scope.

(* the value of a mapping according to what listeners were told *)
Definition track1 (m : mid) (u : option value) (e : event) : option value :=
  match e with
  | EvChanged _ k v => if (k =? m)%nat then v else u
  | EvTerminated (LExt x) k => if (k =? m)%nat && x_clears x then None else u
  | _ => u
  end.
Definition track (m : mid) (u : option value) (evs : list event) : option value := fold_left (track1 m) evs u.
Lemma track_app m u e1 e2 : track m u (e1 ++ e2) = track m (track m u e1) e2.
Proof. apply fold_left_app. Qed.
Lemma track_quiet m u evs : Forall (fun e => match e with EvChanged _ k _ => k <> m | EvTerminated _ _ => False | _ => True end) evs -> track m u evs = u.
Proof.
  intros H. revert u. induction H as [|e evs He H IH]; intros u; [reflexivity|]. change (track m (track1 m u e) evs = u). rewrite IH.
  destruct e; cbn; auto; [|contradiction]. apply Nat.eqb_neq in He. rewrite He. reflexivity.
Qed.

Section Own.
Variable maps0 : mid -> mapping.
Variable mine : mid -> ext -> Prop.   (* which listeners watch which mapping *)
Definition own (k : mid) (l : listener) : Prop :=
  match l with LExt x => mine k x | LDep d => depends (maps0 d) = Some k end.
Definition LI (c : client) : Prop :=
  (forall r ls, In r (reqs c) -> r_listeners r = Some ls -> ls <> [] /\ Forall (own (r_map r)) ls) /\
  (forall d last inner, In (d, (last, inner)) (deps c) -> exists x, inner = Some x /\ mine d x) /\
  (forall d p, depends (maps c d) = Some p -> depends (maps0 d) = Some p).
Definition ev_own (e : event) : Prop :=
  match e with EvChanged l k _ | EvTerminated l k => own k l | _ => True end.

Lemma register_own c now m l send c' evs : LI c -> own m l -> register_mapping c now m (Some l) send = Ok (c', evs) ->
  LI c' /\ Forall (fun e => match e with EvChanged _ _ _ | EvTerminated _ _ => False | _ => True end) evs.
Proof.
  intros (H1 & H2 & H3) Ho H. unfold register_mapping in H. destruct (find_req m (reqs c)) as [r|] eqn:Ef.
  - apply find_req_some in Ef. destruct Ef as [Hin Em]. destruct (r_listeners r) as [ls|] eqn:El; [|discriminate].
    destruct (existsb _ ls); [inv H; split; [split; auto|constructor]|]. inv H. split; [|repeat constructor].
    split; [|split; [exact H2|exact H3]]. cbn [reqs with_reqs].
    assert (forall r' ls', In r' (upd_req (r_map r) (fun r => mkReq (r_map r) (Some (ls ++ [l])) (r_life r)) (reqs c)) -> r_listeners r' = Some ls' ->
              ls' <> [] /\ Forall (own (r_map r')) ls') as G.
    { clear - H1 Ho El Hin. assert (HI : forall r' ls', In r' (reqs c) -> r_listeners r' = Some ls' -> ls' <> [] /\ Forall (own (r_map r')) ls') by exact H1.
      assert (Hls : Forall (own (r_map r)) (ls ++ [l])) by (apply Forall_app; split; [eapply H1; eauto|constructor; auto]).
      clear H1 Hin. generalize dependent (reqs c). intros q HI. induction q as [|r0 q IH]; intros r' ls' Hi E; [destruct Hi|]. cbn in Hi.
      destruct (r_map r0 =? r_map r)%nat eqn:Er.
      - apply Nat.eqb_eq in Er. destruct Hi as [<-|Hi]; [|apply HI; auto; right; auto]. cbn in E. injection E as <-. cbn.
        split; [destruct ls; discriminate|]. rewrite Er. exact Hls.
      - destruct Hi as [<-|Hi]; [apply HI; auto; left; auto|]. apply IH; auto. intros; apply HI; auto. right; auto. }
    intros r' ls' Hi E. apply (G r' ls'); auto.
    assert (upd_req (r_map r) (fun r1 => mkReq (r_map r1) (Some (ls ++ [l])) (r_life r1)) (reqs c) =
            upd_req (r_map r) (fun r1 => mkReq (r_map r) (Some (ls ++ [l])) (r_life r1)) (reqs c)) as ->; [|exact Hi].
    generalize (reqs c). intros q. clear. induction q as [|r0 q IH]; cbn; auto. destruct (r_map r0 =? r_map r)%nat eqn:Er; [|congruence].
    apply Nat.eqb_eq in Er. rewrite Er. reflexivity.
  - inv H. split.
    + split; [|split; [exact H2|exact H3]]. intros r ls Hi E. cbn in Hi. apply in_app_or in Hi. destruct Hi as [Hi|[<-|[]]]; [eapply H1; eauto|].
      cbn in E. injection E as <-. cbn. split; [discriminate|]. constructor; auto.
    + constructor; [exact I|]. constructor; [exact I|]. destruct (send && _); repeat constructor.
Qed.

Lemma set_last_in d v l k x : In (k, x) (set_dep_last d v l) -> exists old, In (k, (old, snd x)) l.
Proof.
  induction l as [|[j [old li]] l IH]; cbn; [tauto|]. destruct (j =? d)%nat.
  - intros [E|H]; [injection E as <- <-; cbn; eauto|destruct x as [y z]; cbn; eauto].
  - intros [E|H]; [injection E as <- <-; cbn; eauto|]. destruct (IH H) as (o & Ho); eauto.
Qed.

Lemma find_dep_in d l x : find_dep d l = Some x -> In (d, x) l.
Proof. induction l as [|[k y] l IH]; cbn; [discriminate|]. destruct (k =? d)%nat eqn:E; [apply Nat.eqb_eq in E; intros H; inv H; auto|auto]. Qed.

Lemma notify_own c now m l c' evs : LI c -> own m l -> notify c now m l = Ok (c', evs) ->
  LI c' /\ Forall ev_own evs /\ (forall k u, track k u evs = if (k =? m)%nat then val (maps c m) else u).
Proof.
  intros HL Ho H. unfold notify in H.
  assert (Hone : LI c /\ Forall ev_own [EvChanged l m (val (maps c m))] /\
    (forall k u, track k u [EvChanged l m (val (maps c m))] = if (k =? m)%nat then val (maps c m) else u)).
  { split; auto. split; [repeat constructor; exact Ho|]. intros k u. cbn. rewrite Nat.eqb_sym. reflexivity. }
  destruct l as [x|d]; [inv H; auto|]. destruct (find_dep d (deps c)) as [[last inner]|] eqn:Ef; [|inv H; auto].
  destruct (value_eqb _ _); [inv H; auto|]. clear Hone.
  apply find_dep_in in Ef. destruct (proj1 (proj2 HL) _ _ _ Ef) as (x & -> & Hx). cbn [option_map] in H.
  destruct (register_mapping _ now d _ true) as [[c1 e1]|] eqn:Er; [|discriminate]. inv H.
  apply register_own in Er; [|destruct HL as (A & B & C); split; [exact A|split; [|exact C]]|exact Hx].
  - destruct Er as [L1 F1]. split; [exact L1|]. split.
    + constructor; [exact Ho|]. eapply Forall_impl; [|exact F1]. intros e He; destruct e; auto; contradiction.
    + intros k u. change (track k (track1 k u (EvChanged (LDep d) m (val (maps c m)))) e1 = if (k =? m)%nat then val (maps c m) else u).
      rewrite track_quiet; [cbn; rewrite Nat.eqb_sym; reflexivity|]. eapply Forall_impl; [|exact F1]. intros e He; destruct e; auto; contradiction.
  - intros k0 la inn Hi. apply set_last_in in Hi. destruct Hi as (old & Hi). eapply B; eauto.
Qed.
Lemma notify_all_own ls : forall c now m c' evs, LI c -> Forall (own m) ls -> notify_all c now m ls = Ok (c', evs) ->
  LI c' /\ Forall ev_own evs /\ (forall k u, track k u evs = if (k =? m)%nat then (match ls with [] => u | _ => val (maps c m) end) else u).
Proof.
  induction ls as [|l ls IH]; intros c now m c' evs HL Ho H; cbn [notify_all] in H.
  - inv H. split; auto. split; auto. intros k u. cbn. destruct (k =? m)%nat; auto.
  - destruct (notify c now m l) as [[c1 e1]|] eqn:E1; [|discriminate].
    destruct (notify_all c1 now m ls) as [[c2 e2]|] eqn:E2; [|discriminate]. inv H. inv Ho.
    destruct (notify_events _ _ _ _ _ _ E1) as (_ & M1 & _).
    destruct (notify_own _ _ _ _ _ _ HL H1 E1) as (L1 & F1 & T1). destruct (IH _ _ _ _ _ L1 H2 E2) as (L2 & F2 & T2).
    split; auto. split; [apply Forall_app; auto|]. intros k u. rewrite track_app, T1, T2, M1.
    destruct (k =? m)%nat; auto. destruct ls; auto.
Qed.

Lemma LI_upd c m x : LI c -> depends x = depends (maps c m) \/ depends x = None -> LI (with_maps c (upd (maps c) m x)).
Proof.
  intros (A & B & C) Hd. split; [exact A|]. split; [exact B|]. intros d p. cbn. unfold upd. destruct (d =? m)%nat eqn:E; auto.
  apply Nat.eqb_eq in E. subst. destruct Hd as [->| ->]; [auto|discriminate].
Qed.
Lemma upd_val c m x k : val (upd (maps c) m x k) = if (k =? m)%nat then val x else val (maps c k).
Proof. unfold upd. destruct (k =? m)%nat; auto. Qed.
Lemma upd_same f m x : upd f m x m = x. Proof. unfold upd. rewrite Nat.eqb_refl. reflexivity. Qed.

Lemma parse_val m x m' b : parse m x = Ok (m', b) -> result_finished m' = false \/ b = false -> val m' = val m.
Proof.
  intros H Hf. unfold parse, parse_two, parse_plain in H.
  assert (result_finished m' = false -> two_part m' = true /\ value_1 m' <> None) as Hv.
  { unfold result_finished. destruct (two_part m'); [|discriminate]. destruct (value_1 m'); [|discriminate]. split; [auto|discriminate]. }
  repeat match type of H with
  | context [if ?b then _ else _] => destruct b eqn:?
  | context [match ?t with _ => _ end] => destruct t eqn:?; try discriminate
  end; try discriminate; inv H; auto; destruct Hf as [Hf|Hf]; try discriminate; apply Hv in Hf; destruct Hf as [A B]; cbn in *; try congruence.
Qed.

Lemma upd_req_own c m : LI c -> LI (with_reqs c (upd_req m (fun r => mkReq m None (r_life r)) (reqs c))).
Proof.
  intros (A & B & C). split; [|split; auto]. cbn [reqs with_reqs]. generalize dependent (reqs c). intros q A. induction q as [|r0 q IH]; cbn; [tauto|].
  intros r ls Hi E. destruct (r_map r0 =? m)%nat.
  - destruct Hi as [<-|Hi]; [discriminate|]. eapply A; [right; eauto|auto].
  - destruct Hi as [<-|Hi]; [eapply A; [left; eauto|auto]|]. eapply IH; eauto. intros; eapply A; [right; eauto|auto].
Qed.

Lemma parse_request_own c now i x c1 e1 p1 : LI c -> parse_request c now i x = Ok (c1, e1, p1) ->
  LI c1 /\ Forall ev_own e1 /\ forall k, val (maps c1 k) = track k (val (maps c k)) e1.
Proof.
  intros HL H. unfold parse_request in H.
  assert (Hid : LI c /\ Forall ev_own [] /\ forall k, val (maps c k) = track k (val (maps c k)) []) by (split; auto).
  destruct (nth_error (reqs c) i) as [r|] eqn:En; [|inv H; auto]. apply nth_error_In in En.
  destruct (negb _); [inv H; auto|]. destruct (r_listeners r) as [ls|] eqn:El; [|inv H; auto].
  destruct (parse _ x) as [[m' [|]]|] eqn:Ep; [|inv H; auto|discriminate]. clear Hid.
  destruct (parse_fields _ _ _ _ Ep) as (_ & Fd & _).
  assert (LI (with_maps c (upd (maps c) (r_map r) m'))) as HL1 by (apply LI_upd; auto).
  destruct (result_finished m') eqn:Ef; cbn [negb] in H.
  - destruct (notify_all _ now (r_map r) ls) as [[c3 ev]|] eqn:Ea; [|discriminate].
    destruct (proj1 HL _ _ En El) as [Hne Hown].
    destruct (notify_all_own _ _ _ _ _ _ HL1 Hown Ea) as (L3 & F3 & T3). destruct (notify_all_events _ _ _ _ _ _ Ea) as (_ & M & _).
    assert (Hval : forall k, val (maps c3 k) = track k (val (maps c k)) ev).
    { intros k. rewrite T3, M. cbn [maps with_maps]. rewrite upd_val. destruct (k =? r_map r)%nat eqn:E; auto.
      rewrite upd_same. destruct ls; congruence. }
    destruct (r_life r); inv H; [|auto]. split; [apply upd_req_own; auto|]. split; [apply Forall_app; split; auto; repeat constructor|].
    intros k. rewrite track_app. cbn. apply Hval.
  - inv H. split; auto. split; auto. intros k. cbn. rewrite upd_val. destruct (k =? r_map r)%nat eqn:E; auto. apply Nat.eqb_eq in E. subst.
    eapply parse_val; eauto.
Qed.
Lemma loop_own n : forall c1 now i x c2 e2 p2 f2, LI c1 -> receive_loop n c1 now i x = Some (Ok (c2, e2, p2, f2)) ->
  LI c2 /\ Forall ev_own e2 /\ forall k, val (maps c2 k) = track k (val (maps c1 k)) e2.
Proof.
  induction n as [|n IH]; intros c1 now i x c2 e2 p2 f2 HL H; cbn in H; [discriminate|].
  destruct (length (reqs c1) <=? i)%nat; [inv H; auto|].
  destruct (parse_request c1 now i x) as [[[c3 e3] p3]|] eqn:Ep; [|discriminate].
  destruct (receive_loop n c3 now (S i) x) as [[[[[c4 e4] p4] f4]|]|] eqn:El; try discriminate. inv H.
  destruct (parse_request_own _ _ _ _ _ _ _ HL Ep) as (L3 & F3 & T3). destruct (IH _ _ _ _ _ _ _ _ L3 El) as (L4 & F4 & T4).
  split; auto. split; [apply Forall_app; auto|]. intros k. rewrite track_app, <- T3. apply T4.
Qed.

Lemma terminated_track m ls : forall f k, val (fold_left (fun f l => terminated f m l) ls f k) = track k (val (f k)) (map (fun l => EvTerminated l m) ls).
Proof.
  induction ls as [|l ls IH]; intros f k; [reflexivity|]. cbn [fold_left map]. rewrite IH.
  change (track k ?u (?e :: ?l)) with (track k (track1 k u e) l). f_equal.
  destruct l as [[i b]|d]; cbn; auto. destruct b; cbn; [|rewrite andb_false_r; auto]. unfold upd. rewrite Nat.eqb_sym.
  destruct (m =? k)%nat eqn:E; cbn; auto.
Qed.
Lemma expire_own l : forall f now f' l' ev, expire f now l = (f', l', ev) ->
  (forall r ls, In r l -> r_listeners r = Some ls -> ls <> [] /\ Forall (own (r_map r)) ls) ->
  (forall r ls, In r l' -> r_listeners r = Some ls -> ls <> [] /\ Forall (own (r_map r)) ls) /\ Forall ev_own ev /\
  forall k, val (f' k) = track k (val (f k)) ev.
Proof.
  induction l as [|r l IH]; intros f now f' l' ev H HL; cbn in H; [inv H; auto|].
  set (t := match r_life r with None => _ | Some _ => _ end) in H. destruct t as [[f1 r1] e1] eqn:Et. subst t.
  destruct (expire f1 now l) as [[f2 rs] e2] eqn:E2. inv H.
  assert (forall ls, r_listeners r = Some ls -> ls <> [] /\ Forall (own (r_map r)) ls) as Hr by (intros; apply HL; auto; left; auto).
  assert ((forall ls, r_listeners r1 = Some ls -> ls <> [] /\ Forall (own (r_map r1)) ls) /\ Forall ev_own e1 /\ forall k, val (f1 k) = track k (val (f k)) e1) as (A & B & C).
  { destruct (r_life r) as [p|]; [|inv Et; auto]. destruct (p_exceeded p now) as [ex p']. destruct ex.
    - destruct (r_listeners r) as [ls|] eqn:El.
      + inv Et. split; [discriminate|]. destruct (Hr ls eq_refl) as [_ Ho]. split.
        * apply Forall_app. split; [|repeat constructor]. apply Forall_forall. intros e He. apply in_map_iff in He. destruct He as (y & <- & Hy).
          cbn. rewrite Forall_forall in Ho. auto.
        * intros k. rewrite track_app. cbn. apply terminated_track.
      + inv Et. split; [discriminate|]. auto.
    - inv Et. cbn. auto. }
  destruct (IH _ _ _ _ _ E2) as (A2 & B2 & C2); [intros; apply HL; auto; right; auto|].
  split; [|split; [apply Forall_app; auto|]].
  - intros r' ls [<-|Hi] E; auto.
  - intros k. rewrite track_app, <- C. apply C2.
Qed.

Lemma cstep_own bi c o c' ev : LI c ->
  match o with Register _ k l | Request _ k l => exists x, l = Some x /\ mine k x | Receive _ _ | Set_ _ _ _ => True | _ => False end ->
  cstep bi c o = Ok (c', ev) ->
  LI c' /\ Forall ev_own ev /\ (forall k, val (maps c' k) = track k (val (maps c k)) ev) /\
  match o with
  | Register _ _ _ | Request _ _ _ => Forall (fun e => match e with EvChanged _ _ _ | EvTerminated _ _ => False | _ => True end) ev
  | Set_ _ m _ => Forall (fun e => match e with EvChanged _ k _ => k = m | EvTerminated _ _ => False | _ => True end) ev
  | _ => True
  end.
Proof.
  intros HL Ho H. assert (Hq : forall e, Forall (fun e => match e with EvChanged _ _ _ | EvTerminated _ _ => False | _ => True end) e ->
     Forall ev_own e /\ forall k u, u = track k u e).
  { intros e F. split; [eapply Forall_impl; [|exact F]; intros x Hx; destruct x; auto; contradiction|].
    intros k u. symmetry. apply track_quiet. eapply Forall_impl; [|exact F]; intros x Hx; destruct x; auto; contradiction. }
  destruct o as [now k l|now k l|now x|now k a| |k v]; cbn in H; try contradiction.
  - destruct Ho as (x & -> & Hx). unfold register in H. set (c1 := if bi k then _ else c) in *.
    assert (LI c1 /\ forall j, val (maps c1 j) = val (maps c j)) as [L1 V1].
    { unfold c1. destruct (bi k); auto. split; [apply LI_upd; auto|]. intros j. cbn. rewrite upd_val. destruct (j =? k)%nat eqn:E; auto. apply Nat.eqb_eq in E; subst; reflexivity. }
    destruct (negb _ && _).
    + destruct (register_deps _ _ _ _ _ _ _ H) as [_ M]. apply register_own in H; auto. destruct H as [L2 F2]. destruct (Hq _ F2) as [F3 T3].
      split; auto. split; auto. split; [|exact F2]. intros j. rewrite M, V1. apply T3.
    + inv H. auto.
  - destruct Ho as (x & -> & Hx). unfold request_param in H. destruct (negb _ || negb _); [inv H; split; auto|].
    destruct (depends (maps c k)) as [p|] eqn:Ed.
    + destruct (register_deps _ _ _ _ _ _ _ H) as [_ M].
      assert (maps c' = maps c) as M'. { rewrite M. destruct (find_dep k (deps c)); reflexivity. }
      apply register_own in H.
      * destruct H as [L2 F2]. destruct (Hq _ F2) as [F3 T3]. split; auto. split; auto. split; [|exact F2]. intros j. rewrite M'. apply T3.
      * destruct (find_dep k (deps c)); auto. destruct HL as (A & B & C). split; auto. split; auto. cbn. intros d last inner Hi.
        apply in_app_or in Hi. destruct Hi as [Hi|[E|[]]]; [eapply B; eauto|]. injection E as <- <- <-. eauto.
      * cbn. apply HL. exact Ed.
    + destruct (register_deps _ _ _ _ _ _ _ H) as [_ M]. apply register_own in H; auto. destruct H as [L2 F2]. destruct (Hq _ F2) as [F3 T3].
      split; auto. split; auto. split; [|exact F2]. intros j. rewrite M. apply T3.
  - destruct (receive c now x) as [[[c1 e1]|]|] eqn:E; try discriminate. inv H.
    unfold receive in E. destruct (timeouts c now) as [c1 e1] eqn:Et.
    assert (LI c1 /\ Forall ev_own e1 /\ forall k, val (maps c1 k) = track k (val (maps c k)) e1) as (L1 & F1 & T1).
    { unfold timeouts in Et. destruct (p_exceeded (clean c) now) as [ex p]. destruct ex; [|inv Et; auto].
      cbn [maps reqs with_clean] in Et. destruct (expire (maps c) now (reqs c)) as [[f rs] e0] eqn:Ee. inv Et.
      pose proof Ee as Ee'. apply expire_own in Ee; [|apply HL]. destruct Ee as (A & B & C). split; [|split; auto].
      split; [|split; [apply HL|]].
      - intros r ls Hi. cbn in Hi. unfold cleanup_requests in Hi. apply filter_In in Hi. destruct Hi. eauto.
      - intros d p0 Hd. cbn in Hd. destruct (expire_val _ _ _ _ _ _ d Ee') as (v & Ev). rewrite Ev in Hd. apply HL. exact Hd. }
    destruct x as [x|]; [|inv E; auto].
    destruct (receive_loop _ c1 now 0 x) as [[[[[c2 e2] p2] f2]|]|] eqn:El; try discriminate. inv E.
    apply loop_own in El; auto. destruct El as (L2 & F2 & T2). split; [|split; [|split; [|exact I]]].
    + destruct f2; auto. destruct L2 as (A & B & C). split; [|split; auto]. intros r ls Hi. cbn in Hi. unfold cleanup_requests in Hi.
      apply filter_In in Hi. destruct Hi. eauto.
    + apply Forall_app. split; auto. apply Forall_app. split; auto. destruct p2; repeat constructor.
    + intros k. rewrite !track_app. replace (track k _ (if p2 then [] else [EvUnused x])) with (track k (track k (val (maps c k)) e1) e2) by (destruct p2; reflexivity).
      rewrite <- T1, <- T2. destruct f2; reflexivity.
  - destruct (set_param_shape _ _ _ _ _ _ _ H) as (c1 & e1 & H1 & H2).
    assert (LI c1 /\ reqs c1 = reqs c /\ (forall j, val (maps c1 j) = val (maps c j)) /\ Forall (fun e => match e with EvSet _ _ => True | _ => False end) e1) as (L1 & R1 & V1 & E1).
    { destruct H1 as [(_ & -> & ->)|(m' & _ & Es & -> & ->)]; auto.
      assert (depends m' = depends (maps c k) /\ val m' = val (maps c k)) as [D V].
      { unfold set_value in Es.
        repeat match type of Es with
        | context [match ?t with _ => _ end] => destruct t; try discriminate
        end; inv Es; auto. }
      split; [apply LI_upd; auto|]. split; auto. split; [|repeat constructor]. intros j. cbn. rewrite upd_val. destruct (j =? k)%nat eqn:E; auto. apply Nat.eqb_eq in E. subst. auto. }
    assert (Hq1 : Forall (fun e => match e with EvChanged _ _ _ | EvTerminated _ _ => False | _ => True end) e1) by (eapply Forall_impl; [|exact E1]; intros e He; destruct e; auto).
    destruct (Hq _ Hq1) as [F1 T1].
    destruct H2 as [(_ & -> & ->)|(_ & r & ls & z & e2 & Er & El & -> & -> & Hn)].
    + split; auto. split; auto. split; [intros j; rewrite V1; apply T1|]. eapply Forall_impl; [|exact E1]. intros e He; destruct e; auto; contradiction.
    + apply find_req_some in Er. destruct Er as [Hi Em]. destruct (proj1 HL _ _ Hi El) as [Hne Hown]. rewrite Em in Hown.
      destruct (notify_all_events _ _ _ _ _ _ Hn) as (F & M & _). apply notify_all_own in Hn; [|apply LI_upd; auto|exact Hown].
      destruct Hn as (L3 & F3 & T3). split; auto. split; [apply Forall_app; auto|]. split.
      * intros j. rewrite track_app, <- T1, T3, M. cbn [maps with_maps]. rewrite upd_val. destruct (j =? k)%nat; [|apply V1].
        rewrite upd_same. destruct ls; congruence.
      * apply Forall_app. split; [eapply Forall_impl; [|exact E1]; intros e He; destruct e; auto; contradiction|].
        eapply Forall_impl; [|exact F]. intros e He; destruct e; cbn in He; auto. apply He.
Qed.

Lemma init_LI lt : LI (init_client maps0 lt).
Proof. split; [|split]; cbn; auto; intros; contradiction. Qed.
End Own.
