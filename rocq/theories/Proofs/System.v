From Verif.Lib Require Import Base.
From Verif.Model Require Import Midi Period Mapping Client Switch PushButton BinaryCb System.
From Verif.Spec Require Import Mapping Client ClientSafe BinaryCb System.
From Verif.Proofs Require Import Client ClientOps ClientDep ClientProps ClientSafe SystemClient.
Open Scope Z_scope.

Lemma lit_after_app a b e1 e2 : lit_after a b (e1 ++ e2) = lit_after a (lit_after a b e1) e2.
Proof. unfold lit_after. apply fold_left_app. Qed.
Lemma sent_app m e1 e2 : sent m (e1 ++ e2) = sent m e1 ++ sent m e2.
Proof. unfold sent. apply flat_map_app. Qed.
Lemma fupd_same {A} (f : nat -> A) k x : fupd f k x k = x.
Proof. unfold fupd. rewrite Nat.eqb_refl. reflexivity. Qed.
Lemma fupd_other {A} (f : nat -> A) k x j : j <> k -> fupd f k x j = f j.
Proof. intros H. unfold fupd. apply Nat.eqb_neq in H. rewrite H. reflexivity. Qed.

Section Sys.
Variable g : ycfg.

(* what is shown agrees with the remembered display state (W), and with the action's state (J) *)
Definition W (a : nat) (x : bstate) (lit : bool) : Prop :=
  match b_disp x with Some d => lit = d && bc_live (a_cb (y_action g a)) | None => lit = false end.
Definition J (a : nat) (x : bstate) (lit : bool) : Prop :=
  W a x lit /\ match b_disp x with Some d => d = b_on x /\ b_cur x <> None | None => b_on x = false end.
Lemma J_lit a x lit : J a x lit -> lit = b_on x && bc_live (a_cb (y_action g a)).
Proof. unfold J, W. destruct (b_disp x) as [d|]; intros [H1 H2]; [destruct H2|rewrite H2]; subst; auto. Qed.

Lemma update_J a x v lit x' ev : W a x lit \/ b_disp x = None -> update_displays (a_cb (y_action g a)) x v (a_color (y_action g a)) = (x', ev) ->
  J a x' (lit_after a lit (flat_map (fun e => match e with EShow c l _ => [YShow a c l] | _ => [] end) ev)) /\ b_disp x' <> None.
Proof.
  intros HW H. unfold update_displays in H.
  set (x1 := match b_cur x with Some _ => _ | None => _ end) in H.
  assert (b_disp x1 = b_disp x /\ b_cur x1 <> None) as [Ed Ec].
  { unfold x1. destruct (b_cur x) as [o|] eqn:E0; [destruct (opt_eqb v o)|]; cbn; split; congruence. }
  assert (b_disp x <> None -> W a x1 lit) as HW1 by (intros Hd; unfold W in *; rewrite Ed; destruct HW as [HW|HW]; [exact HW|contradiction]).
  rewrite <- Ed in HW1. clear HW Ed. clearbody x1. destruct (negb _ || negb _) eqn:E; injection H as <- <-.
  - unfold J, W. cbn. rewrite Nat.eqb_refl. split; [split; auto|discriminate].
  - cbn. apply orb_false_elim in E. destruct E as [_ E]. apply negb_false_iff in E. unfold J, W in *.
    destruct (b_disp x1) as [d|]; [|discriminate]. apply Bool.eqb_prop in E. split; [|discriminate]. split; [apply HW1; discriminate|auto].
Qed.

Lemma remember_list_fixed v l zs : all_some l = Some zs -> forall l', remember_list v l l' = l'.
Proof.
  revert zs. induction l as [|[x|] l IH]; cbn; intros zs H l'; [reflexivity| |discriminate].
  destruct (all_some l) as [ys|]; [|discriminate]. destruct l' as [|y l']; auto. rewrite (IH ys); auto.
Qed.
Lemma remember_fixed c v x : fixed_off (bc_disable c) = Some v -> b_off x = bc_disable c -> forall z, remember (bc_disable c) (b_off x) z = bc_disable c.
Proof.
  intros H E z. rewrite E. unfold remember, fixed_off in *. destruct (bc_disable c) as [[y|]|l]; auto; [discriminate|].
  destruct (all_some l) as [zs|] eqn:Ea; [|discriminate]. rewrite (remember_list_fixed _ _ _ Ea). reflexivity.
Qed.
Lemma update_off a x v x' ev w : fixed_off (bc_disable (a_cb (y_action g a))) = Some w -> b_off x = bc_disable (a_cb (y_action g a)) ->
  update_displays (a_cb (y_action g a)) x v (a_color (y_action g a)) = (x', ev) -> b_off x' = bc_disable (a_cb (y_action g a)).
Proof.
  intros Hf Ho H. unfold update_displays in H.
  set (x1 := match b_cur x with Some _ => _ | None => _ end) in H.
  assert (b_off x1 = bc_disable (a_cb (y_action g a))) as Ed.
  { unfold x1, evaluate_value. destruct (b_cur x); [destruct (opt_eqb v o); [exact Ho|]|];
      cbn [b_off b_on]; (destruct (evaluate _ _ v); [exact Ho|]); (destruct v; [|exact Ho]); eapply remember_fixed; eauto. }
  clearbody x1. destruct (negb _ || negb _); injection H as <- <-; exact Ed.
Qed.

(* Everything that is kept by showing and delivering: client, switches, periods, consistency of the display, off value. *)
Record keeps (s s' : sys) (e : list yevent) : Prop := mkKeeps {
  k_sw : y_sw s' = y_sw s;
  k_per : forall a, a_period (y_act s' a) = a_period (y_act s a);
  k_W : forall a lit, W a (a_b (y_act s a)) lit -> W a (a_b (y_act s' a)) (lit_after a lit e);
  k_J : forall a lit, J a (a_b (y_act s a)) lit -> J a (a_b (y_act s' a)) (lit_after a lit e);
  k_off : forall a w, fixed_off (bc_disable (a_cb (y_action g a))) = Some w -> b_off (a_b (y_act s a)) = bc_disable (a_cb (y_action g a)) ->
     b_off (a_b (y_act s' a)) = bc_disable (a_cb (y_action g a));
  k_disp : forall a, b_disp (a_b (y_act s a)) <> None -> b_disp (a_b (y_act s' a)) <> None
}.
Lemma keeps_refl s : keeps s s [].
Proof. constructor; auto. Qed.
Lemma keeps_trans s1 s2 s3 e1 e2 : keeps s1 s2 e1 -> keeps s2 s3 e2 -> keeps s1 s3 (e1 ++ e2).
Proof.
  intros [A1 A2 A3 A4 A5 A6] [B1 B2 B3 B4 B5 B6]. constructor.
  - congruence.
  - intros a. rewrite B2. apply A2.
  - intros a lit H. rewrite lit_after_app. auto.
  - intros a lit H. rewrite lit_after_app. auto.
  - intros a w Hf Ho. eapply B5; eauto.
  - auto.
Qed.
Lemma show_events a ev : forall k, k <> a -> forall lit,
  lit_after k lit (flat_map (fun e => match e with EShow c l _ => [YShow a c l] | _ => [] end) ev) = lit.
Proof.
  intros k Hk. apply Nat.eqb_neq in Hk. rewrite Nat.eqb_sym in Hk.
  induction ev as [|e ev IH]; intros lit; cbn [flat_map]; [reflexivity|]. rewrite lit_after_app, IH.
  destruct e; try reflexivity. cbn. rewrite Hk. reflexivity.
Qed.
Lemma show_sent a m ev : sent m (flat_map (fun e => match e with EShow c l _ => [YShow a c l] | _ => [] end) ev) = [].
Proof. induction ev as [|e ev IH]; [reflexivity|]. cbn [flat_map]. rewrite sent_app, IH. destruct e; reflexivity. Qed.

Lemma act_show_keeps s k v s' e : act_show g s k v = (s', e) ->
  keeps s s' e /\ y_cl s' = y_cl s /\ (forall m, sent m e = []) /\
  (forall lit, W k (a_b (y_act s k)) lit \/ b_disp (a_b (y_act s k)) = None -> J k (a_b (y_act s' k)) (lit_after k lit e)) /\
  b_disp (a_b (y_act s' k)) <> None.
Proof.
  unfold act_show. intros H. destruct (update_displays _ _ _ _) as [b ev] eqn:E. injection H as <- <-.
  assert (HJ : forall lit, W k (a_b (y_act s k)) lit \/ b_disp (a_b (y_act s k)) = None -> J k b (lit_after k lit (flat_map (fun e => match e with EShow c l _ => [YShow k c l] | _ => [] end) ev)))
    by (intros lit Hl; eapply update_J; eauto).
  assert (HD : b_disp b <> None).
  { assert (W k (a_b (y_act s k)) (match b_disp (a_b (y_act s k)) with Some d => d && bc_live (a_cb (y_action g k)) | None => false end)) as Hw by (unfold W; destruct (b_disp (a_b (y_act s k))); auto).
    eapply update_J; [left; exact Hw|exact E]. }
  split; [|split; [reflexivity|split; [intros m; apply show_sent|]]].
  - constructor; [reflexivity|..]; intros a; cbn; destruct (Nat.eq_dec a k) as [->|Hn]; rewrite ?fupd_same, ?(fupd_other _ _ _ _ Hn); cbn [a_b a_period]; auto.
    + intros lit H. apply (HJ lit (or_introl H)).
    + intros lit H. rewrite (show_events k ev a Hn). exact H.
    + intros lit [H _]. auto.
    + intros lit H. rewrite (show_events k ev a Hn). exact H.
    + intros w Hf Ho. eapply update_off; eauto.
  - split; [intros lit Hw|]; cbn; rewrite fupd_same; cbn [a_b]; auto.
Qed.

Lemma deliver_keeps arg evs : forall s s' e, deliver g arg s evs = (s', e) ->
  keeps s s' e /\ y_cl s' = y_cl s /\ (forall m, sent m e = flat_map (fun x => match x with EvSet k w => if (k =? m)%nat then [w] else [] | _ => [] end) evs).
Proof.
  induction evs as [|x evs IH]; intros s s' e H; cbn [deliver] in H.
  - injection H as <- <-. split; [apply keeps_refl|auto].
  - destruct (deliver1 g arg s x) as [s1 o1] eqn:E1. destruct (deliver g arg s1 evs) as [s2 o2] eqn:E2. injection H as <- <-.
    destruct (IH _ _ _ E2) as (K2 & C2 & S2).
    assert (keeps s s1 o1 /\ y_cl s1 = y_cl s /\ forall m, sent m o1 = match x with EvSet k w => if (k =? m)%nat then [w] else [] | _ => [] end) as (K1 & C1 & S1).
    { destruct x; cbn [deliver1] in E1; try (injection E1 as <- <-; split; [apply keeps_refl|split; reflexivity]).
      - injection E1 as <- <-. split; [constructor; auto|]. split; [reflexivity|]. reflexivity.
      - injection E1 as <- <-. split; [constructor; auto|]. split; [reflexivity|]. intros k. cbn. apply app_nil_r.
      - destruct l as [x|]; [|injection E1 as <- <-; split; [apply keeps_refl|split; reflexivity]].
        destruct (act_show_keeps _ _ _ _ _ E1) as (K & C & S & _ & _). auto.
      - destruct l as [x|]; [|injection E1 as <- <-; split; [apply keeps_refl|split; reflexivity]].
        destruct (act_show_keeps _ _ _ _ _ E1) as (K & C & S & _ & _). auto. }
    split; [eapply keeps_trans; eauto|]. split; [congruence|]. intros m. rewrite sent_app, S1, S2. cbn [flat_map]. reflexivity.
Qed.

Definition set_events (m : mid) (evs : list event) : list (list msg) :=
  flat_map (fun x => match x with EvSet k w => if (k =? m)%nat then [w] else [] | _ => [] end) evs.

Lemma call_keeps s o s' e : call g s o = Ok (s', e) -> exists c evs, cstep (y_bi g) (y_cl s) o = Ok (c, evs) /\
  keeps s s' e /\ y_cl s' = c /\ (forall m, sent m e = set_events m evs).
Proof.
  unfold call. intros H. destruct (cstep (y_bi g) (y_cl s) o) as [[c evs]|] eqn:E; [|discriminate]. exists c, evs. split; auto.
  injection H as H. destruct (deliver_keeps _ _ _ _ _ H) as (K & C & S). split; [|split; [exact C|exact S]].
  destruct K as [A1 A2 A3 A4 A5 A6]. constructor; auto.
Qed.

(* set messages of the client's calls *)
Lemma no_sets m evs : Forall (fun x => match x with EvSet _ _ => False | _ => True end) evs -> set_events m evs = [].
Proof. induction 1 as [|x evs Hx H IH]; [reflexivity|]. unfold set_events in *. cbn. rewrite IH. destruct x; auto. contradiction. Qed.
Lemma call_sets c o c' evs m : cstep (y_bi g) c o = Ok (c', evs) ->
  set_events m evs = match o with
    | Set_ _ k v => if (k =? m)%nat && truthy (set_t (maps c k)) then [wire (set_t (fst (set_value (maps c k) v)))] else []
    | _ => []
    end.
Proof.
  intros H. destruct o as [now k l|now k l|now x|now k v| |k v]; cbn in H.
  - apply no_sets. unfold register in H. destruct (negb _ && _); [|inv H; auto]. apply register_events in H.
    eapply Forall_impl; [|exact H]. intros x Hx; destruct x; cbn in Hx; tauto.
  - apply no_sets. unfold request_param in H. destruct (negb _ || negb _); [inv H; auto|].
    destruct (depends (maps c k)); apply register_events in H; (eapply Forall_impl; [|exact H]); intros x Hx; destruct x; cbn in Hx; tauto.
  - apply no_sets. destruct (receive c now x) as [[[c1 e1]|]|] eqn:E; try discriminate. injection H as -> ->.
    apply receive_events in E. eapply Forall_impl; [|exact E]. intros y Hy; destruct y; auto. destruct Hy as (? & _ & []).
  - destruct (set_param_shape _ _ _ _ _ _ _ H) as (c1 & e1 & H1 & H2).
    assert (set_events m evs = set_events m e1) as ->.
    { destruct H2 as [(_ & _ & ->)|(_ & r & ls & z & e2 & _ & _ & _ & -> & Hn)]; auto.
      unfold set_events. rewrite flat_map_app. fold (set_events m e1) (set_events m e2). rewrite (no_sets m e2); [apply app_nil_r|].
      destruct (notify_all_events _ _ _ _ _ _ Hn) as [F _]. eapply Forall_impl; [|exact F]. intros y Hy; destruct y; auto. }
    destruct H1 as [(Et & _ & ->)|(m' & Et & Es & _ & ->)]; rewrite Et; cbn; [rewrite andb_false_r; reflexivity|].
    rewrite Es. rewrite andb_true_r, app_nil_r. reflexivity.
  - apply no_sets. destruct (connection_lost _ _ _) as [[f e]|] eqn:E; [|discriminate]. injection H as _ <-.
    rewrite (lost_shape _ _ _ _ _ E). apply Forall_flat_map, Forall_forall. intros r _. destruct (y_bi g (r_map r)); auto.
    destruct (r_listeners r); auto. apply Forall_forall. intros y Hy. apply in_map_iff in Hy. destruct Hy as (? & <- & _). exact I.
  - apply no_sets. inv H. constructor.
Qed.

(* ---- what a client call can do to a mapping ---- *)

Section Maps.
Variable R : mapping -> mapping -> Prop.
Hypothesis Rrefl : forall x, R x x.
Hypothesis Rtrans : forall x y z, R x y -> R y z -> R x z.
Hypothesis Rval : forall x v, R x (with_val x v).
Hypothesis Rval1 : forall x v, R x (with_value_1 x v).
Hypothesis Rreq : forall x, R x (without_request x).
Hypothesis Rset : forall x a x', set_value x a = (x', true) -> R x x'.

Lemma R_upd f k x m : R (f k) x -> R (f m) (upd f k x m).
Proof. intros H. unfold upd. destruct (m =? k)%nat eqn:E; auto. apply Nat.eqb_eq in E. subst. exact H. Qed.
Lemma R_parse x y m' b : parse x y = Ok (m', b) -> R x m'.
Proof. intros H. destruct (parse_shape _ _ _ _ H) as [(-> & ->)|(-> & [(v & ->)|[(v & ->)|(v & ->)]])]; eauto. Qed.
Lemma R_loop n : forall c1 now i x c2 e2 p2 f2 m, receive_loop n c1 now i x = Some (Ok (c2, e2, p2, f2)) -> R (maps c1 m) (maps c2 m).
Proof.
  induction n as [|n IH]; intros c1 now i x c2 e2 p2 f2 m H; cbn in H; [discriminate|].
  destruct (length (reqs c1) <=? i)%nat; [inv H; auto|].
  destruct (parse_request c1 now i x) as [[[c3 e3] p3]|] eqn:Ep; [|discriminate].
  destruct (receive_loop n c3 now (S i) x) as [[[[[c4 e4] p4] f4]|]|] eqn:El; try discriminate. inv H.
  eapply Rtrans; [|eapply IH; eauto]. clear IH El. unfold parse_request in Ep.
  destruct (nth_error (reqs c1) i) as [r|]; [|inv Ep; auto].
  destruct (negb _); [inv Ep; auto|]. destruct (r_listeners r) as [ls|]; [|inv Ep; auto].
  destruct (parse _ x) as [[m' b]|] eqn:Epp; [|discriminate]. apply R_parse in Epp.
  destruct b; [|inv Ep; auto]. destruct (negb _); [inv Ep; cbn; apply R_upd; auto|].
  destruct (notify_all _ now _ ls) as [[c5 ev5]|] eqn:Ea; [|discriminate]. destruct (notify_all_events _ _ _ _ _ _ Ea) as (_ & M & _).
  destruct (r_life r); inv Ep; cbn [maps with_reqs]; rewrite M; cbn; apply R_upd; auto.
Qed.
Lemma cstep_maps bi c o c' ev m : cstep bi c o = Ok (c', ev) -> R (maps c m) (maps c' m).
Proof.
  intros H. destruct o as [now k l|now k l|now x|now k a| |k v]; cbn in H.
  - unfold register in H. set (c1 := if bi k then _ else c) in *.
    assert (R (maps c m) (maps c1 m)) as H1 by (unfold c1; destruct (bi k); auto; cbn; apply R_upd; auto).
    destruct (negb _ && _); [|inv H; auto]. destruct (register_deps _ _ _ _ _ _ _ H) as [_ ->]. auto.
  - unfold request_param in H. destruct (negb _ || negb _); [inv H; auto|].
    destruct (depends (maps c k)); destruct (register_deps _ _ _ _ _ _ _ H) as [_ ->]; [|auto]. destruct (find_dep k (deps c)); cbn; auto.
  - destruct (receive c now x) as [[[c1 e1]|]|] eqn:E; try discriminate. inv H.
    unfold receive in E. destruct (timeouts c now) as [c1 e1] eqn:Et. destruct (timeouts_facts _ _ _ _ Et) as (_ & _ & V & _).
    destruct (V m) as (v & Ev). assert (R (maps c m) (maps c1 m)) as E1 by (rewrite Ev; auto).
    destruct x as [x|]; [|inv E; exact E1].
    destruct (receive_loop _ c1 now 0 x) as [[[[[c2 e2] p2] f2]|]|] eqn:El; try discriminate. inv E.
    apply (R_loop _ _ _ _ _ _ _ _ _ m) in El. destruct f2; cbn [maps with_reqs]; eauto.
  - destruct (set_param_shape _ _ _ _ _ _ _ H) as (c1 & e1 & H1 & H2).
    assert (R (maps c m) (maps c1 m)) as E1.
    { destruct H1 as [(_ & -> & _)|(m' & _ & Es & -> & _)]; auto. cbn. apply R_upd. eauto. }
    destruct H2 as [(_ & -> & _)|(_ & r & ls & z & e2 & _ & _ & _ & _ & Hn)]; [auto|].
    destruct (notify_all_events _ _ _ _ _ _ Hn) as (_ & M & _). rewrite M. cbn [maps with_maps]. eapply Rtrans; [exact E1|]. apply R_upd. auto.
  - destruct (connection_lost bi (maps c) (reqs c)) as [[f e]|] eqn:E; [|discriminate]. injection H as <- _. cbn [maps with_maps].
    revert e f E. generalize (maps c). generalize (reqs c). clear - Rrefl Rtrans Rval.
    intros l. induction l as [|r l IH]; intros f0 e f H; cbn in H; [inv H; auto|].
    destruct (bi (r_map r)); [|eapply IH; eauto]. destruct (r_listeners r) as [ls|]; [|discriminate].
    destruct (connection_lost bi _ l) as [[f2 e2]|] eqn:E; [|discriminate]. inv H. eapply Rtrans; [|eapply IH; eauto].
    destruct (notify_terminated_val f0 (r_map r) ls m) as (v & Ev). cbn in Ev. rewrite Ev. auto.
  - inv H. cbn. apply R_upd. auto.
Qed.
Lemma crun_maps bi ops : forall c c' evs m, crun bi c ops = Ok (c', evs) -> R (maps c m) (maps c' m).
Proof.
  induction ops as [|o ops IH]; intros c c' evs m H; cbn in H; [inv H; auto|].
  destruct (cstep bi c o) as [[c1 e1]|] eqn:E; [|discriminate]. destruct (crun bi c1 ops) as [[c2 es]|] eqn:E2; [|discriminate]. inv H.
  eapply Rtrans; [eapply cstep_maps; eauto|eapply IH; eauto].
Qed.
End Maps.

(* The set template keeps its address. *)
Lemma set_nth_app6 (v w : Z) d : length d = 6%nat -> forall e, (2 <= length e)%nat ->
  set_nth 7 v (set_nth 6 w (d ++ e)) = d ++ [w; v] ++ skipn 2 e.
Proof.
  intros Hd e He. destruct d as [|d0 [|d1 [|d2 [|d3 [|d4 [|d5 [|d6 d]]]]]]]; cbn in Hd; try lia.
  destruct e as [|e0 [|e1 e]]; cbn in He; try lia. reflexivity.
Qed.
Lemma skipn_2_6 (l : list Z) : skipn 2 (skipn 6 l) = skipn 8 l.
Proof. do 6 (destruct l as [|? l]; [reflexivity|]). reflexivity. Qed.
Lemma data_set d v : set_nth 7 (v mod 128) (set_nth 6 (v / 128) (pad8 d)) = firstn 6 (pad8 d) ++ [v / 128; v mod 128] ++ skipn 8 d.
Proof.
  rewrite <- (firstn_skipn 6 (pad8 d)) at 1.
  assert (8 <= length (pad8 d))%nat by (unfold pad8; rewrite app_length, repeat_length; lia).
  rewrite set_nth_app6.
  - f_equal. f_equal. rewrite skipn_2_6. unfold pad8. rewrite skipn_app.
    rewrite (skipn_all2 (repeat 0 (8 - length d))); [apply app_nil_r|rewrite repeat_length; lia].
  - rewrite firstn_length. lia.
  - rewrite skipn_length. lia.
Qed.
Lemma set_one_carrying x v x' : set_value_one Numeric x v = Ok x' -> x' = carrying x v.
Proof.
  unfold set_value_one, carrying. destruct x as [| |man d| |]; intros H; try (injection H as <-; reflexivity).
  pose proof (data_set d v) as E. set (D := set_nth 7 _ _) in *. clearbody D.
  destruct (forallb is_byte D); [|discriminate]. injection H as <-. rewrite E. reflexivity.
Qed.
Lemma carrying_carrying x u v : carrying (carrying x u) v = carrying x v.
Proof.
  destruct x as [| |man d| |]; try reflexivity. unfold carrying. f_equal. fold (pad8 d).
  assert (length (firstn 6 (pad8 d)) = 6%nat) as H6.
  { rewrite firstn_length. unfold pad8. rewrite app_length, repeat_length. lia. }
  set (f := firstn 6 (pad8 d)) in *. clearbody f. rewrite !app_length. cbn [length].
  replace (8 - _)%nat with 0%nat by (rewrite H6; lia). cbn [repeat]. rewrite app_nil_r.
  rewrite firstn_app, H6, firstn_all2 by lia. change (6 - 6)%nat with 0%nat. rewrite firstn_O, app_nil_r. f_equal. f_equal.
  rewrite skipn_app, H6. rewrite skipn_all2 by lia. reflexivity.
Qed.
Definition inst (t : tmpl) (x0 : msg) : Prop := exists x, t = TOne x /\ forall v, carrying x v = carrying x0 v.
Lemma set_value_inst m a m' x0 : set_value m a = (m', true) -> inst (set_t m) x0 ->
  inst (set_t m') x0 /\ exists v, a = One v /\ set_t m' = TOne (carrying x0 v).
Proof.
  intros H (x & E & Hc). unfold set_value in H. rewrite E in H. destruct a as [v|vs]; [|discriminate].
  destruct (typ m); [|discriminate]. destruct (set_value_one Numeric x v) as [x'|] eqn:Es; [|discriminate]. injection H as <-. cbn.
  apply set_one_carrying in Es. subst x'. rewrite (Hc v). split; [|eauto].
  exists (carrying x0 v). split; auto. intros w. apply carrying_carrying.
Qed.
Lemma inst_reached bi maps0 lt ops c evs m x0 : reached bi maps0 lt ops c evs -> set_t (maps0 m) = TOne x0 -> inst (set_t (maps c m)) x0.
Proof.
  intros [_ H] E. refine (crun_maps (fun a b => forall x0, inst (set_t a) x0 -> inst (set_t b) x0) _ _ _ _ _ _ _ _ _ _ _ m H x0 _); auto.
  - intros x a x' Hs y Hy. eapply set_value_inst; eauto.
  - cbn. rewrite E. exists x0. auto.
Qed.

(* ---- one client call within the system ---- *)

Variable maps0 : mid -> mapping.
Variable lt : Z.
Definition mine (k : mid) (x : ext) : Prop := exists a, x = listener_of a /\ a_map (y_action g a) = k.
Definition CI (s : sys) : Prop :=
  (exists cops cevs, reached (y_bi g) maps0 lt cops (y_cl s) cevs) /\ LI maps0 mine (y_cl s).
Definition op_ok (o : op) : Prop :=
  match o with Register _ k l | Request _ k l => exists x, l = Some x /\ mine k x | Receive _ _ | Set_ _ _ _ => True | _ => False end.

Lemma call_CI s o s' e : CI s -> op_ok o -> call g s o = Ok (s', e) -> CI s'.
Proof.
  intros [(cops & cevs & Hr) HL] Ho H. destruct (call_keeps _ _ _ _ H) as (c & evs & Hc & _ & Ec & _). split.
  - exists (cops ++ [o]), (cevs ++ [evs]). destruct Hr as [Hn Hr]. split; auto. rewrite (crun_snoc (y_bi g)), Hr, Hc, Ec. reflexivity.
  - rewrite Ec. eapply cstep_own; eauto.
Qed.

Definition quiet (a : nat) (s s' : sys) (e : list yevent) : Prop :=
  y_act s' a = y_act s a /\ (forall lit, lit_after a lit e = lit) /\ sent (a_map (y_action g a)) e = [] /\
  val (maps (y_cl s') (a_map (y_action g a))) = val (maps (y_cl s) (a_map (y_action g a))).
Lemma quiet_refl a s : quiet a s s []. Proof. repeat split. Qed.
Lemma quiet_trans a s1 s2 s3 e1 e2 : quiet a s1 s2 e1 -> quiet a s2 s3 e2 -> quiet a s1 s3 (e1 ++ e2).
Proof.
  intros (A1 & A2 & A3 & A4) (B1 & B2 & B3 & B4). split; [congruence|]. split; [intros; rewrite lit_after_app, A2; auto|].
  split; [rewrite sent_app, A3, B3; reflexivity|congruence].
Qed.

Lemma act_show_other s k v s' e a : a <> k -> act_show g s k v = (s', e) -> y_act s' a = y_act s a /\ forall lit, lit_after a lit e = lit.
Proof.
  unfold act_show. intros Hn H. destruct (update_displays _ _ _ _) as [b ev]. injection H as <- <-. split; [cbn; apply fupd_other; auto|].
  intros lit. apply show_events. auto.
Qed.
Lemma deliver_other arg a evs : Forall (fun e => match e with EvChanged (LExt x) _ _ | EvTerminated (LExt x) _ => x_id x <> a | _ => True end) evs ->
  forall s s' e, deliver g arg s evs = (s', e) -> y_act s' a = y_act s a /\ forall lit, lit_after a lit e = lit.
Proof.
  induction 1 as [|x evs Hx HF IH]; intros s s' e H; cbn [deliver] in H; [injection H as <- <-; auto|].
  destruct (deliver1 g arg s x) as [s1 o1] eqn:E1. destruct (deliver g arg s1 evs) as [s2 o2] eqn:E2. injection H as <- <-.
  destruct (IH _ _ _ E2) as [A2 B2].
  assert (y_act s1 a = y_act s a /\ forall lit, lit_after a lit o1 = lit) as [A1 B1].
  { destruct x; cbn [deliver1] in E1; try (injection E1 as <- <-; split; reflexivity);
      (destruct l as [x|]; [|injection E1 as <- <-; split; reflexivity]).
    all: eapply act_show_other; [|exact E1]; cbn in Hx; auto. }
  split; [congruence|]. intros lit. rewrite lit_after_app, B1. apply B2.
Qed.

Lemma call_quiet s o s' e a : CI s -> op_ok o ->
  match o with Set_ _ k _ => k <> a_map (y_action g a) | Register _ _ _ | Request _ _ _ => True | _ => False end ->
  call g s o = Ok (s', e) -> quiet a s s' e.
Proof.
  intros [_ HL] Ho Hk H. destruct (call_keeps _ _ _ _ H) as (c & evs & Hc & _ & Ec & Es).
  pose proof (call_sets _ _ _ _ (a_map (y_action g a)) Hc) as Hs.
  destruct (cstep_own maps0 mine _ _ _ _ _ HL Ho Hc) as (_ & Fo & Tr & Sh).
  assert (Forall (fun e => match e with EvChanged (LExt x) _ _ | EvTerminated (LExt x) _ => x_id x <> a | _ => True end) evs) as Fx.
  { rewrite Forall_forall in Fo |- *. intros x Hx. specialize (Fo x Hx). destruct o; cbn in Sh; try contradiction;
      rewrite Forall_forall in Sh; specialize (Sh x Hx); destruct x; auto; try contradiction.
    destruct l as [x|]; auto. cbn in Fo. subst. destruct Fo as (k' & -> & Ek). cbn. intros ->. auto. }
  unfold call in H. rewrite Hc in H. injection H as H. destruct (deliver_other _ _ _ Fx _ _ _ H) as [A B].
  split; [exact A|]. split; [exact B|]. split.
  - rewrite Es, Hs. destruct o as [| | |? k ?| |]; auto. apply Nat.eqb_neq in Hk. rewrite Hk. reflexivity.
  - rewrite Ec, Tr. apply track_quiet. rewrite Forall_forall in *. intros x Hx. destruct o; cbn in Sh; try contradiction;
      rewrite Forall_forall in Sh; specialize (Sh x Hx); destruct x; auto; try contradiction. subst. auto.
Qed.

(* ---- performing a command ---- *)

Lemma ask_ok now k : op_ok (Request now (a_map (y_action g k)) (Some (listener_of k))).
Proof. cbn. eexists. split; [reflexivity|]. exists k. auto. Qed.
Lemma perform_ok k now evs : forall s s' e, CI s -> perform g k now s evs = Ok (s', e) ->
  keeps s s' e /\ CI s' /\ forall a, a_map (y_action g k) <> a_map (y_action g a) -> quiet a s s' e.
Proof.
  induction evs as [|x evs IH]; intros s s' e HC H; cbn [perform] in H.
  - injection H as <- <-. split; [apply keeps_refl|]. split; auto. intros; apply quiet_refl.
  - match type of H with match ?t with _ => _ end = _ => destruct t as [[s1 o1]|] eqn:E1 end; [|discriminate].
    destruct (perform g k now s1 evs) as [[s2 o2]|] eqn:E2; [|discriminate]. injection H as <- <-.
    assert (keeps s s1 o1 /\ CI s1 /\ forall a, a_map (y_action g k) <> a_map (y_action g a) -> quiet a s s1 o1) as (K1 & C1 & Q1).
    { destruct x as [dm v| |].
      - pose proof E1 as E1'. apply call_keeps in E1'. destruct E1' as (_ & _ & _ & K & _). split; [exact K|].
        split; [eapply call_CI; [exact HC| |exact E1]; exact I|]. intros a Ha. eapply call_quiet; [exact HC| | |exact E1]; cbn; auto.
      - pose proof E1 as E1'. apply call_keeps in E1'. destruct E1' as (_ & _ & _ & K & _). split; [exact K|].
        split; [eapply call_CI; [exact HC| |exact E1]; apply ask_ok|]. intros a Ha. eapply call_quiet; [exact HC| | |exact E1]; [apply ask_ok|exact I].
      - injection E1 as <- <-. split; [apply keeps_refl|]. split; auto. intros; apply quiet_refl. }
    destruct (IH _ _ _ C1 E2) as (K2 & C2 & Q2).
    split; [eapply keeps_trans; eauto|]. split; auto. intros a Ha. eapply quiet_trans; eauto.
Qed.

(* the messages sent when the parameter has one set message *)
Lemma call_set_sent s now m v s' e x0 : CI s -> set_t (maps0 m) = TOne x0 -> call g s (Set_ now m v) = Ok (s', e) ->
  exists z, v = One z /\ sent m e = [[carrying x0 z]].
Proof.
  intros [(cops & cevs & Hr) _] E H. destruct (call_keeps _ _ _ _ H) as (c & evs & Hc & _ & _ & Es).
  pose proof (call_sets _ _ _ _ m Hc) as Hs. cbn beta iota in Hs. rewrite Nat.eqb_refl in Hs.
  pose proof (inst_reached _ _ _ _ _ _ _ _ Hr E) as Hi. assert (truthy (set_t (maps (y_cl s) m)) = true) as Ht by (destruct Hi as (x & -> & _); reflexivity).
  rewrite Ht in Hs. cbn in Hc. destruct (set_param_shape _ _ _ _ _ _ _ Hc) as (c1 & e1 & [(F & _)|(m' & _ & Ev & _)] & _); [congruence|].
  rewrite Ev in Hs. destruct (set_value_inst _ _ _ _ Ev Hi) as (_ & z & -> & Em). exists z. split; auto. rewrite Es, Hs. cbn. rewrite Em. reflexivity.
Qed.
Lemma perform_sent k now x0 evs : set_t (maps0 (a_map (y_action g k))) = TOne x0 -> forall s s' e, CI s -> perform g k now s evs = Ok (s', e) ->
  sent (a_map (y_action g k)) e = flat_map (fun x => match x with ESet _ (SOne z) => [[carrying x0 z]] | _ => [] end) evs.
Proof.
  intros Hx. induction evs as [|x evs IH]; intros s s' e HC H; cbn [perform] in H; [injection H as <- <-; reflexivity|].
  match type of H with match ?t with _ => _ end = _ => destruct t as [[s1 o1]|] eqn:E1 end; [|discriminate].
  destruct (perform g k now s1 evs) as [[s2 o2]|] eqn:E2; [|discriminate]. injection H as <- <-.
  rewrite sent_app. cbn [flat_map]. destruct x as [dm v| |].
  - rewrite (IH _ _ _ (call_CI _ (Set_ now (a_map (y_action g k)) (set_arg v)) _ _ HC I E1) E2). f_equal.
    destruct (call_set_sent _ _ _ _ _ _ _ HC Hx E1) as (z & Ez & ->). destruct v; cbn in Ez; [|discriminate]. injection Ez as <-. reflexivity.
  - rewrite (IH _ _ _ (call_CI _ _ _ _ HC (ask_ok _ _) E1) E2). f_equal.
    destruct (call_quiet _ _ _ _ k HC (ask_ok _ _) I E1) as (_ & _ & S & _). exact S.
  - injection E1 as <- <-. rewrite (IH _ _ _ HC E2). reflexivity.
Qed.

(* ---- buttons ---- *)

Lemma button_shape f b now b' evs : f = push \/ f = release -> f b now = (b', evs) ->
  (evs = [] /\ b_state b' = b_state b) \/ evs = [Command (b_state b'); ShowState] \/ evs = [ShowState].
Proof.
  assert (Hs : forall b0 st, (fst (set_state b0 st), snd (set_state b0 st)) = (b', evs) -> b_state b0 = b_state b ->
    (evs = [] /\ b_state b' = b_state b) \/ evs = [Command (b_state b'); ShowState] \/ evs = [ShowState]).
  { intros b0 st E E0. unfold set_state in E. destruct (Bool.eqb st (b_state b0)); injection E as <- <-; auto. }
  intros [-> | ->] H; [unfold push in H|unfold release in H]; destruct (b_mode b);
    try (rewrite (surjective_pairing (set_state _ _)) in H; eapply Hs; [exact H|]; auto; fail);
    try (injection H as <- <-; cbn; auto; fail).
  - destruct (p_exceeded (b_period b) now) as [r p]. destruct r; [|injection H as <- <-; auto].
    rewrite (surjective_pairing (set_state _ _)) in H. eapply Hs; [exact H|]. auto.
Qed.

Definition Inv_s (ds : nat -> Prop) (s : sys) (lits : nat -> bool) : Prop :=
  CI s /\ (forall a, J a (a_b (y_act s a)) (lits a)) /\
  (forall a w, fixed_off (bc_disable (a_cb (y_action g a))) = Some w -> b_off (a_b (y_act s a)) = bc_disable (a_cb (y_action g a))) /\
  (forall a, ds a -> b_disp (a_b (y_act s a)) <> None).
Definition adv (lits : nat -> bool) (e : list yevent) : nat -> bool := fun a => lit_after a (lits a) e.

Lemma Inv_adv ds s lits e1 e2 : Inv_s ds s (adv (adv lits e1) e2) -> Inv_s ds s (adv lits (e1 ++ e2)).
Proof. intros (A & B & C & D). split; auto. split; [|split; auto]. intros a. unfold adv in *. rewrite lit_after_app. auto. Qed.

Lemma operate_ok ds s lits k now f s' e : Inv_s ds s lits -> f = push \/ f = release -> operate g s k now f = Ok (s', e) ->
  Inv_s ds s' (adv lits e) /\ y_sw s' = y_sw s /\ (forall a, a_map (y_action g k) <> a_map (y_action g a) -> quiet a s s' e) /\
  a_period (y_act s' k) = b_period (fst (f (button_of g s k) now)) /\
  (forall x0 on off, set_t (maps0 (a_map (y_action g k))) = TOne x0 -> bc_enable (a_cb (y_action g k)) = SOne on ->
     bc_disable (a_cb (y_action g k)) = OOne (Some off) ->
     sent (a_map (y_action g k)) e =
       match snd (f (button_of g s k) now) with Command b :: _ => [[carrying x0 (if b then on else off)]] | _ => [] end).
Proof.
  intros (HC & HJ & HO & HD) Hf H. unfold operate in H. destruct (f (button_of g s k) now) as [b' evs] eqn:Ef. cbn [fst snd].
  pose proof (button_shape _ _ _ _ _ Hf Ef) as Hsh.
  set (s0 := put_act s k (mkA (b_period b') (set_on (a_b (y_act s k)) (b_state b')))) in *.
  assert (CI s0) as HC0 by exact HC.
  assert (H0k : y_act s0 k = mkA (b_period b') (set_on (a_b (y_act s k)) (b_state b'))) by (cbn; apply fupd_same).
  assert (H0o : forall a, a <> k -> y_act s0 a = y_act s a) by (intros; cbn; apply fupd_other; auto).
  assert (HW0 : W k (a_b (y_act s0 k)) (lits k)) by (rewrite H0k; exact (proj1 (HJ k))).
  assert (HO0 : forall a w, fixed_off (bc_disable (a_cb (y_action g a))) = Some w -> b_off (a_b (y_act s0 a)) = bc_disable (a_cb (y_action g a))).
  { intros a w Hw. destruct (Nat.eq_dec a k) as [->|Hn]; [rewrite H0k; cbn; eapply HO; eauto|rewrite H0o; eauto]. }
  assert (HD0 : forall a, ds a -> b_disp (a_b (y_act s0 a)) <> None).
  { intros a Ha. destruct (Nat.eq_dec a k) as [->|Hn]; [rewrite H0k; cbn; auto|rewrite H0o; auto]. }
  assert (Hq0 : forall a, a_map (y_action g k) <> a_map (y_action g a) -> quiet a s s0 []).
  { intros a Ha. assert (a <> k) by congruence. repeat split. auto. }
  (* the end of every sequence: a display update *)
  assert (Hend : forall s1 e1 s2 e2 v, keeps s0 s1 e1 -> CI s1 -> (forall a, a_map (y_action g k) <> a_map (y_action g a) -> quiet a s0 s1 e1) ->
     act_show g s1 k v = (s2, e2) -> Inv_s ds s2 (adv lits (e1 ++ e2)) /\ y_sw s2 = y_sw s /\
     (forall a, a_map (y_action g k) <> a_map (y_action g a) -> quiet a s s2 (e1 ++ e2)) /\ a_period (y_act s2 k) = b_period b' /\
     sent (a_map (y_action g k)) (e1 ++ e2) = sent (a_map (y_action g k)) e1).
  { intros s1 e1 s2 e2 v K1 C1 Q1 Hs. pose proof Hs as Hs'. destruct (act_show_keeps _ _ _ _ _ Hs) as (K2 & C2 & S2 & J2 & D2).
    assert (HK : keeps s0 s2 (e1 ++ e2)) by (eapply keeps_trans; eauto).
    split; [split; [|split; [|split]]|split; [|split; [|split]]].
    - unfold CI in *. rewrite C2. exact C1.
    - intros a. unfold adv. destruct (Nat.eq_dec a k) as [->|Hn].
      + rewrite lit_after_app. apply J2. left. apply (k_W _ _ _ K1). exact HW0.
      + apply (k_J _ _ _ HK). rewrite H0o by auto. apply HJ.
    - intros a w Hw. eapply (k_off _ _ _ HK); eauto.
    - intros a Ha. apply (k_disp _ _ _ HK). auto.
    - rewrite (k_sw _ _ _ HK). reflexivity.
    - intros a Ha. assert (a <> k) by congruence. destruct (act_show_other _ _ _ _ _ a H0 Hs') as [A2 L2].
      eapply (quiet_trans a s s0 s2 [] (e1 ++ e2)); [apply Hq0; auto|]. eapply quiet_trans; [apply Q1; auto|].
      split; [exact A2|]. split; [exact L2|]. split; [apply S2|]. rewrite C2. reflexivity.
    - rewrite (k_per _ _ _ HK), H0k. reflexivity.
    - rewrite sent_app, S2. apply app_nil_r. }
  destruct Hsh as [(-> & Est)|[-> | ->]].
  - injection H as <- <-.
    assert (Eb : set_on (a_b (y_act s k)) (b_state b') = a_b (y_act s k)).
    { rewrite Est. unfold set_on. cbn. destruct (a_b (y_act s k)); reflexivity. }
    split; [split; [exact HC|split; [|split; [exact HO0|exact HD0]]]|split; [reflexivity|split; [exact Hq0|split; [rewrite H0k; reflexivity|reflexivity]]]].
    intros a. unfold adv. cbn [lit_after fold_left]. destruct (Nat.eq_dec a k) as [->|Hn]; [rewrite H0k; cbn [a_b]; rewrite Eb; apply HJ|rewrite H0o by auto; apply HJ].
  - cbn [effects] in H. destruct (perform g k now s0 _) as [[s1 e1]|] eqn:E1; [|discriminate].
    destruct (act_show g s1 k _) as [s2 e2] eqn:E2. injection H as <- <-. rewrite app_nil_r.
    destruct (perform_ok _ _ _ _ _ _ HC0 E1) as (K1 & C1 & Q1). destruct (Hend _ _ _ _ _ K1 C1 Q1 E2) as (A & B & C & D & F).
    split; [exact A|]. split; [exact B|]. split; [exact C|]. split; [exact D|]. intros x0 on off Hx Hon Hoff. rewrite F.
    rewrite (perform_sent _ _ _ _ Hx _ _ _ HC0 E1). unfold state_changed. rewrite (HO0 k (SOne off)) by (rewrite Hoff; reflexivity). rewrite Hoff.
    rewrite H0k. cbn [a_b set_on b_on]. destruct (b_state b'); [rewrite Hon|]; reflexivity.
  - cbn [effects] in H. destruct (act_show g s0 k _) as [s2 e2] eqn:E2. injection H as <- <-. rewrite app_nil_r.
    destruct (Hend _ [] _ _ _ (keeps_refl s0) HC0 (fun a _ => quiet_refl a s0) E2) as (A & B & C & D & F).
    cbn in *. split; [exact A|]. split; [exact B|]. split; [exact C|]. split; [exact D|]. intros. exact F.
Qed.

(* ---- a poll ---- *)

Lemma drive_app now evs1 evs2 : forall s, drive g now s (evs1 ++ evs2) =
  match drive g now s evs1 with Raise => Raise | Ok (s1, o1) => match drive g now s1 evs2 with Raise => Raise | Ok (s2, o2) => Ok (s2, o1 ++ o2) end end.
Proof.
  induction evs1 as [|x evs1 IH]; intros s; cbn [drive app].
  - destruct (drive g now s evs2) as [[? ?]|]; reflexivity.
  - match goal with |- match ?t with _ => _ end = _ => destruct t as [[s1 o1]|] end; auto. rewrite IH.
    destruct (drive g now s1 evs1) as [[s2 o2]|]; auto. destruct (drive g now s2 evs2) as [[s3 o3]|]; auto. rewrite app_assoc. reflexivity.
Qed.

Definition about (a : nat) (e : switch_ev) : Prop := match e with Push z | Release z => Z.to_nat z = a | _ => False end.
Lemma drive_ok ds now evs : forall s lits s' e, Inv_s ds s lits -> drive g now s evs = Ok (s', e) ->
  Inv_s ds s' (adv lits e) /\ y_sw s' = y_sw s /\
  (forall a, own_parameter g a -> Forall (fun x => ~ about a x) evs -> quiet a s s' e).
Proof.
  induction evs as [|x evs IH]; intros s lits s' e HI H; cbn [drive] in H.
  - injection H as <- <-. split; [exact HI|]. split; auto. intros; apply quiet_refl.
  - match type of H with match ?t with _ => _ end = _ => destruct t as [[s1 o1]|] eqn:E1 end; [|discriminate].
    destruct (drive g now s1 evs) as [[s2 o2]|] eqn:E2; [|discriminate]. injection H as <- <-.
    assert (Inv_s ds s1 (adv lits o1) /\ y_sw s1 = y_sw s /\ forall a, own_parameter g a -> ~ about a x -> quiet a s s1 o1) as (I1 & W1 & Q1).
    { destruct x as [z|z| |]; try (injection E1 as <- <-; split; [exact HI|split; [auto|intros; apply quiet_refl]]).
      - destruct (operate_ok _ _ _ _ _ _ _ _ HI (or_introl eq_refl) E1) as (A & B & C & _). split; [exact A|]. split; [exact B|].
        intros a Ha Hx. apply C. apply Ha. exact Hx.
      - destruct (operate_ok _ _ _ _ _ _ _ _ HI (or_intror eq_refl) E1) as (A & B & C & _). split; [exact A|]. split; [exact B|].
        intros a Ha Hx. apply C. apply Ha. exact Hx. }
    destruct (IH _ _ _ _ I1 E2) as (I2 & W2 & Q2). split; [apply Inv_adv; exact I2|]. split; [congruence|].
    intros a Ha HF. inv HF. eapply quiet_trans; eauto.
Qed.

Lemma each_all f l : each (fun _ => true) f l = flat_map f l.
Proof. reflexivity. Qed.
Lemma process_about c w p now : let evs := snd (process c w (mkPoll p now (fun _ => true) None)) in
  forall a, here a (sw_actions c ++ sw_hold c) = [] -> Forall (fun x => ~ about a x) evs.
Proof.
  intros evs a Ha. subst evs.
  assert (Hn : forall z, In z (sw_actions c ++ sw_hold c) -> Z.to_nat z <> a).
  { intros z Hz E. assert (In z (here a (sw_actions c ++ sw_hold c))) as Hi by (apply filter_In; split; auto; apply Nat.eqb_eq; auto).
    rewrite Ha in Hi. destruct Hi. }
  assert (HA : forall z, In z (sw_actions c) -> Z.to_nat z <> a) by (intros; apply Hn, in_or_app; auto).
  assert (HH : forall z, In z (sw_hold c) -> Z.to_nat z <> a) by (intros; apply Hn, in_or_app; auto).
  assert (Heach : forall en f l, (forall z, In z l -> Z.to_nat z <> a) -> (forall z, Forall (fun x => about (Z.to_nat z) x) (f z)) ->
     Forall (fun x => ~ about a x) (each en f l)).
  { intros en f l Hl Hf. unfold each. apply Forall_flat_map, Forall_forall. intros z Hz. destruct (en z); auto.
    eapply Forall_impl; [|apply Hf]. intros x Hx Hy. apply (Hl z Hz). destruct x; unfold about in *; try contradiction; rewrite <- Hx; exact Hy. }
  assert (Hhold : forall s q, Forall (fun x => ~ about a x) (snd (check_hold c s q))).
  { intros s q. unfold check_hold. destruct (p_exceeded _ _) as [r per]. destruct r; cbn [snd]; auto.
    apply Heach; auto. intros z. repeat constructor. }
  assert (Hrel : forall s q, Forall (fun x => ~ about a x) (snd (do_release c s q))).
  { assert (Hr : forall s q, Forall (fun x => ~ about a x) (snd (release_normal c s q))).
    { intros s q. unfold release_normal. cbn [snd]. apply Heach; auto. intros z. destruct (has_hold c); repeat constructor. }
    intros s q. unfold do_release. destruct (has_hold c); [|apply Hr]. destruct (negb _); cbn [snd]; auto.
    specialize (Hhold s q). destruct (check_hold c s q) as [[s1 fired] ev]. cbn [snd] in Hhold. destruct fired; [exact Hhold|].
    destruct (hold_was_active s1); [exact Hhold|]. specialize (Hr s1 q). destruct (release_normal c s1 q) as [s2 ev2]. cbn [snd] in *.
    apply Forall_app. auto. }
  assert (Hpush : forall s, Forall (fun x => ~ about a x) (snd (do_push c s (mkPoll p now (fun _ => true) None)))).
  { intros s. unfold do_push. destruct (pushed_state s); cbn [snd p_override]; auto. destruct (has_hold c); cbn [snd]; auto.
    apply Heach; auto. intros z. repeat constructor. }
  unfold process. cbn [p_pushed p_override]. destruct p; cbn [negb].
  - destruct (hold_active w); [|apply Hpush]. specialize (Hhold w (mkPoll true now (fun _ => true) None)).
    destruct (check_hold c w _) as [[s1 fired] ev]. destruct fired; [exact Hhold|apply Hpush].
  - destruct (pushed_state w); cbn [snd]; auto.
Qed.

Lemma plain_poll c w p now : sw_hold c = [] -> hold_active w = false ->
  exists w', process c w (mkPoll p now (fun _ => true) None) =
    (w', match pushed_state w, p with
         | false, true => map Push (sw_actions c) | true, false => map Release (sw_actions c) | _, _ => [] end) /\
    pushed_state w' = p /\ hold_active w' = false.
Proof.
  intros Hc Hw. assert (has_hold c = false) as Hh by (unfold has_hold; rewrite Hc; reflexivity).
  assert (Hm : forall f l, each (fun _ => true) (fun a => [f a]) l = map f l).
  { intros f l. induction l as [|z l IH]; cbn; [reflexivity|]. unfold each in IH. rewrite IH. reflexivity. }
  unfold process. cbn [p_pushed p_override]. destruct p; cbn [negb].
  - rewrite Hw. unfold do_push. destruct (pushed_state w) eqn:Ep; [eexists; split; [reflexivity|auto]|].
    rewrite Hh. cbn [p_override]. rewrite Hm. eexists; split; [reflexivity|]. auto.
  - destruct (pushed_state w) eqn:Ep; [|eexists; split; [reflexivity|auto]].
    unfold do_release. rewrite Hh. unfold release_normal. rewrite Hh, Hm. eexists; split; [reflexivity|]. auto.
Qed.

(* ---- the whole device ---- *)

Lemma yrun_snoc ops o : forall s, yrun g s (ops ++ [o]) =
  match yrun g s ops with Raise => Raise | Ok (s1, es) => match ystep g s1 o with Raise => Raise | Ok (s2, e) => Ok (s2, es ++ [e]) end end.
Proof.
  induction ops as [|o' ops IH]; intros s; cbn; [destruct (ystep g s o) as [[? ?]|]; auto|].
  destruct (ystep g s o') as [[s1 e1]|]; auto. rewrite IH. destruct (yrun g s1 ops) as [[s2 es]|]; auto.
  destruct (ystep g s2 o) as [[s3 e3]|]; auto.
Qed.

Lemma call_Inv ds s lits o s' e : Inv_s ds s lits -> op_ok o -> call g s o = Ok (s', e) -> Inv_s ds s' (adv lits e) /\ y_sw s' = y_sw s /\
  forall a, a_period (y_act s' a) = a_period (y_act s a).
Proof.
  intros (A & B & C & D) Ho H. destruct (call_keeps _ _ _ _ H) as (c & evs & _ & K & _). split; [|split; [apply (k_sw _ _ _ K)|apply (k_per _ _ _ K)]].
  split; [eapply call_CI; eauto|]. split; [intros a; apply (k_J _ _ _ K); auto|]. split; [intros a w Hw; eapply (k_off _ _ _ K); eauto|].
  intros a Ha. apply (k_disp _ _ _ K). auto.
Qed.

Definition redrawn (ops : list yop) (a : nat) : Prop := In (YRedraw a) ops.
Lemma ystep_Inv ops s lits o s' e : Inv_s (redrawn ops) s lits -> ystep g s o = Ok (s', e) -> Inv_s (redrawn (ops ++ [o])) s' (adv lits e).
Proof.
  intros HI H.
  assert (Hw : (forall a, o <> YRedraw a) -> Inv_s (redrawn ops) s' (adv lits e) -> Inv_s (redrawn (ops ++ [o])) s' (adv lits e)).
  { intros Hn (A & B & C & D). split; auto. split; auto. split; auto. intros a Ha. apply D. unfold redrawn in *. apply in_app_or in Ha.
    destruct Ha as [Ha|[Ha|[]]]; auto. exfalso. eapply Hn; eauto. }
  destruct o as [a now|a now|a|j p now|now x]; cbn [ystep] in H.
  - apply Hw; [discriminate|]. eapply call_Inv; [exact HI| |exact H]. cbn. eexists; split; [reflexivity|]. exists a; auto.
  - apply Hw; [discriminate|]. eapply call_Inv; [exact HI| |exact H]. apply (ask_ok now).
  - clear Hw. injection H as H. cbn in H. set (s0 := put_act s a _) in H. destruct HI as (HC & HJ & HO & HD).
    destruct (act_show_keeps _ _ _ _ _ H) as (K & C & _ & HJ' & HD').
    assert (H0k : y_act s0 a = mkA (a_period (y_act s a)) (mkB (b_on (a_b (y_act s a))) None None None (b_off (a_b (y_act s a))))) by (cbn; apply fupd_same).
    assert (H0o : forall k, k <> a -> y_act s0 k = y_act s k) by (intros; cbn; apply fupd_other; auto).
    split; [unfold CI in *; rewrite C; exact HC|]. split; [|split].
    + intros k. unfold adv. destruct (Nat.eq_dec k a) as [->|Hn]; [apply HJ'; right; rewrite H0k; reflexivity|].
      apply (k_J _ _ _ K). rewrite H0o; auto.
    + intros k w Hw. eapply (k_off _ _ _ K); eauto. destruct (Nat.eq_dec k a) as [->|Hn]; [rewrite H0k; cbn; eauto|rewrite H0o; eauto].
    + intros k Hk. destruct (Nat.eq_dec k a) as [->|Hn]; [exact HD'|]. apply (k_disp _ _ _ K). rewrite H0o by auto. apply HD.
      apply in_app_or in Hk. destruct Hk as [Hk|[Hk|[]]]; auto. congruence.
  - apply Hw; [discriminate|]. destruct (process _ _ _) as [w evs]. eapply (drive_ok (redrawn ops)); [|exact H]. exact HI.
  - apply Hw; [discriminate|]. eapply call_Inv; [exact HI| |exact H]. exact I.
Qed.

Definition lits_of (evs : list (list yevent)) : nat -> bool := fun a => lit_after a false (concat evs).

Lemma powered_Inv ops : forall s evs, powered g maps0 lt ops s evs -> Inv_s (redrawn ops) s (lits_of evs).
Proof.
  induction ops as [|ops o IH] using rev_ind_snoc; intros s evs [Hn H].
  - cbn in H. injection H as <- <-. split; [split|split; [|split]].
    + exists [], []. split; auto.
    + apply init_LI.
    + intros a. unfold lits_of. cbn. split; reflexivity.
    + reflexivity.
    + intros a [].
  - rewrite yrun_snoc in H. destruct (yrun g (yinit g maps0 lt) ops) as [[s1 es]|] eqn:E; [|discriminate].
    destruct (ystep g s1 o) as [[s2 e]|] eqn:E2; [|discriminate]. injection H as <- <-.
    assert (powered g maps0 lt ops s1 es) as Hp by (split; auto). apply IH in Hp.
    assert (Inv_s (redrawn (ops ++ [o])) s2 (adv (lits_of es) e)) as Hr by (eapply ystep_Inv; eauto).
    destruct Hr as (A & B & C & D). split; auto. split; [|split; auto]. intros a. specialize (B a). unfold adv, lits_of in *.
    rewrite concat_app, lit_after_app. cbn. rewrite app_nil_r. exact B.
Qed.

Lemma ystep_sw s o s' e j : ystep g s o = Ok (s', e) -> Inv_s (fun _ => False) s (fun a => b_on (a_b (y_act s a)) && bc_live (a_cb (y_action g a))) ->
  y_sw s' j = match o with
              | YPoll k p now => if (k =? j)%nat then fst (process (y_switch g j) (y_sw s j) (mkPoll p now (fun _ => true) None)) else y_sw s j
              | _ => y_sw s j
              end.
Proof.
  intros H HI. destruct o as [a now|a now|a|k p now|now x]; cbn [ystep] in H.
  - apply call_keeps in H. destruct H as (_ & _ & _ & K & _). rewrite (k_sw _ _ _ K). reflexivity.
  - apply call_keeps in H. destruct H as (_ & _ & _ & K & _). rewrite (k_sw _ _ _ K). reflexivity.
  - injection H as H. apply act_show_keeps in H. destruct H as (K & _). rewrite (k_sw _ _ _ K). reflexivity.
  - destruct (process _ (y_sw s k) _) as [w evs] eqn:E. eapply (drive_ok (fun _ => False)) in H; [|exact HI]. destruct H as (_ & -> & _).
    cbn. unfold fupd. rewrite Nat.eqb_sym. destruct (k =? j)%nat eqn:Ek; auto. apply Nat.eqb_eq in Ek. subst. rewrite E. reflexivity.
  - apply call_keeps in H. destruct H as (_ & _ & _ & K & _). rewrite (k_sw _ _ _ K). reflexivity.
Qed.
Lemma Inv_self ds s lits : Inv_s ds s lits -> Inv_s (fun _ => False) s (fun a => b_on (a_b (y_act s a)) && bc_live (a_cb (y_action g a))).
Proof.
  intros (A & B & C & D). split; auto. split; [|split; auto; tauto]. intros a. specialize (B a). rewrite <- (J_lit _ _ _ B). exact B.
Qed.

Lemma held_snoc j ops o : held j (ops ++ [o]) = match o with YPoll k p _ => if (k =? j)%nat then p else held j ops | _ => held j ops end.
Proof. unfold held. rewrite fold_left_app. cbn. destruct o; reflexivity. Qed.
Lemma since_snoc j ops o : held_since j (ops ++ [o]) =
  match o with YPoll k p now => if (k =? j)%nat && p && negb (held j ops) then now else held_since j ops | _ => held_since j ops end.
Proof.
  unfold held_since, held. generalize 0. generalize false. induction ops as [|o' ops IH]; intros d t; cbn [app held_since_from fold_left].
  - destruct o as [| | |k p now|]; auto. destruct (k =? j)%nat; cbn; auto.
  - destruct o' as [| | |k' p' now'|]; auto. destruct (k' =? j)%nat; auto.
Qed.

Lemma powered_switch ops : forall s evs j, powered g maps0 lt ops s evs -> sw_hold (y_switch g j) = [] ->
  pushed_state (y_sw s j) = held j ops /\ hold_active (y_sw s j) = false.
Proof.
  induction ops as [|ops o IH] using rev_ind_snoc; intros s evs j [Hn H] Hj.
  - cbn in H. injection H as <- <-. split; reflexivity.
  - rewrite yrun_snoc in H. destruct (yrun g (yinit g maps0 lt) ops) as [[s1 es]|] eqn:E; [|discriminate].
    destruct (ystep g s1 o) as [[s2 e]|] eqn:E2; [|discriminate]. injection H as <- <-.
    assert (powered g maps0 lt ops s1 es) as Hp by (split; auto). destruct (IH _ _ j Hp Hj) as [I1 I2]. apply powered_Inv in Hp. apply Inv_self in Hp.
    rewrite (ystep_sw _ _ _ _ j E2 Hp), held_snoc. destruct o as [| | |k p now|]; auto. destruct (k =? j)%nat; auto.
    destruct (plain_poll (y_switch g j) (y_sw s1 j) p now Hj I2) as (w' & -> & A & B). auto.
Qed.

(* the position of an action in the list of its switch *)
Lemma here_nil a l : here a l = [] -> forall f, (f = Push \/ f = Release) -> Forall (fun x => ~ about a x) (map f l).
Proof.
  intros H f Hf. apply Forall_forall. intros x Hx. apply in_map_iff in Hx. destruct Hx as (z & <- & Hz).
  assert (~ Z.to_nat z = a) as Hn. { intros E. assert (In z (here a l)) as Hi by (apply filter_In; split; auto; apply Nat.eqb_eq; auto). rewrite H in Hi. destruct Hi. }
  destruct Hf as [-> | ->]; exact Hn.
Qed.
Lemma here_split a l : length (here a l) = 1%nat -> exists l1 z l2, l = l1 ++ z :: l2 /\ Z.to_nat z = a /\ here a l1 = [] /\ here a l2 = [].
Proof.
  induction l as [|y l IH]; cbn; [discriminate|]. destruct (Z.to_nat y =? a)%nat eqn:E.
  - intros H. cbn in H. apply Nat.eqb_eq in E. exists [], y, l. split; auto. split; auto. split; auto. unfold here in *.
    destruct (filter _ l); [auto|cbn in H; lia].
  - intros H. destruct (IH H) as (l1 & z & l2 & -> & Ez & H1 & H2). exists (y :: l1), z, l2. split; auto. split; auto. split; auto.
    cbn. rewrite E. exact H1.
Qed.

(* the events of an edge, for the action in question: quiet before, its own operation, quiet after *)
Lemma edge ds s lits s' e now f F a l : Inv_s ds s lits -> own_parameter g a -> length (here a l) = 1%nat ->
  (F = Push /\ f = push \/ F = Release /\ f = release) ->
  drive g now s (map F l) = Ok (s', e) ->
  exists s1 e1 s2 e2 e3, quiet a s s1 e1 /\ Inv_s ds s1 (adv lits e1) /\ operate g s1 a now f = Ok (s2, e2) /\
    Inv_s ds s2 (adv (adv lits e1) e2) /\ quiet a s2 s' e3 /\ e = e1 ++ e2 ++ e3.
Proof.
  intros HI Ho Hl HF H. destruct (here_split _ _ Hl) as (l1 & z & l2 & -> & Ez & H1 & H2). rewrite map_app, drive_app in H.
  destruct (drive g now s (map F l1)) as [[s1 e1]|] eqn:E1; [|discriminate]. cbn [map drive] in H.
  assert (HF' : F = Push \/ F = Release) by tauto. assert (Hf : f = push \/ f = release) by tauto.
  destruct (drive_ok ds _ _ _ _ _ _ HI E1) as (I1 & _ & Q1). specialize (Q1 a Ho (here_nil a l1 H1 F HF')).
  assert (match match F z with Push a => operate g s1 (Z.to_nat a) now push | Release a => operate g s1 (Z.to_nat a) now release | _ => Ok (s1, []) end with
          | Ok (s0, o1) => match drive g now s0 (map F l2) with Ok (s2, o2) => Ok (s2, o1 ++ o2) | Raise => Raise end | Raise => Raise end =
          match operate g s1 a now f with
          | Ok (s0, o1) => match drive g now s0 (map F l2) with Ok (s2, o2) => Ok (s2, o1 ++ o2) | Raise => Raise end | Raise => Raise end) as Heq.
  { destruct HF as [[-> ->]|[-> ->]]; rewrite Ez; reflexivity. }
  rewrite Heq in H. clear Heq. destruct (operate g s1 a now f) as [[s2 e2]|] eqn:E2; [|discriminate].
  destruct (drive g now s2 (map F l2)) as [[s3 e3]|] eqn:E3; [|discriminate]. injection H as <- <-.
  destruct (operate_ok _ _ _ _ _ _ _ _ I1 Hf E2) as (I2 & _). destruct (drive_ok ds _ _ _ _ _ _ I2 E3) as (_ & _ & Q3).
  specialize (Q3 a Ho (here_nil a l2 H2 F HF')). exists s1, e1, s2, e2, e3. auto 10.
Qed.

(* what a poll means for an action that is on one switch only *)
Lemma poll_cases ops s evs j a k p now s' e : powered g maps0 lt ops s evs -> only_on g j a -> own_parameter g a ->
  ystep g s (YPoll k p now) = Ok (s', e) ->
  (quiet a s s' e /\ (k <> j \/ held j ops = p)) \/
  (k = j /\ exists f s1 e1 s2 e2 e3, (held j ops = false /\ p = true /\ f = push \/ held j ops = true /\ p = false /\ f = release) /\
    quiet a s s1 e1 /\ Inv_s (redrawn ops) s1 (adv (lits_of evs) e1) /\ operate g s1 a now f = Ok (s2, e2) /\
    Inv_s (redrawn ops) s2 (adv (adv (lits_of evs) e1) e2) /\ quiet a s2 s' e3 /\ e = e1 ++ e2 ++ e3).
Proof.
  intros Hp (Hh & Hl & Ho) Hown H. pose proof (powered_Inv _ _ _ Hp) as HI. cbn [ystep] in H.
  destruct (Nat.eq_dec k j) as [->|Hk].
  - destruct (powered_switch _ _ _ _ Hp Hh) as [A B]. destruct (plain_poll (y_switch g j) (y_sw s j) p now Hh B) as (w' & E & _). rewrite E, A in H.
    assert (HI' : Inv_s (redrawn ops) (put_sw s j w') (lits_of evs)) by exact HI.
    destruct (held j ops), p.
    + left. injection H as <- <-. split; [repeat split|auto].
    + right. split; auto. destruct (edge _ _ _ _ _ _ _ _ _ _ HI' Hown Hl (or_intror (conj eq_refl eq_refl)) H) as (s1 & e1 & s2 & e2 & e3 & Hr).
      exists release, s1, e1, s2, e2, e3. split; [auto|exact Hr].
    + right. split; auto. destruct (edge _ _ _ _ _ _ _ _ _ _ HI' Hown Hl (or_introl (conj eq_refl eq_refl)) H) as (s1 & e1 & s2 & e2 & e3 & Hr).
      exists push, s1, e1, s2, e2, e3. split; [auto|exact Hr].
    + left. injection H as <- <-. split; [repeat split|auto].
  - left. split; [|auto]. destruct (process _ _ _) as [w evs'] eqn:E.
    assert (HI' : Inv_s (redrawn ops) (put_sw s k w) (lits_of evs)) by exact HI.
    destruct (drive_ok _ _ _ _ _ _ _ HI' H) as (_ & _ & Q). apply (Q a Hown).
    pose proof (process_about (y_switch g k) (y_sw s k) p now a (Ho k Hk)) as F. rewrite E in F. exact F.
Qed.

(* the period of an action *)
Lemma period_step ops s evs j a o s' e : powered g maps0 lt ops s evs -> only_on g j a -> own_parameter g a -> ystep g s o = Ok (s', e) ->
  a_mode (y_action g a) = HOLD_MOMENTARY ->
  interval (a_period (y_act s a)) = a_hold (y_action g a) /\ (held j ops = true -> last_reset (a_period (y_act s a)) = held_since j ops) ->
  interval (a_period (y_act s' a)) = a_hold (y_action g a) /\ (held j (ops ++ [o]) = true -> last_reset (a_period (y_act s' a)) = held_since j (ops ++ [o])).
Proof.
  intros Hp Hj Ho H Hm Hper. rewrite held_snoc, since_snoc.
  assert (Hkeep : forall o0, call g s o0 = Ok (s', e) -> a_period (y_act s' a) = a_period (y_act s a)).
  { intros o0 Hc. apply call_keeps in Hc. destruct Hc as (_ & _ & _ & K & _). apply (k_per _ _ _ K). }
  destruct o as [k now|k now|k|k p now|now x].
  - rewrite (Hkeep _ H). exact Hper.
  - rewrite (Hkeep _ H). exact Hper.
  - cbn [ystep] in H. injection H as H. destruct (act_show_keeps _ _ _ _ _ H) as (K & _). rewrite (k_per _ _ _ K). cbn.
    unfold fupd. destruct (a =? k)%nat eqn:E; [apply Nat.eqb_eq in E; subst; exact Hper|exact Hper].
  - destruct (poll_cases _ _ _ _ _ _ _ _ _ _ Hp Hj Ho H) as [[(Q & _) Hc]|(-> & f & s1 & e1 & s2 & e2 & e3 & Hf & (Q1 & _) & I1 & Hop & _ & (Q3 & _) & _)].
    + rewrite Q. destruct Hc as [Hc|Hc]; [apply Nat.eqb_neq in Hc; rewrite Hc; exact Hper|].
      destruct (k =? j)%nat; [|exact Hper]. split; [apply Hper|]. intros Ep. rewrite Ep in Hc. rewrite Ep, Hc. cbn. apply Hper. exact Hc.
    + assert (Hff : f = push \/ f = release) by tauto. destruct (operate_ok _ _ _ _ _ _ _ _ I1 Hff Hop) as (_ & _ & _ & P & _).
      rewrite Q3, P. rewrite Nat.eqb_refl. destruct Hf as [(Eh & -> & ->)|(Eh & -> & ->)]; unfold button_of; rewrite Hm, Q1.
      * cbn. unfold set_state. cbn. rewrite Bool.eqb_negb1. cbn. split; [apply Hper|]. rewrite Eh. reflexivity.
      * split; [|discriminate]. cbn. unfold p_exceeded. destruct (_ <? now); cbn; [|apply Hper]. unfold set_state. cbn. rewrite Bool.eqb_negb1. cbn. apply Hper.
  - rewrite (Hkeep _ H). exact Hper.
Qed.
Lemma powered_period ops : forall s evs j a, powered g maps0 lt ops s evs -> only_on g j a -> own_parameter g a ->
  a_mode (y_action g a) = HOLD_MOMENTARY ->
  interval (a_period (y_act s a)) = a_hold (y_action g a) /\ (held j ops = true -> last_reset (a_period (y_act s a)) = held_since j ops).
Proof.
  induction ops as [|ops o IH] using rev_ind_snoc; intros s evs j a [Hn H] Hj Ho Hm.
  - cbn in H. injection H as <- <-. split; [reflexivity|discriminate].
  - rewrite yrun_snoc in H. destruct (yrun g (yinit g maps0 lt) ops) as [[s1 es]|] eqn:E; [|discriminate].
    destruct (ystep g s1 o) as [[s2 e]|] eqn:E2; [|discriminate]. injection H as <- <-.
    assert (powered g maps0 lt ops s1 es) as Hp by (split; auto). eapply period_step; eauto.
Qed.

(* what the button does, in terms of what is shown *)
Lemma button_wish ops s evs j a f now : powered g maps0 lt ops s evs -> only_on g j a -> own_parameter g a ->
  bc_live (a_cb (y_action g a)) = true ->
  (held j ops = false /\ f = push \/ held j ops = true /\ f = release) -> forall s1, y_act s1 a = y_act s a ->
  let w := match f (button_of g s1 a) now with (_, Command b :: _) => Some b | _ => None end in
  w = (if held j ops then at_release (a_mode (y_action g a)) (lits_of evs a) (held_since j ops) (a_hold (y_action g a)) now
       else at_press (a_mode (y_action g a)) (lits_of evs a)) /\
  b_state (fst (f (button_of g s1 a) now)) = match w with Some b => b | None => if held j ops && match a_mode (y_action g a) with ONE_SHOT => true | _ => false end then false else lits_of evs a end.
Proof.
  intros Hp Hj Ho Hl Hf s1 Es. destruct (powered_Inv _ _ _ Hp) as (_ & HJ & _). pose proof (J_lit _ _ _ (HJ a)) as El. rewrite Hl, andb_true_r in El.
  pose proof (powered_period _ _ _ _ _ Hp Hj Ho) as Hper.
  unfold button_of. rewrite Es, El. generalize dependent (b_on (a_b (y_act s a))). intros on El.
  destruct Hf as [(Eh & ->)|(Eh & ->)]; rewrite Eh in *.
  - unfold at_press, push, set_state. cbn [b_mode b_state b_period]. destruct (a_mode (y_action g a)); destruct on; cbn; auto.
  - unfold at_release, release, set_state. cbn [b_mode b_state b_period]. destruct (a_mode (y_action g a)) eqn:Em; destruct on; cbn; auto.
    all: destruct (Hper eq_refl) as [A B]; unfold p_exceeded; rewrite A, (B eq_refl); destruct (_ <? now); cbn; auto.
Qed.

Lemma c56_step ops s evs o s' e j a x0 on off : powered g maps0 lt ops s evs -> ystep g s o = Ok (s', e) ->
  only_on g j a -> own_parameter g a -> bc_live (a_cb (y_action g a)) = true ->
  bc_enable (a_cb (y_action g a)) = SOne on -> bc_disable (a_cb (y_action g a)) = OOne (Some off) ->
  set_t (maps0 (a_map (y_action g a))) = TOne x0 ->
  sent (a_map (y_action g a)) e =
    match wish (y_action g a) j ops (lit_after a false (concat evs)) o with
    | Some b => [[carrying x0 (if b then on else off)]]
    | None => []
    end.
Proof.
  intros Hp H Hj Ho Hl Hon Hoff Hx. destruct (powered_Inv _ _ _ Hp) as (HC & _).
  assert (Hcall : forall o0, call g s o0 = Ok (s', e) -> match o0 with Set_ _ _ _ => False | _ => True end -> sent (a_map (y_action g a)) e = []).
  { intros o0 Hc Hk. destruct (call_keeps _ _ _ _ Hc) as (c & evs0 & Hcs & _ & _ & Es). rewrite Es, (call_sets _ _ _ _ _ Hcs).
    destruct o0; auto. contradiction. }
  destruct o as [k now|k now|k|k p now|now x]; unfold wish.
  - eapply Hcall; [exact H|exact I].
  - eapply Hcall; [exact H|exact I].
  - cbn [ystep] in H. injection H as H. destruct (act_show_keeps _ _ _ _ _ H) as (_ & _ & S & _). apply S.
  - destruct (poll_cases _ _ _ _ _ _ _ _ _ _ Hp Hj Ho H) as [[(_ & _ & S & _) Hc]|(-> & f & s1 & e1 & s2 & e2 & e3 & Hf & (Q1 & _ & S1 & _) & I1 & Hop & _ & (_ & _ & S3 & _) & ->)].
    + rewrite S. destruct Hc as [Hc| <-]; [apply Nat.eqb_neq in Hc; rewrite Hc; reflexivity|]. destruct (k =? j)%nat; auto. destruct (held j ops); auto.
    + rewrite !sent_app, S1, S3, app_nil_r. cbn [app]. rewrite Nat.eqb_refl. cbn [negb].
      assert (Hff : f = push \/ f = release) by tauto. destruct (operate_ok _ _ _ _ _ _ _ _ I1 Hff Hop) as (_ & _ & _ & _ & S2).
      rewrite (S2 _ _ _ Hx Hon Hoff).
      assert (Hf' : held j ops = false /\ f = push \/ held j ops = true /\ f = release) by tauto.
      destruct (button_wish _ _ _ _ _ _ now Hp Hj Ho Hl Hf' s1 Q1) as [Hw _]. fold (lits_of evs a).
      destruct Hf as [(Eh & -> & ->)|(Eh & -> & ->)]; rewrite Eh in *; rewrite <- Hw.
      * destruct (push (button_of g s1 a) now) as [b' [|[c|] l]]; reflexivity.
      * destruct (release (button_of g s1 a) now) as [b' [|[c|] l]]; reflexivity.
  - eapply Hcall; [exact H|exact I].
Qed.

Lemma c56_history a j x0 on off : only_on g j a -> own_parameter g a -> bc_live (a_cb (y_action g a)) = true ->
  bc_enable (a_cb (y_action g a)) = SOne on -> bc_disable (a_cb (y_action g a)) = OOne (Some off) ->
  set_t (maps0 (a_map (y_action g a))) = TOne x0 ->
  forall ops s evs, powered g maps0 lt ops s evs ->
  sent (a_map (y_action g a)) (concat evs) = wished (y_action g a) j a (carrying x0 on) (carrying x0 off) [] false (List.combine ops evs).
Proof.
  intros Hj Ho Hl Hon Hoff Hx.
  assert (Hsn : forall l past lit o e, wished (y_action g a) j a (carrying x0 on) (carrying x0 off) past lit (l ++ [(o, e)]) =
    wished (y_action g a) j a (carrying x0 on) (carrying x0 off) past lit l ++
    match wish (y_action g a) j (past ++ map fst l) (lit_after a lit (concat (map snd l))) o with Some b => [[if b then carrying x0 on else carrying x0 off]] | None => [] end).
  { induction l as [|[o1 e1] l IH]; intros past lit o e; cbn [app wished map fst snd concat].
    - change (lit_after a lit []) with lit. rewrite !app_nil_r. reflexivity.
    - rewrite IH, lit_after_app, <- !app_assoc. reflexivity. }
  induction ops as [|ops o IH] using rev_ind_snoc; intros s evs [Hn H].
  - cbn in H. injection H as <- <-. reflexivity.
  - rewrite yrun_snoc in H. destruct (yrun g (yinit g maps0 lt) ops) as [[s1 es]|] eqn:E; [|discriminate].
    destruct (ystep g s1 o) as [[s2 e]|] eqn:E2; [|discriminate]. injection H as <- <-.
    assert (powered g maps0 lt ops s1 es) as Hp by (split; auto).
    assert (length ops = length es) as Hlen.
    { clear - E. revert E. generalize (yinit g maps0 lt). revert s1 es. induction ops as [|o ops IH]; intros s1 es s H; cbn in H; [inv H; reflexivity|].
      destruct (ystep g s o) as [[s2 e2]|]; [|discriminate]. destruct (yrun g s2 ops) as [[s3 es3]|] eqn:E3; [|discriminate]. inv H. cbn. f_equal. eauto. }
    rewrite concat_app, sent_app, (IH _ _ Hp). cbn [concat]. rewrite app_nil_r.
    assert (List.combine (ops ++ [o]) (es ++ [e]) = List.combine ops es ++ [(o, e)]) as ->.
    { clear - Hlen. revert es Hlen. induction ops as [|x ops IH]; intros [|y es] Hlen; cbn in *; try lia; [reflexivity|]. f_equal. apply IH. lia. }
    rewrite Hsn. f_equal. cbn [app].
    assert (map fst (List.combine ops es) = ops /\ map snd (List.combine ops es) = es) as [-> ->].
    { clear - Hlen. revert es Hlen. induction ops as [|x ops IH]; intros [|y es] Hlen; cbn in *; try lia; auto. destruct (IH es) as [-> ->]; auto; lia. }
    rewrite (c56_step _ _ _ _ _ _ _ _ _ _ _ Hp E2 Hj Ho Hl Hon Hoff Hx). destruct (wish _ _ _ _ _) as [[|]|]; reflexivity.
Qed.

(* ---- what is shown ---- *)

Lemma opt_eqb_eq x y : opt_eqb x y = true <-> x = y.
Proof. destruct x, y; cbn; split; intros H; try discriminate; auto; [apply Z.eqb_eq in H; congruence|injection H as <-; apply Z.eqb_refl]. Qed.
Lemma evaluate_means c b v : bc_mode c <> NO_STATE_CHANGE -> (evaluate c b v = true <-> means_on c v).
Proof.
  intros Hm. unfold evaluate, means_on, compares. destruct v as [z|]; [|split; [discriminate|intros (z & E & _); discriminate]].
  destruct (bc_mode c); try contradiction; rewrite ?Z.eqb_eq, ?Z.leb_le, ?Z.ltb_lt; split; try (intros H; exists z; split; auto; lia); intros (y & E & H); injection E as <-; lia.
Qed.

Section Shown.
Variable a : nat.
Let m := a_map (y_action g a).
Let cb := a_cb (y_action g a).
Hypothesis Hmode : bc_mode cb <> NO_STATE_CHANGE.
Hypothesis Hown : own_parameter g a.
Hypothesis Hdep : forall k, depends (maps0 k) <> Some m.

Definition D (s : sys) (u : option Z) : Prop := b_cur (a_b (y_act s a)) = None \/ b_cur (a_b (y_act s a)) = Some u.
(* the display follows the value: from value u and state on to value u' and state on' *)
Definition F (s s' : sys) (u u' : option Z) : Prop :=
  (D s u -> D s' u') /\ (b_cur (a_b (y_act s a)) <> None -> b_cur (a_b (y_act s' a)) <> None) /\
  (D s u -> (u' = u /\ b_on (a_b (y_act s' a)) = b_on (a_b (y_act s a))) \/ (b_on (a_b (y_act s' a)) = true <-> means_on cb u')).
Lemma F_refl s s' u : y_act s' a = y_act s a -> F s s' u u.
Proof. intros E. unfold F, D. rewrite E. auto 10. Qed.
Lemma F_trans s1 s2 s3 u1 u2 u3 : F s1 s2 u1 u2 -> F s2 s3 u2 u3 -> F s1 s3 u1 u3.
Proof.
  intros (A1 & A2 & A3) (B1 & B2 & B3). split; [auto|]. split; [auto|]. intros HD. specialize (A3 HD). specialize (B3 (A1 HD)).
  destruct B3 as [[-> B3]|B3]; [|auto]. destruct A3 as [[-> A3]|A3]; [left; split; congruence|right; rewrite B3; exact A3].
Qed.

Lemma act_show_on s v s' e : act_show g s a v = (s', e) ->
  b_cur (a_b (y_act s' a)) = Some v /\
  b_on (a_b (y_act s' a)) = if match b_cur (a_b (y_act s a)) with Some c => opt_eqb v c | None => false end then b_on (a_b (y_act s a))
                            else evaluate cb (b_on (a_b (y_act s a))) v.
Proof.
  unfold act_show, update_displays. intros H.
  set (x1 := match b_cur (a_b (y_act s a)) with Some _ => _ | None => _ end) in H.
  assert (b_cur x1 = Some v /\ b_on x1 = if match b_cur (a_b (y_act s a)) with Some c => opt_eqb v c | None => false end then b_on (a_b (y_act s a))
                            else evaluate cb (b_on (a_b (y_act s a))) v) as [E1 E2].
  { unfold x1. destruct (b_cur (a_b (y_act s a))) as [c|] eqn:Ec; [|split; reflexivity].
    destruct (opt_eqb v c) eqn:Ev; [|split; reflexivity]. apply opt_eqb_eq in Ev. subst. auto. }
  clearbody x1. rewrite <- E2, <- E1. destruct (negb _ || negb _); injection H as <- _; cbn; rewrite fupd_same; cbn; auto.
Qed.
Lemma act_show_F s v s' e u : act_show g s a v = (s', e) -> F s s' u v.
Proof.
  intros H. destruct (act_show_on _ _ _ _ H) as [E1 E2]. unfold F, D. rewrite E1. split; [auto|]. split; [discriminate|].
  rewrite E2. intros [-> | ->]; [right; apply evaluate_means; exact Hmode|].
  destruct (opt_eqb v u) eqn:Ev; [apply opt_eqb_eq in Ev; auto|right; apply evaluate_means; exact Hmode].
Qed.

Lemma deliver_F arg evs : Forall (ev_own maps0 mine) evs -> forall s s' e u, deliver g arg s evs = (s', e) -> F s s' (num u) (num (track m u evs)).
Proof.
  induction 1 as [|x evs Hx HF IH]; intros s s' e u H; cbn [deliver] in H.
  - injection H as <- <-. apply F_refl. reflexivity.
  - destruct (deliver1 g arg s x) as [s1 o1] eqn:E1. destruct (deliver g arg s1 evs) as [s2 o2] eqn:E2. injection H as <- <-.
    change (track m u (x :: evs)) with (track m (track1 m u x) evs). eapply F_trans; [|eapply IH; exact E2].
    assert (Hext : forall k y v, mine k y -> (k =? m)%nat = true -> act_show g s (x_id y) v = (s1, o1) -> F s s1 (num u) v).
    { intros k y v (k' & -> & Ek) Em Ha. apply Nat.eqb_eq in Em. cbn in Ha. assert (k' = a) as ->.
      { destruct (Nat.eq_dec k' a); auto. exfalso. apply (Hown k'); auto. rewrite Ek. exact Em. }
      eapply act_show_F; eauto. }
    assert (Hoth : forall k y v, mine k y -> (k =? m)%nat = false -> act_show g s (x_id y) v = (s1, o1) -> F s s1 (num u) (num u)).
    { intros k y v (k' & -> & Ek) Em Ha. apply Nat.eqb_neq in Em. cbn in Ha. apply F_refl. assert (a <> k') as Hne by (intros E0; apply Em; rewrite <- Ek, <- E0; reflexivity).
      eapply act_show_other; eauto. }
    destruct x; cbn [deliver1] in E1; cbn [track1]; try (injection E1 as <- <-; apply F_refl; reflexivity).
    + destruct l as [y|d]; cbn in Hx.
      * destruct (m0 =? m)%nat eqn:Em; eauto.
      * injection E1 as <- <-. destruct (m0 =? m)%nat eqn:Em; [|apply F_refl; reflexivity]. apply Nat.eqb_eq in Em. subst. exfalso. eapply Hdep; eauto.
    + destruct l as [y|d]; cbn in Hx; [|injection E1 as <- <-; apply F_refl; reflexivity].
      assert (x_clears y = true) as -> by (destruct Hx as (k' & -> & _); reflexivity). rewrite andb_true_r.
      destruct (m0 =? m)%nat eqn:Em; eauto.
Qed.
Lemma call_F s o s' e : CI s -> op_ok o -> call g s o = Ok (s', e) -> F s s' (known s m) (known s' m).
Proof.
  intros [_ HL] Ho H. destruct (call_keeps _ _ _ _ H) as (c & evs & Hc & _ & Ec & _).
  destruct (cstep_own maps0 mine _ _ _ _ _ HL Ho Hc) as (_ & Fo & Tr & _). unfold call in H. rewrite Hc in H. injection H as H.
  unfold known. rewrite Ec, (Tr m). exact (deliver_F _ _ Fo _ _ _ (val (maps (y_cl s) m)) H).
Qed.

(* setting the own parameter *)
Hypothesis Hbi : y_bi g m = true -> exists on off, bc_enable cb = SOne on /\ bc_disable cb = OOne (Some off) /\
  compares (bc_mode cb) on (bc_ref cb) /\ ~ compares (bc_mode cb) off (bc_ref cb).

Definition stays (s s' : sys) : Prop :=
  (D s (known s m) -> b_cur (a_b (y_act s a)) <> None -> D s' (known s' m) /\ b_cur (a_b (y_act s' a)) <> None /\ b_on (a_b (y_act s' a)) = b_on (a_b (y_act s a))).
Lemma call_set_stays s now v s' e : CI s -> call g s (Set_ now m (set_arg v)) = Ok (s', e) ->
  (y_bi g m = true -> exists z, v = SOne z /\ (b_on (a_b (y_act s a)) = true <-> means_on cb (Some z))) -> stays s s'.
Proof.
  intros HC H Hv. pose proof (call_F _ (Set_ now m (set_arg v)) _ _ HC I H) as (F1 & F2 & F3). intros HD Hc. split; [auto|]. split; [auto|].
  destruct (call_keeps _ _ _ _ H) as (c & evs & Hcs & _ & Ec & _).
  destruct (y_bi g m) eqn:Eb.
  - destruct (Hv eq_refl) as (z & -> & Hz). destruct HC as [(cops & cevs & Hr) _].
    destruct (c12_feedback _ _ _ _ _ _ _ _ _ _ _ Hr Eb Hcs) as (z' & E & Ev & _). cbn in E. injection E as <-.
    assert (known s' m = Some z) as Ek by (unfold known; rewrite Ec, Ev; reflexivity). rewrite Ek in F3.
    destruct (F3 HD) as [[_ E]|E]; [exact E|]. rewrite <- Hz in E. destruct (b_on (a_b (y_act s a))), (b_on (a_b (y_act s' a))); auto; destruct E as [E1 E2]; [rewrite E2|rewrite E1]; auto.
  - cbn in Hcs. destruct (set_param_shape _ _ _ _ _ _ _ Hcs) as (c1 & e1 & H1 & [(_ & -> & ->)|(Hb & _)]); [|congruence].
    unfold call in H. cbn [cstep] in H. rewrite Hcs in H. injection H as H.
    assert (Forall (fun e => match e with EvChanged (LExt x) _ _ | EvTerminated (LExt x) _ => x_id x <> a | _ => True end) e1) as HF.
    { destruct H1 as [(_ & _ & ->)|(m' & _ & _ & _ & ->)]; repeat constructor. }
    destruct (deliver_other _ _ _ HF _ _ _ H) as [E _]. rewrite E. reflexivity.
Qed.
Lemma stays_trans s1 s2 s3 : stays s1 s2 -> stays s2 s3 -> stays s1 s3.
Proof. intros H1 H2 HD Hc. destruct (H1 HD Hc) as (A & B & C). destruct (H2 A B) as (A' & B' & C'). split; auto. split; auto. congruence. Qed.

Lemma perform_stays s now s' e : CI s -> (forall w, fixed_off (bc_disable cb) = Some w -> b_off (a_b (y_act s a)) = bc_disable cb) ->
  perform g a now s (state_changed cb (a_b (y_act s a))) = Ok (s', e) -> stays s s'.
Proof.
  intros HC HO H. unfold state_changed in H.
  set (l := match b_off (a_b (y_act s a)) with OOne _ => _ | OMany _ => _ end) in H.
  assert (Hl : l = [] \/ exists dm v, l = [ESet dm v] /\
     (y_bi g m = true -> exists z, v = SOne z /\ (b_on (a_b (y_act s a)) = true <-> means_on cb (Some z)))).
  { unfold l. destruct (y_bi g m) eqn:Eb.
    - destruct (Hbi eq_refl) as (on & off & E1 & E2 & C1 & C2). rewrite (HO (SOne off)) by (rewrite E2; reflexivity). rewrite E2, E1. right.
      destruct (b_on (a_b (y_act s a))); eexists _, _; (split; [reflexivity|]); intros _; eexists; (split; [reflexivity|]); split; auto.
      + intros _. exists on. auto.
      + discriminate.
      + intros (z & E & Hz). injection E as <-. contradiction.
    - destruct (b_off (a_b (y_act s a))) as [[z|]|zs].
      + right. destruct (b_on (a_b (y_act s a))); eexists _, _; (split; [reflexivity|discriminate]).
      + destruct (b_on (a_b (y_act s a))); [right; eexists _, _; (split; [reflexivity|discriminate])|auto].
      + destruct (all_some zs); [right; eexists _, _; (split; [reflexivity|discriminate])|auto]. }
  clearbody l.
  assert (Hask : forall s1 s2 e2, CI s1 -> perform g a now s1 [EAsk] = Ok (s2, e2) -> stays s1 s2).
  { intros s1 s2 e2 HC1 H1. cbn [perform] in H1. destruct (call g s1 _) as [[s3 o3]|] eqn:E; [|discriminate]. injection H1 as <- <-.
    destruct (call_quiet _ _ _ _ a HC1 (ask_ok now a) I E) as (A & _ & _ & V). unfold stays, D, known. rewrite A. fold m in V. rewrite V. auto. }
  destruct Hl as [-> |(dm & v & -> & Hv)]; cbn [app] in H; [eapply Hask; eauto|].
  cbn [perform] in H. fold m in H. destruct (call g s (Set_ _ _ _)) as [[s1 o1]|] eqn:E1; [|discriminate].
  destruct (call g s1 (Request now m (Some (listener_of a)))) as [[s2 o2]|] eqn:E2; [|discriminate]. injection H as <- <-.
  eapply stays_trans; [eapply call_set_stays; eauto|]. eapply Hask; [eapply call_CI; [exact HC| |exact E1]; exact I|].
  cbn [perform]. fold m. rewrite E2. reflexivity.
Qed.

Lemma operate_shown ds s lits now f s' e : Inv_s ds s lits -> f = push \/ f = release -> operate g s a now f = Ok (s', e) ->
  D s (known s m) -> D s' (known s' m) /\ (b_cur (a_b (y_act s a)) <> None -> b_on (a_b (y_act s' a)) = b_state (fst (f (button_of g s a) now))).
Proof.
  intros (HC & HJ & HO & _) Hf H HD. unfold operate in H. destruct (f (button_of g s a) now) as [b' evs] eqn:Ef. cbn [fst].
  pose proof (button_shape _ _ _ _ _ Hf Ef) as Hsh.
  set (s0 := put_act s a (mkA (b_period b') (set_on (a_b (y_act s a)) (b_state b')))) in *.
  assert (H0 : y_act s0 a = mkA (b_period b') (set_on (a_b (y_act s a)) (b_state b'))) by (cbn; apply fupd_same).
  assert (HC0 : CI s0) by exact HC. assert (HD0 : D s0 (known s0 m)) by (unfold D; rewrite H0; exact HD).
  assert (Hend : forall s1 s2 e2, act_show g s1 a (known s1 m) = (s2, e2) ->
     (b_cur (a_b (y_act s a)) <> None -> D s1 (known s1 m) /\ b_cur (a_b (y_act s1 a)) <> None /\ b_on (a_b (y_act s1 a)) = b_state b') ->
     D s2 (known s2 m) /\ (b_cur (a_b (y_act s a)) <> None -> b_on (a_b (y_act s2 a)) = b_state b')).
  { intros s1 s2 e2 Hs Hk. destruct (act_show_on _ _ _ _ Hs) as [E1 E2]. apply act_show_keeps in Hs. destruct Hs as (_ & Ec & _).
    split; [right; rewrite E1; unfold known; rewrite Ec; reflexivity|]. intros Hn. destruct (Hk Hn) as ([A|A] & B & C); [contradiction|].
    rewrite E2, A. assert (opt_eqb (known s1 m) (known s1 m) = true) as -> by (apply opt_eqb_eq; reflexivity). exact C. }
  destruct Hsh as [(-> & Est)|[-> | ->]].
  - injection H as <- <-. split; [exact HD0|]. intros _. rewrite H0. reflexivity.
  - cbn [effects] in H. fold cb in H. destruct (perform g a now s0 _) as [[s1 e1]|] eqn:E1; [|discriminate].
    destruct (act_show g s1 a _) as [s2 e2] eqn:E2. injection H as <- <-. eapply Hend; [exact E2|]. intros Hn.
    apply perform_stays in E1; [|exact HC0|intros w Hw; rewrite H0; eapply HO; exact Hw]. specialize (E1 HD0). rewrite H0 in E1. cbn in E1. auto.
  - cbn [effects] in H. destruct (act_show g s0 a _) as [s2 e2] eqn:E2. injection H as <- <-. eapply Hend; [exact E2|]. intros Hn.
    split; [exact HD0|]. rewrite H0. auto.
Qed.

Variable j : nat.
Hypothesis Hj : only_on g j a.

Lemma ystep_D ops s evs o s' e : powered g maps0 lt ops s evs -> ystep g s o = Ok (s', e) -> D s (known s m) -> D s' (known s' m).
Proof.
  intros Hp H HD. pose proof (powered_Inv _ _ _ Hp) as HI. destruct HI as (HC & HI). pose proof (conj HC HI) as HI'. clear HI.
  assert (Hq : forall s1 s2 e0, quiet a s1 s2 e0 -> D s1 (known s1 m) -> D s2 (known s2 m)).
  { intros s1 s2 e0 (A & _ & _ & V) Hd. unfold D, known. rewrite A. fold m in V. rewrite V. exact Hd. }
  destruct o as [k now|k now|k|k p now|now x].
  - eapply Hq; [eapply call_quiet; [exact HC| | |exact H]|exact HD]; [|exact I]. cbn. eexists; split; [reflexivity|]. exists k; auto.
  - eapply Hq; [eapply call_quiet; [exact HC| | |exact H]|exact HD]; [apply ask_ok|exact I].
  - cbn [ystep] in H. injection H as H. destruct (act_show_keeps _ _ _ _ _ H) as (_ & Ec & _). destruct (Nat.eq_dec a k) as [<-|Hn].
    + apply act_show_on in H. destruct H as [E _]. right. rewrite E. unfold known. rewrite Ec. reflexivity.
    + apply (act_show_other _ _ _ _ _ a Hn) in H. destruct H as [E _]. unfold D, known. rewrite E, Ec. cbn. rewrite fupd_other by auto. exact HD.
  - destruct (poll_cases _ _ _ _ _ _ _ _ _ _ Hp Hj Hown H) as [[Q _]|(-> & f & s1 & e1 & s2 & e2 & e3 & Hf & Q1 & I1 & Hop & _ & Q3 & _)]; [eauto|].
    eapply Hq; [exact Q3|]. assert (Hff : f = push \/ f = release) by tauto. eapply operate_shown; eauto.
  - eapply (call_F _ (Receive now x)); eauto. exact I.
Qed.
Lemma powered_D ops : forall s evs, powered g maps0 lt ops s evs -> D s (known s m).
Proof.
  induction ops as [|ops o IH] using rev_ind_snoc; intros s evs [Hn H].
  - cbn in H. injection H as <- <-. left. reflexivity.
  - rewrite yrun_snoc in H. destruct (yrun g (yinit g maps0 lt) ops) as [[s1 es]|] eqn:E; [|discriminate].
    destruct (ystep g s1 o) as [[s2 e]|] eqn:E2; [|discriminate]. injection H as <- <-.
    assert (powered g maps0 lt ops s1 es) as Hp by (split; auto). eapply ystep_D; eauto.
Qed.

Lemma c56_display ops s evs o s' e : powered g maps0 lt ops s evs -> ystep g s o = Ok (s', e) -> bc_live cb = true -> In (YRedraw a) ops ->
  let lit := lit_after a false (concat evs) in
  let lit' := lit_after a lit e in
  match o with
  | YPoll _ _ _ => lit' = shown_after_poll (y_action g a) j ops lit o
  | YRedraw k => if (k =? a)%nat then lit' = true <-> means_on cb (known s' m) else lit' = lit
  | YReceive _ _ => (known s' m = known s m /\ lit' = lit) \/ (lit' = true <-> means_on cb (known s' m))
  | YInit _ _ | YUpdate _ _ => lit' = lit
  end.
Proof.
  intros Hp H Hl Hr lit lit'. pose proof (powered_Inv _ _ _ Hp) as HI. pose proof (ystep_Inv _ _ _ _ _ _ HI H) as HI2.
  pose proof (powered_D _ _ _ Hp) as HD. destruct HI as (HC & HJ & HO & Hdisp). destruct HI2 as (_ & HJ2 & _).
  assert (El : lit = b_on (a_b (y_act s a))) by (pose proof (J_lit _ _ _ (HJ a)) as E; fold cb in E; rewrite Hl, andb_true_r in E; exact E).
  assert (El' : lit' = b_on (a_b (y_act s' a))) by (pose proof (J_lit _ _ _ (HJ2 a)) as E; fold cb in E; rewrite Hl, andb_true_r in E; exact E).
  assert (Hcur : b_cur (a_b (y_act s a)) <> None).
  { destruct (HJ a) as [_ Hx]. specialize (Hdisp a Hr). destruct (b_disp (a_b (y_act s a))); [apply Hx|contradiction]. }
  destruct o as [k now|k now|k|k p now|now x].
  - assert (op_ok (Register now (a_map (y_action g k)) (Some (listener_of k)))) as Hop by (cbn; eexists; split; [reflexivity|]; exists k; auto).
    destruct (call_quiet _ _ _ _ a HC Hop I H) as (_ & L & _). apply L.
  - destruct (call_quiet _ _ _ _ a HC (ask_ok now k) I H) as (_ & L & _). apply L.
  - cbn [ystep] in H. injection H as H. destruct (act_show_keeps _ _ _ _ _ H) as (_ & Ec & _). destruct (k =? a)%nat eqn:E.
    + apply Nat.eqb_eq in E. subst k. destruct (act_show_on _ _ _ _ H) as [_ E2]. rewrite El', E2. cbn. rewrite fupd_same. cbn.
      unfold known. rewrite Ec. cbn. apply evaluate_means. exact Hmode.
    + apply Nat.eqb_neq in E. assert (a <> k) as Hn by auto. apply (act_show_other _ _ _ _ _ a Hn) in H. apply H.
  - unfold shown_after_poll.
    destruct (poll_cases _ _ _ _ _ _ _ _ _ _ Hp Hj Hown H) as [[Q Hc]|(-> & f & s1 & e1 & s2 & e2 & e3 & Hf & Q1 & I1 & Hop & _ & Q3 & _)].
    + destruct Q as (Q & _). assert (lit' = lit) as -> by (rewrite El', El, Q; reflexivity). unfold wish.
      assert (Hk : (k =? j)%nat = false \/ (k =? j)%nat = true /\ held j ops = p).
      { destruct Hc as [Hc|Hc]; [left; apply Nat.eqb_neq; auto|]. destruct (k =? j)%nat; auto. }
      destruct Hk as [-> |[-> ->]]; cbn; [destruct p, (a_mode (y_action g a)); reflexivity|]. destruct p; destruct (a_mode (y_action g a)); reflexivity.
    + assert (Hff : f = push \/ f = release) by tauto.
      assert (Hf' : held j ops = false /\ f = push \/ held j ops = true /\ f = release) by tauto.
      destruct (button_wish _ _ _ _ _ _ now Hp Hj Hown Hl Hf' s1 (proj1 Q1)) as [Hw Hb].
      destruct Q1 as (Q1 & _ & _ & V1). destruct Q3 as (Q3 & _).
      assert (D s1 (known s1 m)) as HD1 by (unfold D, known; rewrite Q1; fold m in V1; rewrite V1; exact HD).
      destruct (operate_shown _ _ _ _ _ _ _ I1 Hff Hop HD1) as [_ Ho]. rewrite Q1 in Ho. specialize (Ho Hcur).
      rewrite El', Q3, Ho, Hb. fold lit. change (lits_of evs a) with lit in *. rewrite Hw. unfold wish. rewrite Nat.eqb_refl. cbn [negb].
      destruct Hf as [(Eh & -> & ->)|(Eh & -> & ->)]; rewrite Eh; cbn.
      * destruct (at_press _ _); destruct (a_mode (y_action g a)); reflexivity.
      * destruct (at_release _ _ _ _ _); destruct (a_mode (y_action g a)); reflexivity.
  - destruct (call_F _ (Receive now x) _ _ HC I H) as (_ & _ & F3). rewrite El, El'. auto.
Qed.
End Shown.

(* ---- device reports ---- *)

Lemma call_perm s o s' e k : CI s -> call g s o = Ok (s', e) -> permanent (y_cl s) k -> permanent (y_cl s') k.
Proof.
  intros [(cops & cevs & Hr) _] H Hk. destruct (call_keeps _ _ _ _ H) as (c & evs & Hc & _ & -> & _).
  assert (crun (y_bi g) (y_cl s) [o] = Ok (c, [evs])) as E by (cbn; rewrite Hc; reflexivity).
  eapply c09_forever; eauto.
Qed.
Lemma perform_perm k0 k now evs : forall s s' e, CI s -> perform g k0 now s evs = Ok (s', e) -> permanent (y_cl s) k -> permanent (y_cl s') k.
Proof.
  induction evs as [|x evs IH]; intros s s' e HC H Hk; cbn [perform] in H; [injection H as <- <-; auto|].
  match type of H with match ?t with _ => _ end = _ => destruct t as [[s1 o1]|] eqn:E1 end; [|discriminate].
  destruct (perform g k0 now s1 evs) as [[s2 o2]|] eqn:E2; [|discriminate]. injection H as <- <-.
  destruct x as [dm v| |].
  - eapply (IH s1); [eapply (call_CI _ (Set_ now (a_map (y_action g k0)) (set_arg v))); [exact HC|exact I|exact E1]|exact E2|eapply call_perm; eauto].
  - eapply (IH s1); [eapply call_CI; [exact HC|apply ask_ok|exact E1]|exact E2|eapply call_perm; eauto].
  - injection E1 as <- <-. eapply IH; eauto.
Qed.
Lemma operate_perm s k0 k now f s' e : CI s -> f = push \/ f = release -> operate g s k0 now f = Ok (s', e) -> permanent (y_cl s) k -> permanent (y_cl s') k.
Proof.
  intros HC Hf H Hk. unfold operate in H. destruct (f (button_of g s k0) now) as [b' evs] eqn:Ef.
  pose proof (button_shape _ _ _ _ _ Hf Ef) as Hsh. set (s0 := put_act s k0 _) in H.
  destruct Hsh as [(-> & _)|[-> | ->]]; cbn [effects] in H; [injection H as <- <-; exact Hk| |].
  - destruct (perform g k0 now s0 _) as [[s1 e1]|] eqn:E1; [|discriminate]. apply perform_perm with (k := k) in E1; [|exact HC|exact Hk].
    destruct (act_show g s1 k0 _) as [s2 e2] eqn:E2. injection H as <- <-. apply act_show_keeps in E2. destruct E2 as (_ & -> & _). exact E1.
  - destruct (act_show g s0 k0 _) as [s2 e2] eqn:E2. injection H as <- <-. apply act_show_keeps in E2. destruct E2 as (_ & -> & _). exact Hk.
Qed.
Lemma drive_perm ds now k evs : forall s lits s' e, Inv_s ds s lits -> drive g now s evs = Ok (s', e) -> permanent (y_cl s) k -> permanent (y_cl s') k.
Proof.
  induction evs as [|x evs IH]; intros s lits s' e HI H Hk; cbn [drive] in H; [injection H as <- <-; auto|].
  match type of H with match ?t with _ => _ end = _ => destruct t as [[s1 o1]|] eqn:E1 end; [|discriminate].
  destruct (drive g now s1 evs) as [[s2 o2]|] eqn:E2; [|discriminate]. injection H as <- <-.
  destruct x as [z|z| |]; [| |injection E1 as <- <-; eapply IH; eauto..].
  - eapply IH; [exact (proj1 (operate_ok _ _ _ _ _ _ _ _ HI (or_introl eq_refl) E1))|exact E2|].
    eapply operate_perm; [exact (proj1 HI)|left; reflexivity|exact E1|exact Hk].
  - eapply IH; [exact (proj1 (operate_ok _ _ _ _ _ _ _ _ HI (or_intror eq_refl) E1))|exact E2|].
    eapply operate_perm; [exact (proj1 HI)|right; reflexivity|exact E1|exact Hk].
Qed.
Lemma ystep_perm ops s evs o s' e k : powered g maps0 lt ops s evs -> ystep g s o = Ok (s', e) -> permanent (y_cl s) k -> permanent (y_cl s') k.
Proof.
  intros Hp H Hk. pose proof (powered_Inv _ _ _ Hp) as HI. destruct o as [a now|a now|a|j p now|now x]; cbn [ystep] in H.
  - eapply call_perm; [exact (proj1 HI)|exact H|exact Hk].
  - eapply call_perm; [exact (proj1 HI)|exact H|exact Hk].
  - injection H as H. apply act_show_keeps in H. destruct H as (_ & -> & _). exact Hk.
  - destruct (process _ _ _) as [w ev]. eapply drive_perm; [|exact H|exact Hk]. exact HI.
  - eapply call_perm; [exact (proj1 HI)|exact H|exact Hk].
Qed.

Lemma static_reached cops c cevs k : reached (y_bi g) maps0 lt cops c cevs ->
  response_t (maps c k) = response_t (maps0 k) /\ typ (maps c k) = typ (maps0 k) /\ two_part (maps c k) = two_part (maps0 k).
Proof.
  intros [_ H]. refine (crun_maps (fun a b => response_t b = response_t a /\ typ b = typ a /\ two_part b = two_part a) _ _ _ _ _ _ _ _ _ _ _ k H); auto.
  - intros x y z (A & B & C) (A' & B' & C'). repeat split; congruence.
  - intros x a x' Hs. unfold set_value in Hs. destruct (set_t x).
    + destruct (typ x) eqn:Et; [injection Hs as <-; auto|discriminate].
    + destruct a; [|discriminate]. destruct (set_value_one _ _ _); [|discriminate]. injection Hs as <-. auto.
    + destruct a; [destruct l; [injection Hs as <-; auto|discriminate]|]. destruct (set_value_list _ _ _) as [xs ok]. injection Hs as <- _. auto.
Qed.

Lemma powered_perm ops : forall s evs a t, powered g maps0 lt ops s evs -> truthy (request_t (maps0 (a_map (y_action g a)))) = false ->
  truthy (response_t (maps0 (a_map (y_action g a)))) = true -> In (YInit a t) ops -> permanent (y_cl s) (a_map (y_action g a)).
Proof.
  induction ops as [|ops o IH] using rev_ind_snoc; intros s evs a t [Hn H] Hq Hp Hi; [destruct Hi|].
  rewrite yrun_snoc in H. destruct (yrun g (yinit g maps0 lt) ops) as [[s1 es]|] eqn:E; [|discriminate].
  destruct (ystep g s1 o) as [[s2 e]|] eqn:E2; [|discriminate]. injection H as <- <-.
  assert (powered g maps0 lt ops s1 es) as Hpw by (split; auto). apply in_app_or in Hi. destruct Hi as [Hi|[->|[]]].
  - eapply ystep_perm; eauto.
  - cbn [ystep] in E2. destruct (call_keeps _ _ _ _ E2) as (c & ev & Hc & _ & -> & _).
    destruct (powered_Inv _ _ _ Hpw) as ([(cops & cevs & Hr) _] & _). destruct (static_reached _ _ _ (a_map (y_action g a)) Hr) as (Er & _).
    refine (proj1 (c09_registered _ _ _ _ _ _ _ _ _ _ _ Hr (or_introl Hq) _ Hc)). rewrite Er. exact Hp.
Qed.

Lemma c56_report ops s evs a t now x s' e r : powered g maps0 lt ops s evs -> ystep g s (YReceive now (Some x)) = Ok (s', e) ->
  let m := a_map (y_action g a) in
  In (YInit a t) ops -> request_t (maps0 m) = TNone -> response_t (maps0 m) = TOne r -> proper_template r -> two_part (maps0 m) = false ->
  typ (maps0 m) = Numeric -> depends (maps0 m) = None -> addressed x r ->
  exists z, carries Numeric x (VNum z) /\ known s' m = Some z.
Proof.
  intros Hp H m Hi Hq Hr Hpr H2 Ht Hd Ha. cbn [ystep] in H. destruct (call_keeps _ _ _ _ H) as (c & ev & Hc & _ & Ec & _).
  assert (permanent (y_cl s) m) as Hperm by (eapply powered_perm; eauto; [fold m; rewrite Hq; reflexivity|fold m; rewrite Hr; reflexivity]).
  destruct (powered_Inv _ _ _ Hp) as ([(cops & cevs & Hre) _] & _). destruct (static_reached _ _ _ m Hre) as (E1 & E2 & E3).
  destruct (c09_delivery (y_bi g) maps0 lt cops (y_cl s) cevs now x c ev m r Hre Hperm Hd) as (v & Hv & Ev & _); try congruence; auto.
  rewrite E2, Ht in Hv. unfold known. rewrite Ec, Ev. assert (exists z, v = VNum z) as (z & ->) by (inversion Hv; subst; eauto).
  exists z. auto.
Qed.

(* ---- no exception ---- *)

Hypothesis Hns : no_self_dependency maps0.
Hypothesis Hsound : forall k, sound (maps0 k).
Hypothesis Happ : told_apart maps0.
Hypothesis Hnb : forall k, y_bi g k = false.
Hypothesis Hsend : forall k, sendable g maps0 k.

Lemma call_total s o : CI s -> match o with Set_ _ k v => fits (maps0 k) v | _ => True end -> exists s' e, call g s o = Ok (s', e).
Proof.
  intros [(cops & cevs & Hr) _] Ho. destruct (c58_step (y_bi g) maps0 lt Hns Hsound Happ cops (y_cl s) cevs o Hr) as (c & ev & E).
  - destruct o; cbn; auto. split; auto. rewrite Hnb. discriminate.
  - unfold call. rewrite E. destruct (deliver g _ _ ev) as [s' e]. eauto.
Qed.
Lemma perform_total k now evs : Forall (fun x => match x with ESet _ v => fits (maps0 (a_map (y_action g k))) (set_arg v) | _ => True end) evs ->
  forall s, CI s -> exists s' e, perform g k now s evs = Ok (s', e).
Proof.
  induction 1 as [|x evs Hx HF IH]; intros s HC; cbn [perform]; [eauto|]. destruct x as [dm v| |].
  - destruct (call_total s (Set_ now (a_map (y_action g k)) (set_arg v)) HC Hx) as (s1 & e1 & E1). rewrite E1.
    destruct (IH s1 (call_CI _ (Set_ now (a_map (y_action g k)) (set_arg v)) _ _ HC I E1)) as (s2 & e2 & E2). rewrite E2. eauto.
  - destruct (call_total s (Request now (a_map (y_action g k)) (Some (listener_of k))) HC I) as (s1 & e1 & E1). rewrite E1.
    destruct (IH s1 (call_CI _ _ _ _ HC (ask_ok now k) E1)) as (s2 & e2 & E2). rewrite E2. eauto.
  - destruct (IH s HC) as (s2 & e2 & E2). rewrite E2. eauto.
Qed.
Lemma operate_total ds s lits k now f : Inv_s ds s lits -> f = push \/ f = release -> exists s' e, operate g s k now f = Ok (s', e).
Proof.
  intros (HC & _ & HO & _) Hf. unfold operate. destruct (f (button_of g s k) now) as [b' evs] eqn:Ef.
  pose proof (button_shape _ _ _ _ _ Hf Ef) as Hsh. set (s0 := put_act s k _).
  assert (H0 : y_act s0 k = mkA (b_period b') (set_on (a_b (y_act s k)) (b_state b'))) by (cbn; apply fupd_same).
  destruct Hsh as [(-> & _)|[-> | ->]]; cbn [effects]; [eauto| |destruct (act_show g s0 k _) as [s2 e2]; eauto].
  assert (HF : Forall (fun x => match x with ESet _ v => fits (maps0 (a_map (y_action g k))) (set_arg v) | _ => True end)
    (state_changed (a_cb (y_action g k)) (a_b (y_act s0 k)))).
  { destruct (Hsend k) as (He & w & Hw & Hfit). rewrite H0. unfold state_changed. cbn [a_b set_on b_off b_on]. rewrite (HO k w Hw).
    apply Forall_app. split; [|repeat constructor]. unfold fixed_off in Hw. destruct (bc_disable (a_cb (y_action g k))) as [[z|]|l]; [|discriminate|].
    - injection Hw as <-. destruct (b_state b'); repeat constructor; assumption.
    - destruct (all_some l); [|discriminate]. injection Hw as <-. destruct (b_state b'); repeat constructor; assumption. }
  destruct (perform_total k now _ HF s0 HC) as (s1 & e1 & E1). rewrite E1. destruct (act_show g s1 k _) as [s2 e2]. eauto.
Qed.
Lemma drive_total ds now evs : forall s lits, Inv_s ds s lits -> exists s' e, drive g now s evs = Ok (s', e).
Proof.
  induction evs as [|x evs IH]; intros s lits HI; cbn [drive]; [eauto|].
  assert (exists s1 o1, match x with Push a => operate g s (Z.to_nat a) now push | Release a => operate g s (Z.to_nat a) now release | _ => Ok (s, []) end = Ok (s1, o1) /\ Inv_s ds s1 (adv lits o1)) as (s1 & o1 & E & I1).
  { destruct x as [z|z| |].
    - destruct (operate_total ds s lits (Z.to_nat z) now push HI (or_introl eq_refl)) as (s1 & o1 & E). exists s1, o1. split; auto.
      exact (proj1 (operate_ok _ _ _ _ _ _ _ _ HI (or_introl eq_refl) E)).
    - destruct (operate_total ds s lits (Z.to_nat z) now release HI (or_intror eq_refl)) as (s1 & o1 & E). exists s1, o1. split; auto.
      exact (proj1 (operate_ok _ _ _ _ _ _ _ _ HI (or_intror eq_refl) E)).
    - exists s, []. split; auto.
    - exists s, []. split; auto. }
  rewrite E. destruct (IH _ _ I1) as (s2 & e2 & E2). rewrite E2. eauto.
Qed.
Lemma c56_total ops : exists s evs, powered g maps0 lt ops s evs.
Proof.
  induction ops as [|ops o (s & evs & Hp)] using rev_ind_snoc; [exists (yinit g maps0 lt), []; split; auto|].
  pose proof (powered_Inv _ _ _ Hp) as HI. pose proof HI as (HC & _).
  assert (exists s' e, ystep g s o = Ok (s', e)) as (s' & e & E).
  { destruct o as [k now|k now|k|k p now|now x]; cbn [ystep].
    - apply call_total; auto.
    - apply call_total; auto.
    - destruct (act_show g _ k _) as [s2 e2]. eauto.
    - destruct (process _ _ _) as [w ev]. eapply drive_total. exact HI.
    - apply call_total; auto. }
  exists s', (evs ++ [e]). destruct Hp as [_ Hp]. split; [exact Hns|]. rewrite yrun_snoc, Hp, E. reflexivity.
Qed.

End Sys.
