(* Lemmas for C86. *)
From Verif.Lib Require Import Base.
From Verif.Model Require Import Midi Bridge.
From Verif.Spec Require Import Bridge.
From Verif.Proofs Require Import Protocol BridgeCodec BridgeNet BridgeFifo.
Local Open Scope list_scope.

Definition says (command : Z) (i : list Z) (ev : list bev) : Prop := exists m rest, In (Sysex m) ev /\ firstn 1 m = [command] /\ skipn 4 m = i ++ rest.
(* what a step at time now may do to the transmissions held *)
Definition moved (now : Z) (b b' : bridge) (ev : list bev) : Prop :=
  (forall t, In t (b_tx b') -> In t (b_tx b) \/ t_time t = Some now /\ says 3 (t_id t) ev) /\
  (forall r, In r (b_rx b') -> In r (b_rx b) \/ r_time r = None /\ r_last r = -1 \/ r_time r = Some now /\ says 4 (r_id r) ev).
Definition swept (now : Z) (b : bridge) : Prop := Forall (fun t => stale now (t_time t) = false) (b_tx b) /\ Forall (fun r => stale now (r_time r) = false) (b_rx b).
Definition is_report (e : bev) : bool := match e with RecvFinish _ _ _ _ | RecvError _ => true | _ => false end.
Definition opens (ev : list bev) : Prop := (exists m, In (Sysex m) ev /\ firstn 1 m = [2]) \/ (exists i p a, In (RecvStart i p a) ev).

Lemma says_framed c i rest ev : In (Sysex (framed c (i ++ rest))) ev -> says c i ev.
Proof. intros Hin. destruct (framed_parts c (i ++ rest)) as [A [_ B]]. exists (framed c (i ++ rest)), rest. auto. Qed.
Lemma says_incl c i ev ev' : incl ev ev' -> says c i ev -> says c i ev'.
Proof. intros Hi [m [rest [A B]]]. exists m, rest. split; [apply Hi, A|exact B]. Qed.
Lemma moved_same now b ev : moved now b b ev. Proof. split; intros x Hx; left; exact Hx. Qed.
Lemma moved_trans now b1 b2 b3 ev ev' : moved now b1 b2 ev -> moved now b2 b3 ev' -> moved now b1 b3 (ev ++ ev').
Proof.
  intros [A1 A2] [B1 B2]. split.
  - intros t Ht. destruct (B1 t Ht) as [Q|[Q1 Q2]]; [|right; split; [exact Q1|eapply says_incl; [|exact Q2]; apply incl_appr, incl_refl]].
    destruct (A1 t Q) as [R|[R1 R2]]; [left; exact R|right; split; [exact R1|eapply says_incl; [|exact R2]; apply incl_appl, incl_refl]].
  - intros t Ht. destruct (B2 t Ht) as [Q|[Q|[Q1 Q2]]]; [|right; left; exact Q|right; right; split; [exact Q1|eapply says_incl; [|exact Q2]; apply incl_appr, incl_refl]].
    destruct (A2 t Q) as [R|[R|[R1 R2]]]; [left; exact R|right; left; exact R|right; right; split; [exact R1|eapply says_incl; [|exact R2]; apply incl_appl, incl_refl]].
Qed.
Lemma stale_now now : stale now (Some now) = false. Proof. unfold stale. lia. Qed.
Lemma swept_cleanup now b : swept now (cleanup now b).
Proof. split; apply Forall_forall; intros x Hx; apply filter_In in Hx; destruct Hx as [_ Hx]; apply negb_true_iff; exact Hx. Qed.

Lemma start_moved now path msg size type b b' ev : start_send now path msg size type b = (b', ev) -> moved now b b' ev /\ swept now b'.
Proof.
  unfold start_send. intros E. cbn [send_chunk t_id t_type t_path t_amount t_size t_rest t_next] in E. apply pair_equal_spec in E. destruct E as [<- <-]. pose proof (swept_cleanup now b) as [S1 S2]. split; [split|split]; cbn [b_tx b_rx].
  - intros t Ht. unfold tx_put in Ht. apply in_app_or in Ht. destruct Ht as [Ht|[<-|[]]].
    + left. apply filter_In in Ht. destruct Ht as [Ht _]. apply filter_In in Ht. apply Ht.
    + right. cbn [t_time t_id]. split; [reflexivity|]. eapply says_framed. right. right. left. reflexivity.
  - intros r Hr. left. apply filter_In in Hr. apply Hr.
  - unfold tx_put. apply Forall_app. split; [|constructor; [apply stale_now|constructor]]. rewrite Forall_forall in *. intros t Ht. apply filter_In in Ht. apply S1, Ht.
  - exact S2.
Qed.
Lemma string_moved now path msg size type b b' ev e : send_string now path msg size type b = (b', ev, e) -> moved now b b' ev /\ (opens ev -> swept now b').
Proof.
  unfold send_string. assert ((b, @nil bev) = (b', ev) -> moved now b b' ev /\ (opens ev -> swept now b')) as Q.
  { intros E. apply pair_equal_spec in E. destruct E as [<- <-]. split; [apply moved_same|]. intros [[m [[] _]]|[i [p [a []]]]]. }
  destruct msg as [|u msg]; [intros E; apply pair_equal_spec in E; apply Q, E|]. destruct (size <? 1); [intros E; apply pair_equal_spec in E; apply Q, E|].
  intros E. apply pair_equal_spec in E. destruct E as [E _]. destruct (start_moved _ _ _ _ _ _ _ _ E). auto.
Qed.
Lemma file_moved files now path size b b' ev e : send_file files now path size b = (b', ev, e) -> moved now b b' ev /\ (opens ev -> swept now b').
Proof.
  unfold send_file. assert ((b, @nil bev) = (b', ev) -> moved now b b' ev /\ (opens ev -> swept now b')) as Q.
  { intros E. apply pair_equal_spec in E. destruct E as [<- <-]. split; [apply moved_same|]. intros [[m [[] _]]|[i [p [a []]]]]. }
  destruct path as [|u path]; [intros E; apply pair_equal_spec in E; apply Q, E|]. destruct (size <? 1); [intros E; apply pair_equal_spec in E; apply Q, E|].
  destruct (files (u :: path)); [|intros E; apply pair_equal_spec in E; apply Q, E].
  intros E. apply pair_equal_spec in E. destruct E as [E _]. destruct (start_moved _ _ _ _ _ _ _ _ E). auto.
Qed.
Lemma not_opens ev : (forall e, In e ev -> match e with Sysex m => firstn 1 m <> [2] | RecvStart _ _ _ => False | _ => True end) -> ~ opens ev.
Proof. intros H [[m [Hm F]]|[i [p [a Hm]]]]; apply H in Hm; auto. Qed.
Lemma no_start now b' : ~ opens [] /\ (opens [] -> swept now b').
Proof. assert (~ opens []) as N by (apply not_opens; intros e []). split; [exact N|]. intros Q. destruct (N Q). Qed.

Lemma data_moved now i payload b b' ev e : receive_data now i payload b = (b', ev, e) -> moved now b b' ev /\ ~ opens ev.
Proof.
  unfold receive_data. assert (forall x, (b, @nil bev, x) = (b', ev, e) -> moved now b b' ev /\ ~ opens ev) as Q.
  { intros x E. apply pair_equal_spec in E. destruct E as [E _]. apply pair_equal_spec in E. destruct E as [<- <-]. split; [apply moved_same|apply (no_start now b)]. }
  destruct (rx_get i (b_rx b)) as [t|] eqn:G; [|apply Q]. destruct (negb (bytes2number (firstn 4 payload) =? r_last t + 1)); [apply Q|]. clear Q.
  set (index := bytes2number (firstn 4 payload)). set (t1 := mkRx _ _ _ _ _ _ _). set (h := [Sysex _; RecvProgress _ _ _ _]).
  assert (r_id t = i) as Ei by (apply find_some in G; destruct G as [_ G]; apply bytes_eqb_spec in G; exact G).
  assert (forall l, moved now b (mkB (b_tx b) (map (fun x => if bytes_eqb (r_id x) i then t1 else x) (b_rx b)) (b_next b)) (h ++ l)) as M1.
  { intros l. split; cbn [b_tx b_rx]; [intros x Hx; left; exact Hx|]. intros r Hr. apply in_map_iff in Hr. destruct Hr as [x [<- Hx]]. destruct (bytes_eqb (r_id x) i); [|left; exact Hx]. right. right. split; [reflexivity|].
    cbn [r_id t1]. eapply says_framed. left. reflexivity. }
  assert (forall l, moved now b (mkB (b_tx b) (rx_del (r_id t) (b_rx b)) (b_next b)) (h ++ l)) as M2.
  { intros l. split; cbn [b_tx b_rx]; [intros x Hx; left; exact Hx|]. intros r Hr. left. apply filter_In in Hr. apply Hr. }
  assert (forall l, (forall e, In e l -> is_report e = true) -> ~ opens (h ++ l)) as N.
  { intros l Hl. apply not_opens. intros x Hx. apply in_app_or in Hx. destruct Hx as [[<-|[<-|[]]]|Hx]; [rewrite first_framed; discriminate|exact I|]. apply Hl in Hx. destruct x; try discriminate Hx; exact I. }
  clearbody index t1 h.
  destruct (index =? r_amount t - 1); [destruct (bytes_eqb (r_type t) [0]); [|destruct (bytes_eqb (r_type t) [1])]|]; intros E; apply pair_equal_spec in E; destruct E as [E _]; apply pair_equal_spec in E; destruct E as [<- <-].
  - split; [apply M2|apply N]. intros x [<-|[]]. reflexivity.
  - split; [apply M2|apply N]. intros x [<-|[]]. reflexivity.
  - rewrite <- (app_nil_r h). split; [apply M1|apply N]. intros x [].
  - rewrite <- (app_nil_r h). split; [apply M1|apply N]. intros x [].
Qed.

Lemma ack_moved now i payload b b' ev e : receive_ack now i payload b = (b', ev, e) -> moved now b b' ev /\ ~ opens ev.
Proof.
  unfold receive_ack. assert (forall x, (b, @nil bev, x) = (b', ev, e) -> moved now b b' ev /\ ~ opens ev) as Q.
  { intros x E. apply pair_equal_spec in E. destruct E as [E _]. apply pair_equal_spec in E. destruct E as [<- <-]. split; [apply moved_same|apply (no_start now b)]. }
  destruct (tx_get i (b_tx b)) as [t|] eqn:G; [|apply Q]. destruct (negb (bytes2number payload =? t_next t - 1)); [apply Q|]. clear Q.
  destruct (t_next t =? t_amount t); [|cbn [send_chunk]]; intros E; apply pair_equal_spec in E; destruct E as [E _]; apply pair_equal_spec in E; destruct E as [<- <-].
  - split; [split; cbn [b_tx b_rx]; [intros x Hx; left; apply filter_In in Hx; apply Hx|intros x Hx; left; exact Hx]|]. apply not_opens. intros x [<-|[]]. exact I.
  - split; [split; cbn [b_tx b_rx]; [|intros x Hx; left; exact Hx]|].
    + intros x Hx. apply in_map_iff in Hx. destruct Hx as [y [<- Hy]]. destruct (bytes_eqb (t_id y) i); [|left; exact Hy]. right. split; [reflexivity|]. cbn [t_id]. eapply says_framed. right. left. reflexivity.
    + apply not_opens. intros x [<-|[<-|[]]]; [exact I|rewrite first_framed; discriminate].
Qed.
Lemma startr_moved now i payload b b' ev e : receive_start now i payload b = (b', ev, e) -> moved now b b' ev /\ swept now b'.
Proof.
  unfold receive_start. intros E. apply pair_equal_spec in E. destruct E as [E _]. apply pair_equal_spec in E. destruct E as [<- _]. pose proof (swept_cleanup now b) as [S1 S2]. split; [split|split]; cbn [b_tx b_rx].
  - intros t Ht. left. apply filter_In in Ht. apply Ht.
  - intros r Hr. unfold rx_put in Hr. apply in_app_or in Hr. destruct Hr as [Hr|[<-|[]]]; [left|right; left; auto]. apply filter_In in Hr. destruct Hr as [Hr _]. apply filter_In in Hr. apply Hr.
  - exact S1.
  - unfold rx_put. apply Forall_app. split; [|constructor; [reflexivity|constructor]]. rewrite Forall_forall in *. intros t Ht. apply filter_In in Ht. apply S2, Ht.
Qed.
Lemma dispatch_moved files now data b b' ev e : dispatch files now data b = (b', ev, e) -> moved now b b' ev /\ (opens ev -> swept now b').
Proof.
  unfold dispatch. assert (forall x, (b, @nil bev, x) = (b', ev, e) -> moved now b b' ev /\ (opens ev -> swept now b')) as Q.
  { intros x E. apply pair_equal_spec in E. destruct E as [E _]. apply pair_equal_spec in E. destruct E as [<- <-]. split; [apply moved_same|apply (no_start now b)]. }
  destruct (negb (bytes_eqb (checksum (skipn 4 data)) (firstn 3 (skipn 1 data)))); [apply Q|]. destruct (bytes_eqb (firstn 1 data) [1]); [apply file_moved|].
  destruct (bytes_eqb (firstn 1 data) [2]); [intros E; apply startr_moved in E; destruct E; auto|]. destruct (bytes_eqb (firstn 1 data) [3]); [intros E; apply data_moved in E; destruct E as [A B]; split; [exact A|intros C; destruct (B C)]|].
  destruct (bytes_eqb (firstn 1 data) [4]); [intros E; apply ack_moved in E; destruct E as [A B]; split; [exact A|intros C; destruct (B C)]|apply Q].
Qed.
Lemma opens_app a b : opens (a ++ b) -> opens a \/ opens b.
Proof. intros [[m [Hm F]]|[i [p [x Hm]]]]; apply in_app_or in Hm; destruct Hm as [Hm|Hm]; [left; left|right; left|left; right|right; right]; eauto. Qed.
Lemma receive_moved files throws now man data b b' ev e : receive files throws now man data b = (b', ev, e) -> moved now b b' ev /\ (opens ev -> swept now b').
Proof.
  unfold receive. destruct (negb (bytes_eqb man MANUFACTURER)).
  { intros E. apply pair_equal_spec in E. destruct E as [E _]. apply pair_equal_spec in E. destruct E as [<- <-]. split; [apply moved_same|apply (no_start now b)]. }
  destruct (dispatch files now data b) as [[b1 ev1] [x|]] eqn:D; apply dispatch_moved in D; destruct D as [D1 D2]; [destruct throws|].
  - intros E. apply pair_equal_spec in E. destruct E as [E _]. apply pair_equal_spec in E. destruct E as [<- <-]. auto.
  - destruct (send_string now [] (err_text x) 100 1 b1) as [[b2 ev2] e2] eqn:S. assert (swept now b2) as Sw.
    { unfold send_string in S. destruct (err_text x) as [|u l] eqn:T; [destruct x; discriminate T|]. cbn [Z.ltb Z.compare Pos.compare Pos.compare_cont] in S. change (100 <? 1) with false in S. cbn iota in S. apply pair_equal_spec in S. destruct S as [S _].
      apply start_moved in S. apply S. }
    apply string_moved in S. intros E. apply pair_equal_spec in E. destruct E as [E _]. apply pair_equal_spec in E. destruct E as [<- <-]. split; [eapply moved_trans; [exact D1|apply S]|auto].
  - intros E. apply pair_equal_spec in E. destruct E as [E _]. apply pair_equal_spec in E. destruct E as [<- <-]. auto.
Qed.

Section Forget.
Variable files : side -> Z -> list Z -> option (list Z).
Variable throws : side -> Z -> bool.
Variable seed : side -> Z.
Notation nrun := (nrun files throws seed).
Notation active := (active files throws seed).

Definition Held (ops : list nop) (n : net) : Prop := forall s,
  (forall t, In t (b_tx (n_br n s)) -> exists x, t_time t = Some x /\ active ops s 3 (t_id t) x) /\
  (forall r, In r (b_rx (n_br n s)) -> r_time r = None /\ r_last r = -1 \/ exists x, r_time r = Some x /\ active ops s 4 (r_id r) x).
Lemma nrun_snoc ops o : nrun (ops ++ [o]) = nstep files throws (nrun ops) o. Proof. apply fold_left_app. Qed.
(* one step: the side which acts, what it does, and the time; or nothing *)
Lemma nstep_cases n o : nstep files throws n o = n \/ (exists s ev, nstep files throws n o = mkNet (set s (n_br n s) (n_br n)) (n_log n ++ map (pair s) ev) /\ ~ opens ev) \/
  exists s now b' ev, at_time s o = Some now /\ nstep files throws n o = mkNet (set s b' (n_br n)) (n_log n ++ map (pair s) ev) /\ moved now (n_br n s) b' ev /\ (opens ev -> swept now b').
Proof.
  destruct o as [s now path msg size|s now path size|s path size|s now k|s now man data]; cbn [nstep].
  - right. right. destruct (send_string now path msg size 0 (n_br n s)) as [[b ev] e] eqn:E. apply string_moved in E. exists s, now, b, ev. cbn [at_time]. rewrite side_eqb_refl. auto.
  - right. right. destruct (send_file (files s now) now path size (n_br n s)) as [[b ev] e] eqn:E. apply file_moved in E. exists s, now, b, ev. cbn [at_time]. rewrite side_eqb_refl. auto.
  - right. left. destruct (request path size) as [ev e] eqn:E. exists s, ev. split; [reflexivity|]. apply not_opens. intros x Hx. unfold request in E. destruct path; [|destruct (size <? 1)]; apply pair_equal_spec in E; destruct E as [<- _]; try destruct Hx as [].
    + subst x. rewrite first_framed. discriminate.
    + destruct H.
  - destruct (nth_error (wire (other s) (n_log n)) k) as [m|]; [|left; reflexivity]. right. right. destruct (receive (files s now) (throws s now) now MANUFACTURER m (n_br n s)) as [[b ev] e] eqn:E. apply receive_moved in E.
    exists s, now, b, ev. cbn [at_time]. rewrite side_eqb_refl. auto.
  - right. right. destruct (receive (files s now) (throws s now) now man data (n_br n s)) as [[b ev] e] eqn:E. apply receive_moved in E. exists s, now, b, ev. cbn [at_time]. rewrite side_eqb_refl. auto.
Qed.
Lemma active_mono ops o s c i x : active ops s c i x -> active (ops ++ [o]) s c i x.
Proof. intros [a [o' [b [m [rest [E R]]]]]]. exists a, o', (b ++ [o]), m, rest. rewrite E, <- app_assoc. auto. Qed.
Lemma events_of ops o s ev b' : nstep files throws (nrun ops) o = mkNet b' (n_log (nrun ops) ++ map (pair s) ev) -> last_events files throws seed ops o = map (pair s) ev.
Proof. intros E. unfold last_events. rewrite nrun_snoc, E. cbn [n_log]. rewrite skipn_app, skipn_all, Nat.sub_diag. reflexivity. Qed.
Lemma says_active ops o s now ev b' c i : at_time s o = Some now -> nstep files throws (nrun ops) o = mkNet b' (n_log (nrun ops) ++ map (pair s) ev) -> says c i ev -> active (ops ++ [o]) s c i now.
Proof. intros At E [m [rest [Hm [F R]]]]. exists ops, o, [], m, rest. rewrite (events_of _ _ _ _ _ E). repeat split; auto. apply in_map. exact Hm. Qed.
Lemma held ops : Held ops (nrun ops).
Proof.
  induction ops as [|ops o IH] using rev_ind_snoc; [intros s; split; intros x []|]. rewrite nrun_snoc. destruct (nstep_cases (nrun ops) o) as [->|[[s [ev [E _]]]|[s [now [b' [ev [At [E [[M1 M2] _]]]]]]]]].
  - intros s. destruct (IH s) as [A B]. split; [intros t Ht; destruct (A t Ht) as [x [Q1 Q2]]; exists x; split; [exact Q1|apply active_mono, Q2]|].
    intros r Hr. destruct (B r Hr) as [Q|[x [Q1 Q2]]]; [left; exact Q|right; exists x; split; [exact Q1|apply active_mono, Q2]].
  - rewrite E. intros t. cbn [n_br]. replace (set s (n_br (nrun ops) s) (n_br (nrun ops)) t) with (n_br (nrun ops) t) by (destruct (side_cases s t) as [->| ->]; [rewrite set_same|rewrite set_other]; reflexivity).
    destruct (IH t) as [A B]. split; [intros y Hy; destruct (A y Hy) as [x [Q1 Q2]]; exists x; split; [exact Q1|apply active_mono, Q2]|].
    intros r Hr. destruct (B r Hr) as [Q|[x [Q1 Q2]]]; [left; exact Q|right; exists x; split; [exact Q1|apply active_mono, Q2]].
  - assert (forall t, (forall y, In y (b_tx (n_br (nrun ops) t)) -> exists x, t_time y = Some x /\ active (ops ++ [o]) t 3 (t_id y) x) /\
      (forall r, In r (b_rx (n_br (nrun ops) t)) -> r_time r = None /\ r_last r = -1 \/ exists x, r_time r = Some x /\ active (ops ++ [o]) t 4 (r_id r) x)) as Old.
    { intros t. destruct (IH t) as [A B]. split; [intros y Hy; destruct (A y Hy) as [x [Q1 Q2]]; exists x; split; [exact Q1|apply active_mono, Q2]|].
      intros r Hr. destruct (B r Hr) as [Q|[x [Q1 Q2]]]; [left; exact Q|right; exists x; split; [exact Q1|apply active_mono, Q2]]. }
    intros t. rewrite E. cbn [n_br]. destruct (side_cases s t) as [->| ->]; [rewrite set_same|rewrite set_other; apply Old]. destruct (Old s) as [A B]. split.
    + intros y Hy. destruct (M1 y Hy) as [Q|[Q1 Q2]]; [apply A, Q|]. exists now. split; [exact Q1|eapply says_active; eauto].
    + intros r Hr. destruct (M2 r Hr) as [Q|[Q|[Q1 Q2]]]; [apply B, Q|left; exact Q|]. right. exists now. split; [exact Q1|eapply says_active; eauto].
Qed.
Lemma forget ops o s now : at_time s o = Some now -> begins s (last_events files throws seed ops o) ->
  (forall t, In t (b_tx (n_br (nrun (ops ++ [o])) s)) -> exists x, active (ops ++ [o]) s 3 (t_id t) x /\ now - x <= 5000) /\
  (forall r, In r (b_rx (n_br (nrun (ops ++ [o])) s)) -> r_last r = -1 \/ exists x, active (ops ++ [o]) s 4 (r_id r) x /\ now - x <= 5000).
Proof.
  intros At Hb. destruct (held (ops ++ [o]) s) as [A B]. assert (swept now (n_br (nrun (ops ++ [o])) s)) as [S1 S2].
  { assert (forall t ev, last_events files throws seed ops o = map (pair t) ev -> t = s /\ opens ev) as Same.
    { intros t ev E. rewrite E in Hb. destruct Hb as [[m [Hm F]]|[i [p [a Hm]]]]; apply in_map_iff in Hm; destruct Hm as [e [Q Hm]]; injection Q as -> ->; (split; [reflexivity|]); [left|right]; eauto. }
    rewrite nrun_snoc. destruct (nstep_cases (nrun ops) o) as [E|[[t [ev [E N]]]|[t [now' [b' [ev [At' [E [_ Sw]]]]]]]]].
    - exfalso. unfold last_events in Hb. rewrite nrun_snoc, E, skipn_all in Hb. destruct Hb as [[m [[] _]]|[i [p [a []]]]].
    - exfalso. apply N. apply (Same t), (events_of _ _ _ _ _ E).
    - destruct (Same t ev (events_of _ _ _ _ _ E)) as [-> Op]. assert (now' = now) as -> by congruence. rewrite E. cbn [n_br]. rewrite set_same. auto. }
  rewrite Forall_forall in S1, S2. split.
  - intros t Ht. destruct (A t Ht) as [x [Q1 Q2]]. exists x. split; [exact Q2|]. specialize (S1 t Ht). cbn beta in S1. rewrite Q1 in S1. unfold stale in S1. lia.
  - intros r Hr. destruct (B r Hr) as [[_ Q]|[x [Q1 Q2]]]; [left; exact Q|right]. exists x. split; [exact Q2|]. specialize (S2 r Hr). cbn beta in S2. rewrite Q1 in S2. unfold stale in S2. lia.
Qed.
End Forget.
