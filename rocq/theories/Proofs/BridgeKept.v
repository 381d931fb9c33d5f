(* Lemmas for C86: transmissions which are still active are not forgotten. *)
From Verif.Lib Require Import Base.
From Verif.Model Require Import Midi Bridge.
From Verif.Spec Require Import Bridge.
From Verif.Proofs Require Import Protocol BridgeCodec BridgeNet BridgeFifo BridgeForget.
Local Open Scope list_scope.

(* nothing which has been active lately is lost *)
Definition ended (i : list Z) (ev : list bev) : Prop := exists e, In e ev /\ match e with RecvFinish j _ _ _ => i = j | RecvError _ => True | _ => False end.
Definition kept (now : Z) (b b' : bridge) (ev : list bev) : Prop :=
  (forall t, In t (b_tx b) -> stale now (t_time t) = false -> (exists t', In t' (b_tx b') /\ t_id t' = t_id t /\ stale now (t_time t') = false) \/ In (AckAll (t_id t)) ev) /\
  (forall r, In r (b_rx b) -> stale now (r_time r) = false -> (exists r', In r' (b_rx b') /\ r_id r' = r_id r /\ stale now (r_time r') = false) \/ ended (r_id r) ev).
Lemma kept_same now b ev : kept now b b ev. Proof. split; intros x Hx S; left; exists x; auto. Qed.
Lemma kept_trans now b1 b2 b3 ev ev' : kept now b1 b2 ev -> kept now b2 b3 ev' -> kept now b1 b3 (ev ++ ev').
Proof.
  intros [A1 A2] [B1 B2]. split.
  - intros t Ht S. destruct (A1 t Ht S) as [[t' [H1 [H2 H3]]]|H]; [|right; apply in_or_app; auto]. rewrite <- H2. destruct (B1 t' H1 H3) as [Q|Q]; [left; exact Q|right; apply in_or_app; auto].
  - intros t Ht S. destruct (A2 t Ht S) as [[t' [H1 [H2 H3]]]|[e [H1 H2]]]; [|right; exists e; rewrite in_app_iff; auto]. rewrite <- H2. destruct (B2 t' H1 H3) as [Q|[e [Q1 Q2]]]; [left; exact Q|right; exists e; rewrite in_app_iff; auto].
Qed.
Lemma start_kept now path msg size type b b' ev : start_send now path msg size type b = (b', ev) -> kept now b b' ev.
Proof.
  unfold start_send. intros E. cbn [send_chunk t_id t_type t_path t_amount t_size t_rest t_next] in E. apply pair_equal_spec in E. destruct E as [<- _]. split; cbn [b_tx b_rx]; intros t Ht S; left.
  - unfold tx_put. set (t1 := mkTx _ _ _ _ _ _ _ (Some now)). destruct (bytes_eqb (t_id t) (t_id t1)) eqn:E.
    + apply bytes_eqb_spec in E. exists t1. split; [apply in_or_app; right; left; reflexivity|]. split; [auto|apply stale_now].
    + exists t. split; [|auto]. apply in_or_app. left. unfold tx_del. apply filter_In. split; [|rewrite E; reflexivity]. apply filter_In. rewrite S. auto.
  - exists t. split; [apply filter_In; rewrite S; auto|auto].
Qed.
Lemma string_kept now path msg size type b b' ev e : send_string now path msg size type b = (b', ev, e) -> kept now b b' ev.
Proof.
  unfold send_string. assert (forall x, (b, @nil bev, x) = (b', ev, e) -> kept now b b' ev) as Q.
  { intros x E. apply pair_equal_spec in E. destruct E as [E _]. apply pair_equal_spec in E. destruct E as [<- <-]. apply kept_same. }
  destruct msg as [|u msg]; [apply Q|]. destruct (size <? 1); [apply Q|]. intros E. apply pair_equal_spec in E. destruct E as [E _]. exact (start_kept _ _ _ _ _ _ _ _ E).
Qed.
Lemma file_kept files now path size b b' ev e : send_file files now path size b = (b', ev, e) -> kept now b b' ev.
Proof.
  unfold send_file. assert (forall x, (b, @nil bev, x) = (b', ev, e) -> kept now b b' ev) as Q.
  { intros x E. apply pair_equal_spec in E. destruct E as [E _]. apply pair_equal_spec in E. destruct E as [<- <-]. apply kept_same. }
  destruct path as [|u path]; [apply Q|]. destruct (size <? 1); [apply Q|]. destruct (files (u :: path)); [|apply Q]. intros E. apply pair_equal_spec in E. destruct E as [E _]. exact (start_kept _ _ _ _ _ _ _ _ E).
Qed.
Lemma startr_kept now i payload b b' ev e : receive_start now i payload b = (b', ev, e) -> kept now b b' ev.
Proof.
  unfold receive_start. intros E. apply pair_equal_spec in E. destruct E as [E _]. apply pair_equal_spec in E. destruct E as [<- _]. split; cbn [b_tx b_rx]; intros t Ht S; left.
  - exists t. split; [apply filter_In; rewrite S; auto|auto].
  - unfold rx_put. set (t1 := mkRx _ _ _ _ _ _ None). destruct (bytes_eqb (r_id t) (r_id t1)) eqn:E.
    + apply bytes_eqb_spec in E. exists t1. split; [apply in_or_app; right; left; reflexivity|]. auto.
    + exists t. split; [|auto]. apply in_or_app. left. unfold rx_del. apply filter_In. split; [|rewrite E; reflexivity]. apply filter_In. rewrite S. auto.
Qed.
Lemma data_kept now i payload b b' ev e : receive_data now i payload b = (b', ev, e) -> kept now b b' ev.
Proof.
  unfold receive_data. assert (forall x, (b, @nil bev, x) = (b', ev, e) -> kept now b b' ev) as Q.
  { intros x E. apply pair_equal_spec in E. destruct E as [E _]. apply pair_equal_spec in E. destruct E as [<- <-]. apply kept_same. }
  destruct (rx_get i (b_rx b)) as [t|] eqn:G; [|apply Q]. destruct (negb (bytes2number (firstn 4 payload) =? r_last t + 1)); [apply Q|]. clear Q.
  set (index := bytes2number (firstn 4 payload)). set (t1 := mkRx _ _ _ _ _ _ (Some now)). set (h := [Sysex _; RecvProgress _ _ _ _]).
  assert (r_id t = i) as Ei by (apply find_some in G; destruct G as [_ G]; apply bytes_eqb_spec in G; exact G).
  assert (forall l, kept now b (mkB (b_tx b) (map (fun x => if bytes_eqb (r_id x) i then t1 else x) (b_rx b)) (b_next b)) l) as M1.
  { intros l. split; cbn [b_tx b_rx]; intros x Hx S; left; [exists x; auto|]. destruct (bytes_eqb (r_id x) i) eqn:E.
    - exists t1. split; [apply in_map_iff; exists x; rewrite E; auto|]. split; [cbn [r_id t1]; apply bytes_eqb_spec in E; congruence|apply stale_now].
    - exists x. split; [apply in_map_iff; exists x; rewrite E; auto|auto]. }
  assert (forall l, (forall j, bytes_eqb j (r_id t) = true -> ended j l) -> kept now b (mkB (b_tx b) (rx_del (r_id t) (b_rx b)) (b_next b)) l) as M2.
  { intros l Hl. split; cbn [b_tx b_rx]; intros x Hx S; [left; exists x; auto|]. destruct (bytes_eqb (r_id x) (r_id t)) eqn:E; [right; apply Hl, E|]. left. exists x. split; [apply filter_In; rewrite E; auto|auto]. }
  clearbody index t1 h.
  destruct (index =? r_amount t - 1); [destruct (bytes_eqb (r_type t) [0]); [|destruct (bytes_eqb (r_type t) [1])]|]; intros E; apply pair_equal_spec in E; destruct E as [E _]; apply pair_equal_spec in E; destruct E as [<- <-]; try apply M1.
  - apply M2. intros j Hj. apply bytes_eqb_spec in Hj. eexists. split; [apply in_or_app; right; left; reflexivity|exact Hj].
  - apply M2. intros j Hj. eexists. split; [apply in_or_app; right; left; reflexivity|exact I].
Qed.
Lemma ack_kept now i payload b b' ev e : receive_ack now i payload b = (b', ev, e) -> kept now b b' ev.
Proof.
  unfold receive_ack. assert (forall x, (b, @nil bev, x) = (b', ev, e) -> kept now b b' ev) as Q.
  { intros x E. apply pair_equal_spec in E. destruct E as [E _]. apply pair_equal_spec in E. destruct E as [<- <-]. apply kept_same. }
  destruct (tx_get i (b_tx b)) as [t|] eqn:G; [|apply Q]. destruct (negb (bytes2number payload =? t_next t - 1)); [apply Q|]. clear Q.
  assert (t_id t = i) as Ei by (apply find_some in G; destruct G as [_ G]; apply bytes_eqb_spec in G; exact G).
  destruct (t_next t =? t_amount t); [|cbn [send_chunk]]; intros E; apply pair_equal_spec in E; destruct E as [E _]; apply pair_equal_spec in E; destruct E as [<- <-]; split; cbn [b_tx b_rx]; intros x Hx S; try (left; exists x; auto; fail).
  - destruct (bytes_eqb (t_id x) i) eqn:E; [right; apply bytes_eqb_spec in E; rewrite E; left; reflexivity|]. left. exists x. split; [apply filter_In; rewrite E; auto|auto].
  - left. set (t1 := mkTx _ _ _ _ _ _ _ (Some now)). destruct (bytes_eqb (t_id x) i) eqn:E.
    + exists t1. split; [apply in_map_iff; exists x; rewrite E; auto|]. split; [cbn [t_id t1]; apply bytes_eqb_spec in E; congruence|apply stale_now].
    + exists x. split; [apply in_map_iff; exists x; rewrite E; auto|auto].
Qed.
Lemma dispatch_kept files now data b b' ev e : dispatch files now data b = (b', ev, e) -> kept now b b' ev.
Proof.
  unfold dispatch. assert (forall x, (b, @nil bev, x) = (b', ev, e) -> kept now b b' ev) as Q.
  { intros x E. apply pair_equal_spec in E. destruct E as [E _]. apply pair_equal_spec in E. destruct E as [<- <-]. apply kept_same. }
  destruct (negb (bytes_eqb (checksum (skipn 4 data)) (firstn 3 (skipn 1 data)))); [apply Q|]. destruct (bytes_eqb (firstn 1 data) [1]); [apply file_kept|].
  destruct (bytes_eqb (firstn 1 data) [2]); [apply startr_kept|]. destruct (bytes_eqb (firstn 1 data) [3]); [apply data_kept|]. destruct (bytes_eqb (firstn 1 data) [4]); [apply ack_kept|apply Q].
Qed.
Lemma receive_kept files throws now man data b b' ev e : receive files throws now man data b = (b', ev, e) -> kept now b b' ev.
Proof.
  unfold receive. destruct (negb (bytes_eqb man MANUFACTURER)).
  { intros E. apply pair_equal_spec in E. destruct E as [E _]. apply pair_equal_spec in E. destruct E as [<- <-]. apply kept_same. }
  destruct (dispatch files now data b) as [[b1 ev1] [x|]] eqn:D; apply dispatch_kept in D; [destruct throws|].
  - intros E. apply pair_equal_spec in E. destruct E as [E _]. apply pair_equal_spec in E. destruct E as [<- <-]. auto.
  - destruct (send_string now [] (err_text x) 100 1 b1) as [[b2 ev2] e2] eqn:S. apply string_kept in S. intros E. apply pair_equal_spec in E. destruct E as [E _]. apply pair_equal_spec in E. destruct E as [<- <-]. eapply kept_trans; eauto.
  - intros E. apply pair_equal_spec in E. destruct E as [E _]. apply pair_equal_spec in E. destruct E as [<- <-]. auto.
Qed.

Section Kept.
Variable files : side -> Z -> list Z -> option (list Z).
Variable throws : side -> Z -> bool.
Variable seed : side -> Z.
Notation nrun := (nrun files throws seed).

Lemma step_kept n o s now : at_time s o = Some now -> nstep files throws n o = n \/ exists b' ev, nstep files throws n o = mkNet (set s b' (n_br n)) (n_log n ++ map (pair s) ev) /\ kept now (n_br n s) b' ev.
Proof.
  assert (forall t x, (if side_eqb s t then Some x else None) = Some now -> t = s /\ x = now) as Q.
  { intros t x E. destruct s, t; cbn in E; try discriminate E; injection E; auto. }
  destruct o as [t x path msg size|t x path size|t path size|t x k|t x man data]; cbn [at_time nstep]; intros E; try discriminate E; apply Q in E; destruct E as [-> ->].
  - right. destruct (send_string now path msg size 0 (n_br n s)) as [[b ev] e] eqn:E. apply string_kept in E. exists b, ev. auto.
  - right. destruct (send_file (files s now) now path size (n_br n s)) as [[b ev] e] eqn:E. apply file_kept in E. exists b, ev. auto.
  - destruct (nth_error (wire (other s) (n_log n)) k) as [m|]; [|left; reflexivity]. right. destruct (receive (files s now) (throws s now) now MANUFACTURER m (n_br n s)) as [[b ev] e] eqn:E. apply receive_kept in E. exists b, ev. auto.
  - right. destruct (receive (files s now) (throws s now) now man data (n_br n s)) as [[b ev] e] eqn:E. apply receive_kept in E. exists b, ev. auto.
Qed.
Lemma keep ops o s now : at_time s o = Some now ->
  let b := n_br (nrun ops) s in let b' := n_br (nrun (ops ++ [o])) s in let evs := last_events files throws seed ops o in
  (forall t, In t (b_tx b) -> within now (t_time t) -> (exists t', In t' (b_tx b') /\ t_id t' = t_id t) \/ In (s, AckAll (t_id t)) evs) /\
  (forall r, In r (b_rx b) -> within now (r_time r) -> (exists r', In r' (b_rx b') /\ r_id r' = r_id r) \/ exists p d a, In (s, RecvFinish (r_id r) p d a) evs \/ In (s, RecvError d) evs).
Proof.
  intros At b b' evs. assert (forall y, within now y -> stale now y = false) as W by (intros [x|] H; cbn in *; [lia|reflexivity]).
  unfold b'. rewrite nrun_snoc. destruct (step_kept (nrun ops) o s now At) as [->|[c [ev [E [K1 K2]]]]].
  - split; intros t Ht _; left; exists t; auto.
  - unfold evs. rewrite (events_of files throws seed _ _ _ _ _ E), E. cbn [n_br]. rewrite set_same. split.
    + intros t Ht Hw. destruct (K1 t Ht (W _ Hw)) as [[t' [A [B _]]]|A]; [left; eauto|right; apply in_map; exact A].
    + intros t Ht Hw. destruct (K2 t Ht (W _ Hw)) as [[t' [A [B _]]]|[e [A B]]]; [left; eauto|right]. destruct e as [| | | |j p d a|d|]; try destruct B.
      * subst. exists p, d, a. left. apply in_map. exact A.
      * exists [], d, 0. right. apply in_map. exact A.
Qed.
End Kept.
