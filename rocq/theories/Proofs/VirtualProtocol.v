From Verif.Lib Require Import Base.
From Verif.Model Require Import Midi Period Mapping Protocol Codec VirtualProtocol.
From Verif.Spec Require Import Protocol VirtualProtocol.
From Verif.Proofs Require Import Protocol.

Definition beaconb (m : list Z) : bool := bytes_eqb (firstn 9 m) v_beacon_head.
Lemma beaconb_spec m : beaconb m = true <-> is_beacon m.
Proof.
  unfold beaconb, is_beacon. rewrite bytes_eqb_spec. split.
  - intros H. exists (skipn 9 m). rewrite <- (firstn_skipn 9 m) at 1. rewrite H. reflexivity.
  - intros (r & ->). reflexivity.
Qed.
Definition sensb (m : list Z) : bool := sensingb (bytes_msg m).
Lemma sensb_spec m : sensb m = true <-> sensing (bytes_msg m).
Proof. apply sensing_spec. Qed.
Lemma alive_sensb k : sensb (v_alive k) = true.
Proof. reflexivity. Qed.

Arguments beaconb : simpl never.
Arguments sensb : simpl never.

(* one update of the firmware's protocol *)
Inductive pcase (p : protocol) (t : Z) : protocol -> list pevent -> Prop :=
| pc_wait : running p = false -> t <= last_reset (init_period p) + interval (init_period p) -> pcase p t p []
| pc_init : running p = false -> last_reset (init_period p) + interval (init_period p) < t ->
    pcase p t (with_init_sent (with_initp p (mkPeriod (interval (init_period p)) t)) true)
              ((if has_been_running p then [PLost t] else []) ++ [PSend t true (beacon p true)])
| pc_lost : running p = true -> last_reset (sensing_period p) + interval (sensing_period p) < t ->
    pcase p t (with_running (with_sensing p (mkPeriod (interval (sensing_period p)) t)) false) [POffline t]
| pc_send : running p = true -> t <= last_reset (sensing_period p) + interval (sensing_period p) ->
    last_reset (resend_period p) + interval (resend_period p) < t ->
    pcase p t (with_resend p (mkPeriod (interval (resend_period p)) t)) [PSend t false (beacon p false)]
| pc_keep : running p = true -> t <= last_reset (sensing_period p) + interval (sensing_period p) ->
    t <= last_reset (resend_period p) + interval (resend_period p) -> pcase p t p [].
Lemma p_update_case p t : pcase p t (fst (p_update p t)) (snd (p_update p t)).
Proof.
  unfold p_update, p_exceeded. destruct p as [r le tm [ri rl] [ii il] [si sl] hb is]. cbn [running init_period sensing_period resend_period interval last_reset].
  destruct r; cbn [negb].
  - destruct (sl + si <? t) eqn:E1; cbn [fst snd].
    + apply (pc_lost (mkProto true le tm (mkPeriod ri rl) (mkPeriod ii il) (mkPeriod si sl) hb is)); cbn; lia.
    + cbn [with_sensing resend_period last_reset interval]. destruct (rl + ri <? t) eqn:E2; cbn [fst snd].
      * apply (pc_send (mkProto true le tm (mkPeriod ri rl) (mkPeriod ii il) (mkPeriod si sl) hb is)); cbn; lia.
      * apply (pc_keep (mkProto true le tm (mkPeriod ri rl) (mkPeriod ii il) (mkPeriod si sl) hb is)); cbn; lia.
  - destruct (il + ii <? t) eqn:E1; cbn [fst snd].
    + apply (pc_init (mkProto false le tm (mkPeriod ri rl) (mkPeriod ii il) (mkPeriod si sl) hb is)); cbn; auto; lia.
    + apply (pc_wait (mkProto false le tm (mkPeriod ri rl) (mkPeriod ii il) (mkPeriod si sl) hb is)); cbn; auto; lia.
Qed.

(* one update of the virtual device *)
Definition bump (k : Z) : Z := if 128 <=? k + 1 then 0 else k + 1.
Inductive vcase (v : vproto) (t : Z) : vproto -> list (list Z) -> Prop :=
| vc_off : v_on v = false -> vcase v t v []
| vc_end : v_on v = true -> last_reset (v_lease v) + interval (v_lease v) < t -> forall kp k ms,
    (kp = v_keep v /\ ms = [] /\ k = 0 \/ kp = mkPeriod (interval (v_keep v)) t /\ ms = [v_alive 0] /\ k = 1) ->
    vcase v t (mkV false None (mkPeriod (interval (v_lease v)) t) kp k) ms
| vc_send : v_on v = true -> t <= last_reset (v_lease v) + interval (v_lease v) -> last_reset (v_keep v) + interval (v_keep v) < t ->
    vcase v t (mkV true (v_set v) (v_lease v) (mkPeriod (interval (v_keep v)) t) (bump (v_step v))) [v_alive (v_step v)]
| vc_keep : v_on v = true -> t <= last_reset (v_lease v) + interval (v_lease v) -> t <= last_reset (v_keep v) + interval (v_keep v) ->
    vcase v t v [].
Lemma v_update_case v t : vcase v t (fst (v_update v t)) (snd (v_update v t)).
Proof.
  destruct v as [on st [li ll] [ki kl] k]. unfold v_update, p_exceeded. cbn [v_on v_lease v_keep v_set v_step interval last_reset].
  destruct on; [|now apply vc_off].
  destruct (ll + li <? t) eqn:E1; cbn [v_on v_lease v_keep v_set v_step interval last_reset]; destruct (kl + ki <? t) eqn:E2; cbn [fst snd].
  - apply (vc_end (mkV true st (mkPeriod li ll) (mkPeriod ki kl) k)); cbn; auto; lia.
  - apply (vc_end (mkV true st (mkPeriod li ll) (mkPeriod ki kl) k)); cbn; auto; lia.
  - apply (vc_send (mkV true st (mkPeriod li ll) (mkPeriod ki kl) k)); cbn; auto; lia.
  - apply (vc_keep (mkV true st (mkPeriod li ll) (mkPeriod ki kl) k)); cbn; auto; lia.
Qed.

Lemma beacon_bytes lease p init : lease_encoded p = Z.quot lease 2 ->
  is_beacon (msg_bytes (beacon p init)) /\ nth 11 (msg_bytes (beacon p init)) 0 = Z.quot lease 2 /\ nth 9 (msg_bytes (beacon p init)) 0 = 2.
Proof. intros H. split; [eexists; reflexivity|split; [exact H|reflexivity]]. Qed.

Definition sent (t : Z) (evs : list pevent) : list (Z * list Z) := flat_map (fun e => match e with PSend _ _ m => [(t, msg_bytes m)] | _ => [] end) evs.

Section Loop.
Context (lease : Z) (tuner : bool).

(* what holds in every history *)
Record G0 (now : Z) (s : loop) : Prop := {
  g_enc : lease_encoded (l_p s) = Z.quot lease 2;
  g_ri : interval (resend_period (l_p s)) = 500 * lease;
  g_ii : interval (init_period (l_p s)) = 5000;
  g_si : interval (sensing_period (l_p s)) = 1500;
  g_r : last_reset (resend_period (l_p s)) <= now;
  g_i : last_reset (init_period (l_p s)) <= now;
  g_s : last_reset (sensing_period (l_p s)) <= now;
  g_run : running (l_p s) = true -> init_sent (l_p s) = true;
  g_ki : interval (v_keep (l_v s)) = 500;
  g_k : last_reset (v_keep (l_v s)) <= now;
  g_l : v_on (l_v s) = true -> interval (v_lease (l_v s)) = 2000 * Z.quot lease 2 /\ last_reset (v_lease (l_v s)) <= now;
  g_set : v_on (l_v s) = true -> v_set (l_v s) = Some 2;
  g_step : 0 <= v_step (l_v s) <= 127;
  g_tv : Forall (fun e => fst e <= now /\ (is_beacon (snd e) -> nth 11 (snd e) 0 = Z.quot lease 2 /\ nth 9 (snd e) 0 = 2)) (to_v s);
  g_tp : Forall (fun e => fst e <= now) (to_p s)
}.

Lemma g0_new t0 : 0 <= t0 -> G0 t0 (loop_new lease tuner t0).
Proof. intros H. constructor; cbn; auto; try lia; discriminate. Qed.

Lemma g0_later now t s : now <= t -> G0 now s -> G0 t s.
Proof.
  intros H []. constructor; auto; try lia.
  - eapply Forall_impl; [|exact g_tv0]. cbn. intros e [A B]. split; auto; lia.
  - eapply Forall_impl; [|exact g_tp0]. cbn. intros; lia.
Qed.

Lemma l_step_pupdate s t : l_step s (LPUpdate t) =
  (mkLoop (fst (p_update (l_p s) t)) (l_v s) (to_v s ++ sent t (snd (p_update (l_p s) t))) (to_p s), snd (p_update (l_p s) t)).
Proof. unfold l_step, sent. destruct (p_update (l_p s) t); auto. Qed.
Lemma l_step_vupdate s t : l_step s (LVUpdate t) =
  (mkLoop (l_p s) (fst (v_update (l_v s) t)) (to_v s) (to_p s ++ map (pair t) (snd (v_update (l_v s) t))), []).
Proof. unfold l_step. destruct (v_update (l_v s) t); auto. Qed.
Definition heard (p : protocol) (t : Z) : protocol :=
  with_sensing (if running p then p else with_running (with_been (with_resend p (p_reset (resend_period p) t)) true) true) (p_reset (sensing_period p) t).
Lemma l_step_pread s t st m q : to_p s = (st, m) :: q -> l_step s (LPRead t) =
  if init_sent (l_p s) && sensb m then (mkLoop (heard (l_p s) t) (l_v s) (to_v s) q, if running (l_p s) then [] else [POnline t])
  else (mkLoop (l_p s) (l_v s) (to_v s) q, []).
Proof. intros E. unfold l_step. rewrite E, p_receive_eq. unfold sensb, heard. destruct (init_sent (l_p s) && sensingb (bytes_msg m)); auto. Qed.
Lemma l_step_vparse s t st m q : to_v s = (st, m) :: q -> l_step s (LVParse t) =
  (mkLoop (l_p s) (if beaconb m then mkV true (Some (nth 9 m 0)) (mkPeriod (nth 11 m 0 * 2000) t) (v_keep (l_v s)) (v_step (l_v s)) else l_v s) q (to_p s), []).
Proof. intros E. unfold l_step, v_parse. rewrite E. unfold beaconb. destruct (bytes_eqb (firstn 9 m) v_beacon_head); auto. Qed.

Lemma sent_ok t p p' evs : lease_encoded p = Z.quot lease 2 -> pcase p t p' evs ->
  Forall (fun e => fst e <= t /\ (is_beacon (snd e) -> nth 11 (snd e) 0 = Z.quot lease 2 /\ nth 9 (snd e) 0 = 2)) (sent t evs).
Proof.
  intros H C. unfold sent. destruct C; cbn; auto.
  - destruct (has_been_running p); cbn; repeat constructor; cbn; try lia; intros; apply (beacon_bytes lease p); auto.
  - repeat constructor; cbn; try lia; intros; apply (beacon_bytes lease p); auto.
Qed.

Lemma g0_step now s o : G0 now s -> now <= time o -> other o -> G0 (time o) (fst (l_step s o)).
Proof.
  intros G0s Hn Ho. apply (g0_later now (time o)) in G0s; auto. clear Hn. destruct G0s.
  destruct o as [t|t|t|t|t m|t m]; cbn [time] in *.
  - rewrite l_step_pupdate. cbn [fst]. pose proof (p_update_case (l_p s) t) as C. pose proof (sent_ok _ _ _ _ g_enc0 C) as F.
    destruct C; constructor; cbn; auto; try lia; try (apply Forall_app; split; auto; fail); try discriminate.
  - destruct (to_p s) as [|[st m] q] eqn:E.
    { unfold l_step. rewrite E. cbn [fst]. constructor; auto. rewrite E. auto. }
    inv g_tp0. rewrite (l_step_pread _ _ _ _ _ E). destruct (init_sent (l_p s) && sensb m) eqn:E2.
    + apply andb_true_iff in E2. destruct E2 as [E2 _]. unfold heard. destruct (running (l_p s)) eqn:Er; cbn [fst]; constructor; cbn; auto; lia.
    + cbn [fst]. constructor; cbn; auto.
  - rewrite l_step_vupdate. cbn [fst]. pose proof (v_update_case (l_v s) t) as C. destruct C; try (destruct (g_l0 H)); constructor; cbn; auto; try lia; try discriminate.
    all: try (rewrite app_nil_r; auto; fail).
    all: try (destruct H1 as [(-> & -> & ->)|(-> & -> & ->)]; cbn; auto; try lia).
    all: try (rewrite ?app_nil_r; auto; try (apply Forall_app; split; auto; repeat constructor; cbn; lia)).
    all: try (unfold bump; case_if; lia).
  - destruct (to_v s) as [|[st m] q] eqn:E.
    { unfold l_step. rewrite E. cbn [fst]. constructor; auto. rewrite E. auto. }
    inv g_tv0. rewrite (l_step_vparse _ _ _ _ _ E). cbn [fst]. destruct (beaconb m) eqn:Eb; constructor; cbn; auto; try lia.
    all: intros _; cbn in H1; destruct H1 as [_ H1]; apply beaconb_spec in Eb; destruct (H1 Eb) as [B1 B2]; rewrite ?B1, ?B2; auto; split; lia.
  - cbn. constructor; cbn; auto. apply Forall_app. split; auto. constructor; auto. cbn. split; [lia|]. intros B. now destruct (Ho B).
  - cbn. constructor; cbn; auto. apply Forall_app. split; auto. repeat constructor; cbn; lia.
Qed.

Lemma clocked_g0 ops : forall now s, G0 now s -> clocked now ops -> G0 (end_of now ops) (loop_after s ops).
Proof.
  induction ops as [|o ops IH]; intros now s G H; [exact G|]. cbn in H. destruct H as (H1 & H2 & H3).
  unfold loop_after. rewrite run_cons. cbn [fst]. change (end_of now (o :: ops)) with (end_of (time o) ops). apply IH; auto.
  eapply g0_step; eauto.
Qed.

(* ---- keeping the pace from the time T on ---- *)
Context (T h g L R I e0 e2 e3 D2 : Z).
Hypothesis HR : R = 500 * lease.
Hypothesis HI : I = 2000 * Z.quot lease 2.
Hypothesis K : 0 <= h /\ 0 <= g /\ 0 <= L /\ 500 + g + L <= 1500 /\ R + 500 + h + g + 2 * L <= I /\ 3000 <= R.
Hypothesis He : e0 = T + 500 + g + L /\ e2 = e0 + R + h /\ e3 = e2 + L /\ D2 = e3 + 1500 + 2 * h + L.

Definition sens_in (w : list (Z * list Z)) (d : Z) : Prop := Exists (fun e => sensb (snd e) = true /\ Z.max T (fst e) + L <= d) w.
Definition beac_in (w : list (Z * list Z)) (d : Z) : Prop := Exists (fun e => beaconb (snd e) = true /\ Z.max T (fst e) + L <= d) w.
Definition SD (s : loop) (lv d : Z) : Prop :=
  sens_in (to_p s) d \/ v_on (l_v s) = true /\ (last_reset (v_keep (l_v s)) + 500 + g + L <= d /\ lv + g + L <= d).
Definition BD (s : loop) (lp d : Z) : Prop :=
  beac_in (to_v s) d \/ (last_reset (resend_period (l_p s)) + R + h + L <= d /\ lp + h + L <= d).

Definition A (s : loop) (lp lv : Z) : Prop :=
  running (l_p s) = true /\ v_on (l_v s) = true /\ SD s lv (last_reset (sensing_period (l_p s)) + 1500) /\
  BD s lp (last_reset (v_lease (l_v s)) + I).
Definition P3 (a : Z) (s : loop) (now lv : Z) : Prop :=
  T <= a <= now /\ init_sent (l_p s) = true /\ v_on (l_v s) = true /\ a <= last_reset (v_lease (l_v s)) /\ SD s lv (a + 500 + g + L).
Definition P2 (d : Z) (s : loop) : Prop := init_sent (l_p s) = true /\ beac_in (to_v s) d.
Definition Q0 (s : loop) (lp : Z) : Prop := init_sent (l_p s) = false /\ (last_reset (init_period (l_p s)) + 5000 <= T + 5000 /\ lp <= T + 5000).
Definition Q1 (s : loop) (lv : Z) : Prop :=
  init_sent (l_p s) = true /\ last_reset (init_period (l_p s)) <= T /\ v_on (l_v s) = true /\ SD s lv e0.
Definition Q2 (s : loop) (lp lv : Z) : Prop :=
  init_sent (l_p s) = true /\ last_reset (init_period (l_p s)) <= T /\ v_on (l_v s) = true /\ running (l_p s) = true /\
  SD s lv (last_reset (sensing_period (l_p s)) + 1500) /\ (last_reset (resend_period (l_p s)) + R <= e0 + R /\ lp <= e0 + R).
Definition Q3 (s : loop) (lp : Z) : Prop :=
  init_sent (l_p s) = true /\ last_reset (init_period (l_p s)) <= T /\ v_on (l_v s) = false /\
  Forall (fun e => sensb (snd e) = true -> Z.max T (fst e) + L <= e3) (to_p s) /\
  (running (l_p s) = true /\ (last_reset (sensing_period (l_p s)) + 1500 <= e3 + 1500 /\ lp <= e3 + 1500) \/
   running (l_p s) = false /\ (last_reset (init_period (l_p s)) + 5000 <= e3 + 1500 + h /\ lp <= e3 + 1500 + h)).

(* the situation at an operation at time t *)
Record Now (s : loop) (t lp lv : Z) : Prop := {
  n_g : G0 t s;
  n_lp : T <= lp <= t; n_lv : T <= lv <= t;
  n_p : t <= lp + h; n_v : t <= lv + g;
  n_tv : Forall (fun e => t <= Z.max T (fst e) + L) (to_v s);
  n_tp : Forall (fun e => t <= Z.max T (fst e) + L) (to_p s)
}.

Lemma in_time (b : list Z -> bool) (w : list (Z * list Z)) t d : Forall (fun e => t <= Z.max T (fst e) + L) w ->
  Exists (fun e => b (snd e) = true /\ Z.max T (fst e) + L <= d) w -> t <= d.
Proof. intros F E. apply Exists_exists in E. destruct E as (e & Hi & _ & Hd). rewrite Forall_forall in F. specialize (F e Hi). cbn in F. lia. Qed.
Lemma sd_time s t lp lv d : Now s t lp lv -> SD s lv d -> t <= d.
Proof. intros [] [E|[_ E]]; [exact (in_time sensb _ _ _ n_tp0 E)|]. lia. Qed.
Lemma bd_time s t lp lv d : Now s t lp lv -> BD s lp d -> t <= d.
Proof. intros [] [E|E]; [exact (in_time beaconb _ _ _ n_tv0 E)|]. lia. Qed.
Lemma in_mono (b : list Z -> bool) (w : list (Z * list Z)) d d' : d <= d' ->
  Exists (fun e => b (snd e) = true /\ Z.max T (fst e) + L <= d) w -> Exists (fun e => b (snd e) = true /\ Z.max T (fst e) + L <= d') w.
Proof. intros H E. eapply Exists_impl; [|exact E]. cbn. intros e []. split; auto; lia. Qed.
Lemma in_app (b : list Z -> bool) (w w' : list (Z * list Z)) d :
  Exists (fun e => b (snd e) = true /\ Z.max T (fst e) + L <= d) w -> Exists (fun e => b (snd e) = true /\ Z.max T (fst e) + L <= d) (w ++ w').
Proof. intros E. apply Exists_app. auto. Qed.
Lemma in_new (b : list Z -> bool) (w : list (Z * list Z)) t m d : T <= t -> b m = true -> t + L <= d ->
  Exists (fun e => b (snd e) = true /\ Z.max T (fst e) + L <= d) (w ++ [(t, m)]).
Proof. intros. apply Exists_app. right. constructor. cbn. split; auto. lia. Qed.
Lemma in_pop (b : list Z -> bool) (w : list (Z * list Z)) st m d :
  Exists (fun e => b (snd e) = true /\ Z.max T (fst e) + L <= d) ((st, m) :: w) -> b m = false ->
  Exists (fun e => b (snd e) = true /\ Z.max T (fst e) + L <= d) w.
Proof. intros E H. inv E; auto. cbn in *. destruct H1. congruence. Qed.

Definition Inv (s : loop) (now lp lv : Z) : Prop :=
  A s lp lv \/ (exists a, a <= D2 /\ P3 a s now lv) \/ P2 D2 s \/ Q0 s lp \/ Q1 s lv \/ Q2 s lp lv \/ Q3 s lp.

Lemma start_inv s : G0 T s -> Inv s T T T.
Proof.
  intros G. destruct (init_sent (l_p s)) eqn:Ei.
  - destruct G. destruct (v_on (l_v s)) eqn:Ev.
    + do 4 right. left. unfold Q1, SD. repeat split; auto. right. split; auto. lia.
    + do 6 right. unfold Q3. repeat split; auto.
      * eapply Forall_impl; [|exact g_tp0]. cbn. intros e H _. lia.
      * destruct (running (l_p s)) eqn:Er; [left|right]; split; auto; try lia.
  - do 3 right. left. unfold Q0. split; auto. destruct G. lia.
Qed.

Definition lp' (o : lop) (lp : Z) : Z := match o with LPUpdate t => t | _ => lp end.
Definition lv' (o : lop) (lv : Z) : Z := match o with LVUpdate t => t | _ => lv end.

(* sensing messages due: preserved by everything except the firmware hearing one or the virtual device going offline *)
Lemma sd_step s o lp lv d : Now s (time o) lp lv -> SD s lv d -> init_sent (l_p s) = true ->
  SD (fst (l_step s o)) (lv' o lv) d \/
  (exists st m q, o = LPRead (time o) /\ to_p s = (st, m) :: q /\ sensb m = true) \/
  (v_on (l_v s) = true /\ v_on (l_v (fst (l_step s o))) = false).
Proof.
  intros N H Hi. pose proof (sd_time _ _ _ _ _ N H) as Hd. destruct N as [G N1 N2 N3 N4 N5 N6]. destruct o as [t|t|t|t|t m|t m]; cbn [time lv'] in *.
  - left. rewrite l_step_pupdate. exact H.
  - destruct (to_p s) as [|[st m] q] eqn:E. { left. unfold l_step. rewrite E. exact H. }
    rewrite (l_step_pread _ _ _ _ _ E), Hi. cbn [andb]. destruct (sensb m) eqn:Em; [right; left; eauto 9|]. left. cbn [fst]. unfold SD in *. cbn.
    destruct H as [H|H]; auto. left. rewrite E in H. eapply (in_pop sensb); eauto.
  - rewrite l_step_vupdate. cbn [fst]. pose proof (v_update_case (l_v s) t) as C. destruct G. unfold SD in *. cbn [to_p l_v].
    destruct (v_update (l_v s) t) as [v2 ms2]; cbn [fst snd to_p l_v l_p to_v] in *; destruct C as [V1|V1 V2 kp k ms V3|V1 V2 V3|V1 V2 V3].
    + left. cbn. rewrite app_nil_r. destruct H as [H|[H _]]; auto. rewrite V1 in H. discriminate.
    + right. right. cbn. auto.
    + left. left. cbn. destruct H as [H|(H1 & H2 & H3)]; [apply (in_app sensb); auto|]. apply (in_new sensb); auto; lia.
    + left. cbn. rewrite app_nil_r. destruct H as [H|(H1 & H2 & H3)]; auto. right. split; auto. lia.
  - destruct (to_v s) as [|[st m] q] eqn:E. { left. unfold l_step. rewrite E. exact H. }
    rewrite (l_step_vparse _ _ _ _ _ E). left. unfold SD in *. cbn. destruct H as [H|[H1 H2]]; auto. right. destruct (beaconb m); cbn; auto.
  - left. exact H.
  - left. cbn. unfold SD in *. cbn. destruct H as [H|H]; auto. left. apply (in_app sensb); auto.
Qed.

(* beacons due: preserved by everything except the virtual device getting one or the firmware losing the connection *)
Lemma bd_step s o lp lv d : Now s (time o) lp lv -> BD s lp d -> running (l_p s) = true ->
  BD (fst (l_step s o)) (lp' o lp) d \/
  (exists st m q, o = LVParse (time o) /\ to_v s = (st, m) :: q /\ beaconb m = true) \/
  running (l_p (fst (l_step s o))) = false.
Proof.
  intros N H Hr. pose proof (bd_time _ _ _ _ _ N H) as Hd. destruct N as [G N1 N2 N3 N4 N5 N6]. destruct o as [t|t|t|t|t m|t m]; cbn [time lp'] in *.
  - rewrite l_step_pupdate. cbn [fst]. pose proof (p_update_case (l_p s) t) as C. destruct G. unfold BD in *. cbn [to_v l_p].
    destruct (p_update (l_p s) t) as [p2 evs2]; cbn [fst snd to_p l_v l_p to_v] in *; destruct C as [V1 V2|V1 V2|V1 V2|V1 V2 V3|V1 V2 V3]; try congruence.
    + right. right. reflexivity.
    + left. left. cbn. destruct H as [H|H]; [apply (in_app beaconb); auto|]. apply (in_new beaconb); try lia. reflexivity.
    + left. cbn. rewrite app_nil_r. destruct H as [H|H]; auto. right. lia.
  - left. destruct (to_p s) as [|[st m] q] eqn:E. { unfold l_step. rewrite E. exact H. }
    rewrite (l_step_pread _ _ _ _ _ E). unfold heard. rewrite Hr. destruct (init_sent (l_p s) && sensb m); exact H.
  - left. rewrite l_step_vupdate. exact H.
  - destruct (to_v s) as [|[st m] q] eqn:E. { left. unfold l_step. rewrite E. exact H. }
    rewrite (l_step_vparse _ _ _ _ _ E). destruct (beaconb m) eqn:Em; [right; left; eauto 9|]. left. unfold BD in *. cbn [fst to_v l_p] in *.
    destruct H as [H|H]; auto. left. rewrite E in H. eapply (in_pop beaconb); eauto.
  - left. cbn. unfold BD in *. cbn. destruct H as [H|H]; auto. left. apply (in_app beaconb); auto.
  - left. exact H.
Qed.

(* the firmware hears a sensing message *)
Lemma hears s t lp lv st m q : Now s t lp lv -> to_p s = (st, m) :: q -> sensb m = true -> init_sent (l_p s) = true ->
  let s' := fst (l_step s (LPRead t)) in
  running (l_p s') = true /\ init_sent (l_p s') = true /\ l_v s' = l_v s /\ to_v s' = to_v s /\ init_period (l_p s') = init_period (l_p s) /\
  last_reset (sensing_period (l_p s')) = t /\
  (resend_period (l_p s') = resend_period (l_p s) \/ last_reset (resend_period (l_p s')) = t) /\
  (running (l_p s) = true -> resend_period (l_p s') = resend_period (l_p s)) /\
  (v_on (l_v s) = true -> SD s' lv (t + 1500)) /\ (forall x, ~ In (POffline x) (snd (l_step s (LPRead t)))).
Proof.
  intros N E Em Hi. rewrite (l_step_pread _ _ _ _ _ E), Hi, Em. cbn [andb fst]. destruct N as [[]]. unfold heard.
  destruct (running (l_p s)) eqn:Er; cbn; repeat split; auto.
  all: try (intros; right; cbn; split; auto; lia).
  - discriminate.
  - intros x [H|[]]. discriminate.
Qed.

(* the virtual device gets a beacon *)
Lemma beacon_in s t lp lv m q st : Now s t lp lv -> to_v s = (st, m) :: q -> beaconb m = true ->
  let s' := fst (l_step s (LVParse t)) in
  v_on (l_v s') = true /\ last_reset (v_lease (l_v s')) = t /\ v_keep (l_v s') = v_keep (l_v s) /\ l_p s' = l_p s /\ to_p s' = to_p s.
Proof. intros N E Hb. rewrite (l_step_vparse _ _ _ _ _ E), Hb. cbn. auto. Qed.
Lemma beacon_p3 s t lp lv m q st : Now s t lp lv -> to_v s = (st, m) :: q -> beaconb m = true -> init_sent (l_p s) = true ->
  P3 t (fst (l_step s (LVParse t))) t lv.
Proof.
  intros N E Hb Hi. destruct (beacon_in _ _ _ _ _ _ _ N E Hb) as (B1 & B2 & B3 & B4 & B5). destruct N as [[]].
  unfold P3, SD. rewrite B2, B3, B4. repeat split; auto; try lia; right; split; auto; lia.
Qed.

Lemma a_step s o lp lv : Now s (time o) lp lv -> A s lp lv ->
  A (fst (l_step s o)) (lp' o lp) (lv' o lv) /\ (forall x, ~ In (POffline x) (snd (l_step s o))).
Proof.
  intros N (H1 & H2 & H3 & H4). pose proof (sd_time _ _ _ _ _ N H3) as T3. pose proof (bd_time _ _ _ _ _ N H4) as T4.
  pose proof (n_g _ _ _ _ N) as G. pose proof (g_run _ _ G H1) as Hi.
  destruct (sd_step s o lp lv _ N H3 Hi) as [S|[(st & m & q & S1 & S2 & S3)|[S1 S2]]].
  - destruct (bd_step s o lp lv _ N H4 H1) as [B|[(st & m & q & B1 & B2 & B3)|B]].
    + destruct o as [t|t|t|t|t m|t m]; cbn [time lp' lv'] in *.
      * rewrite l_step_pupdate in *. pose proof (p_update_case (l_p s) t) as C. destruct G.
        destruct (p_update (l_p s) t) as [p2 evs2]; cbn [fst snd to_p l_v l_p to_v] in *; destruct C as [V1 V2|V1 V2|V1 V2|V1 V2 V3|V1 V2 V3]; try congruence; try lia;
          (split; [|intros x Hx; cbn in Hx; intuition discriminate]); unfold A; cbn; repeat split; auto.
      * destruct (to_p s) as [|[st m] q] eqn:E. { unfold l_step in *. rewrite E in *. split; [repeat split; auto|intros x []]. }
        rewrite (l_step_pread _ _ _ _ _ E) in *. rewrite Hi in *. cbn [andb] in *. destruct (sensb m) eqn:Em.
        { destruct (hears _ _ _ _ _ _ _ N E Em Hi) as (A1 & A2 & A3 & A4 & A5 & A6 & A7 & A8 & A9 & A10).
          rewrite (l_step_pread _ _ _ _ _ E), Hi, Em in *. cbn [andb] in *. split; auto. unfold A. rewrite A6, A3. repeat split; auto. }
        split; [|intros x []]. cbn [fst] in *. repeat split; auto.
      * rewrite l_step_vupdate in *. cbn [snd]. split; [|intros x []]. pose proof (v_update_case (l_v s) t) as C. destruct G. destruct (g_l0 H2) as [Gl1 Gl2]. unfold A. cbn [fst l_p l_v] in *.
        destruct (v_update (l_v s) t) as [v2 ms2]; cbn [fst snd to_p l_v l_p to_v] in *; destruct C as [V1|V1 V2 kp k ms V3|V1 V2 V3|V1 V2 V3]; try congruence; try lia;
          cbn in *; repeat split; auto.
      * destruct (to_v s) as [|[st m] q] eqn:E. { unfold l_step in *. rewrite E in *. split; [repeat split; auto|intros x []]. }
        rewrite (l_step_vparse _ _ _ _ _ E) in *. split; [|intros x []]. destruct (beaconb m) eqn:Em; cbn [fst] in *; unfold A; cbn in *; repeat split; auto.
        destruct G. destruct N. right. cbn. lia.
      * split; [|intros x []]. repeat split; auto.
      * split; [|intros x []]. repeat split; auto.
    + rewrite B1 in *. cbn [time lp' lv'] in *. destruct (beacon_in _ _ _ _ _ _ _ N B2 B3) as (C1 & C2 & C3 & C4 & C5).
      unfold A. rewrite C2, C4. destruct G. destruct N. split; [|rewrite (l_step_vparse _ _ _ _ _ B2); intros x []]. repeat split; auto.
      right. rewrite C4. lia.
    + exfalso. destruct o as [t|t|t|t|t m|t m]; cbn [time lp' lv'] in *.
      * rewrite l_step_pupdate in B. pose proof (p_update_case (l_p s) t) as C. destruct G. cbn [fst l_p] in B.
        destruct (p_update (l_p s) t) as [p2 evs2]; cbn [fst snd to_p l_v l_p to_v] in *; destruct C as [V1 V2|V1 V2|V1 V2|V1 V2 V3|V1 V2 V3]; try congruence; try lia; cbn in B; congruence.
      * destruct (to_p s) as [|[st m] q] eqn:E. { unfold l_step in *. rewrite E in *. cbn in B. congruence. }
        rewrite (l_step_pread _ _ _ _ _ E) in *. unfold heard in B. rewrite H1 in B. destruct (init_sent (l_p s) && sensb m); cbn in B; congruence.
      * rewrite l_step_vupdate in B. cbn in B. congruence.
      * destruct (to_v s) as [|[st m] q] eqn:E. { unfold l_step in *. rewrite E in *. cbn in B. congruence. }
        rewrite (l_step_vparse _ _ _ _ _ E) in *. cbn in B. congruence.
      * cbn in B. congruence.
      * cbn in B. congruence.
  - rewrite S1 in *. cbn [time lp' lv'] in *. destruct (hears _ _ _ _ _ _ _ N S2 S3 Hi) as (A1 & A2 & A3 & A4 & A5 & A6 & A7 & A8 & A9 & A10).
    split; auto. unfold A. rewrite A6, A3. repeat split; auto. destruct H4 as [H4|H4]; [left; now rewrite A4|right]. rewrite (A8 H1). auto.
  - exfalso. destruct o as [t|t|t|t|t m|t m]; cbn [time lp' lv'] in *.
    + rewrite l_step_pupdate in S2. cbn in S2. congruence.
    + destruct (to_p s) as [|[st m] q] eqn:E. { unfold l_step in *. rewrite E in *. cbn in S2. congruence. }
      rewrite (l_step_pread _ _ _ _ _ E) in *. destruct (init_sent (l_p s) && sensb m); cbn in S2; congruence.
    + rewrite l_step_vupdate in *. cbn [fst l_v] in S2. pose proof (v_update_case (l_v s) t) as C. destruct G. destruct (g_l0 H2) as [Gl1 Gl2].
      destruct (v_update (l_v s) t) as [v2 ms2]; cbn [fst snd to_p l_v l_p to_v] in *; destruct C as [V1|V1 V2 kp k ms V3|V1 V2 V3|V1 V2 V3]; try congruence; try lia; cbn in S2; congruence.
    + destruct (to_v s) as [|[st m] q] eqn:E. { unfold l_step in *. rewrite E in *. cbn in S2. congruence. }
      rewrite (l_step_vparse _ _ _ _ _ E) in *. destruct (beaconb m); cbn in S2; congruence.
    + cbn in S2. congruence.
    + cbn in S2. congruence.
Qed.

(* what one operation does to the fields the phases look at *)
Lemma sent_kept s o : init_sent (l_p s) = true -> init_sent (l_p (fst (l_step s o))) = true.
Proof.
  intros Hi. destruct o as [t|t|t|t|t m|t m].
  - rewrite l_step_pupdate. cbn [fst l_p]. pose proof (p_update_case (l_p s) t) as C. destruct (p_update (l_p s) t). cbn [fst snd] in *. destruct C; cbn; auto.
  - destruct (to_p s) as [|[st m] q] eqn:E. { unfold l_step. rewrite E. auto. }
    rewrite (l_step_pread _ _ _ _ _ E). destruct (init_sent (l_p s) && sensb m); auto. unfold heard. cbn. destruct (running (l_p s)); auto.
  - rewrite l_step_vupdate. auto.
  - destruct (to_v s) as [|[st m] q] eqn:E. { unfold l_step. rewrite E. auto. } rewrite (l_step_vparse _ _ _ _ _ E). auto.
  - auto.
  - auto.
Qed.

Lemma p3_step a s o now lp lv : Now s (time o) lp lv -> now <= time o -> P3 a s now lv ->
  P3 a (fst (l_step s o)) (time o) (lv' o lv) \/ A (fst (l_step s o)) (lp' o lp) (lv' o lv).
Proof.
  intros N Hn (H1 & H2 & H3 & H4 & H5). pose proof (sd_time _ _ _ _ _ N H5) as T5. pose proof (n_g _ _ _ _ N) as G.
  destruct (g_l _ _ G H3) as [Gl1 Gl2].
  destruct (sd_step s o lp lv _ N H5 H2) as [S|[(st & m & q & S1 & S2 & S3)|[S1 S2]]].
  - left. unfold P3. pose proof (sent_kept s o H2) as Hk.
    assert (v_on (l_v (fst (l_step s o))) = true /\ a <= last_reset (v_lease (l_v (fst (l_step s o))))) as [V1 V2].
    { destruct o as [t|t|t|t|t m|t m]; cbn [time] in *.
      - rewrite l_step_pupdate. auto.
      - destruct (to_p s) as [|[st m] q] eqn:E. { unfold l_step. rewrite E. auto. }
        rewrite (l_step_pread _ _ _ _ _ E). destruct (init_sent (l_p s) && sensb m); auto.
      - rewrite l_step_vupdate. cbn [fst l_v]. pose proof (v_update_case (l_v s) t) as C. destruct (v_update (l_v s) t). cbn [fst snd] in *.
        destruct C; cbn; auto; try congruence. lia.
      - destruct (to_v s) as [|[st m] q] eqn:E. { unfold l_step. rewrite E. auto. }
        rewrite (l_step_vparse _ _ _ _ _ E). destruct (beaconb m); cbn; auto. split; auto. lia.
      - auto.
      - auto. }
    repeat split; auto; lia.
  - right. rewrite S1 in *. cbn [time lp' lv'] in *. destruct (hears _ _ _ _ _ _ _ N S2 S3 H2) as (A1 & A2 & A3 & A4 & A5 & A6 & A7 & A8 & A9 & A10).
    unfold A. rewrite A6, A3. repeat split; auto. right. destruct G, N. destruct A7 as [A7|A7]; rewrite ?A7; lia.
  - exfalso. destruct o as [t|t|t|t|t m|t m]; cbn [time lp' lv'] in *.
    + rewrite l_step_pupdate in S2. cbn in S2. congruence.
    + destruct (to_p s) as [|[st m] q] eqn:E. { unfold l_step in *. rewrite E in *. cbn in S2. congruence. }
      rewrite (l_step_pread _ _ _ _ _ E) in *. destruct (init_sent (l_p s) && sensb m); cbn in S2; congruence.
    + rewrite l_step_vupdate in *. cbn [fst l_v] in S2. pose proof (v_update_case (l_v s) t) as C.
      destruct (v_update (l_v s) t). cbn [fst snd] in *. destruct C; try congruence; try lia; cbn in S2; congruence.
    + destruct (to_v s) as [|[st m] q] eqn:E. { unfold l_step in *. rewrite E in *. cbn in S2. congruence. }
      rewrite (l_step_vparse _ _ _ _ _ E) in *. destruct (beaconb m); cbn in S2; congruence.
    + cbn in S2. congruence.
    + cbn in S2. congruence.
Qed.

Lemma p2_step d s o lp lv : Now s (time o) lp lv -> P2 d s ->
  P2 d (fst (l_step s o)) \/ time o <= d /\ P3 (time o) (fst (l_step s o)) (time o) (lv' o lv).
Proof.
  intros N (H1 & H2). pose proof (sent_kept s o H1) as Hk. pose proof (in_time beaconb _ _ _ (n_tv _ _ _ _ N) H2) as Ht. unfold P2, beac_in in *.
  destruct o as [t|t|t|t|t m|t m]; cbn [time lv'] in *.
  - left. split; auto. rewrite l_step_pupdate. cbn [fst to_v]. apply (in_app beaconb). auto.
  - left. split; auto. destruct (to_p s) as [|[st m] q] eqn:E. { unfold l_step. rewrite E. auto. }
    rewrite (l_step_pread _ _ _ _ _ E). destruct (init_sent (l_p s) && sensb m); auto.
  - left. split; auto. rewrite l_step_vupdate. auto.
  - destruct (to_v s) as [|[st m] q] eqn:E. { inv H2. }
    destruct (beaconb m) eqn:Em.
    + right. split; auto. eapply beacon_p3; eauto.
    + left. split; auto. rewrite (l_step_vparse _ _ _ _ _ E). cbn [fst to_v]. eapply (in_pop beaconb); eauto.
  - left. split; auto. cbn. apply (in_app beaconb). auto.
  - left. split; auto.
Qed.

(* the firmware sends a beacon *)
Lemma sends_p2 s t p2 evs : T <= t -> pcase (l_p s) t p2 evs -> init_sent p2 = true -> forall i m, In (PSend t i m) evs -> forall d, t + L <= d ->
  P2 d (mkLoop p2 (l_v s) (to_v s ++ sent t evs) (to_p s)).
Proof.
  intros HT C Hi i m Hin d Hd. split; auto. cbn [to_v]. unfold beac_in. apply Exists_app. right. unfold sent.
  apply Exists_exists. exists (t, msg_bytes m). split; [apply in_flat_map; eexists; split; [exact Hin|left; auto]|]. cbn [fst snd]. split; [|lia].
  destruct C; cbn in Hin; try tauto.
  - apply in_app_or in Hin. destruct Hin as [Hin|[Hin|[]]]; [destruct (has_been_running (l_p s)); cbn in Hin; intuition discriminate|]. inv Hin. reflexivity.
  - intuition discriminate.
  - destruct Hin as [Hin|[]]. inv Hin. reflexivity.
Qed.

Lemma q0_step s o lp lv : Now s (time o) lp lv -> Q0 s lp -> Q0 (fst (l_step s o)) (lp' o lp) \/ P2 (T + 5000 + h + L) (fst (l_step s o)).
Proof.
  intros N (H1 & H2 & H3). unfold Q0. destruct o as [t|t|t|t|t m|t m]; cbn [time lp'] in *.
  - rewrite l_step_pupdate. cbn [fst]. pose proof (p_update_case (l_p s) t) as C. destruct (p_update (l_p s) t) as [p2 evs]. cbn [fst snd l_p] in *.
    destruct N as [[] N1 N2 N3 N4 N5 N6].
    assert (running (l_p s) = false) as Hr by (destruct (running (l_p s)); auto; rewrite H1 in g_run0; now specialize (g_run0 eq_refl)).
    assert (K0 := C). destruct C; try congruence.
    + left. repeat split; auto; lia.
    + right. eapply sends_p2; eauto; try lia. apply in_or_app. right. left. reflexivity.
  - left. destruct (to_p s) as [|[st m] q] eqn:E. { unfold l_step. rewrite E. auto. } rewrite (l_step_pread _ _ _ _ _ E), H1. cbn. auto.
  - left. rewrite l_step_vupdate. auto.
  - left. destruct (to_v s) as [|[st m] q] eqn:E. { unfold l_step. rewrite E. auto. } rewrite (l_step_vparse _ _ _ _ _ E). auto.
  - left. auto.
  - left. auto.
Qed.

(* the virtual device's lease ends while the firmware waits or relies on it *)
Lemma lease_ends s t lp lv : Now s t lp lv -> init_sent (l_p s) = true -> last_reset (init_period (l_p s)) <= T -> t <= e2 ->
  v_on (l_v (fst (l_step s (LVUpdate t)))) = false -> v_on (l_v s) = true -> Q3 (fst (l_step s (LVUpdate t))) lp.
Proof.
  intros N H1 H2 Ht H3 Hv. rewrite l_step_vupdate in *. cbn [fst l_v] in H3. pose proof (v_update_case (l_v s) t) as C.
  destruct (v_update (l_v s) t) as [v2 ms]. cbn [fst snd] in *. destruct N as [[] N1 N2 N3 N4 N5 N6]. unfold Q3. cbn [fst l_p l_v to_p]. repeat split; auto.
  - apply Forall_app. split.
    + eapply Forall_impl; [|exact g_tp0]. cbn. intros e Hf _. lia.
    + apply Forall_forall. intros [st m] Hin _. apply in_map_iff in Hin. destruct Hin as (x & Hx & _). inv Hx. cbn. lia.
  - destruct (running (l_p s)) eqn:Er; [left|right]; repeat split; auto; lia.
Qed.

Lemma q1_step s o lp lv : Now s (time o) lp lv -> Q1 s lv ->
  Q1 (fst (l_step s o)) (lv' o lv) \/ Q2 (fst (l_step s o)) (lp' o lp) (lv' o lv) \/ Q3 (fst (l_step s o)) (lp' o lp) \/
  P2 D2 (fst (l_step s o)) \/ (time o <= D2 /\ P3 (time o) (fst (l_step s o)) (time o) (lv' o lv)).
Proof.
  intros N (H1 & H2 & H3 & H4). pose proof (sd_time _ _ _ _ _ N H4) as T4. pose proof (sent_kept s o H1) as Hk.
  destruct (sd_step s o lp lv _ N H4 H1) as [S|[(st & m & q & S1 & S2 & S3)|[S1 S2]]].
  - unfold Q1. destruct o as [t|t|t|t|t m|t m]; cbn [time lp' lv'] in *.
    + pose proof (p_update_case (l_p s) t) as C. rewrite l_step_pupdate in *. cbn [fst] in *. destruct (p_update (l_p s) t) as [p2 evs]. cbn [fst snd] in *.
      pose proof (n_lp _ _ _ _ N). assert (K0 := C). destruct C.
      * left. cbn. repeat split; auto.
      * right; right; right; left. eapply sends_p2; eauto; try lia. apply in_or_app. right. left. reflexivity.
      * left. cbn. repeat split; auto.
      * right; right; right; left. eapply sends_p2; eauto; try lia. left. reflexivity.
      * left. cbn. repeat split; auto.
    + left. destruct (to_p s) as [|[st m] q] eqn:E. { unfold l_step in *. rewrite E in *. auto. }
      rewrite (l_step_pread _ _ _ _ _ E) in *. destruct (init_sent (l_p s) && sensb m); cbn in *; auto. unfold heard in *. repeat split; auto. destruct (running (l_p s)); cbn; auto.
    + destruct (v_on (l_v (fst (l_step s (LVUpdate t))))) eqn:Ev.
      * left. repeat split; auto. rewrite l_step_vupdate. auto.
      * right; right; left. eapply lease_ends; eauto. lia.
    + destruct (to_v s) as [|[st m] q] eqn:E. { left. unfold l_step in *. rewrite E in *. auto. }
      destruct (beaconb m) eqn:Em.
      * do 4 right. split; [lia|]. eapply beacon_p3; eauto.
      * left. rewrite (l_step_vparse _ _ _ _ _ E) in *. rewrite Em in *. cbn in *. auto.
    + left. cbn in *. auto.
    + left. cbn in *. auto.
  - right; left. rewrite S1 in *. cbn [time lp' lv'] in *. destruct (hears _ _ _ _ _ _ _ N S2 S3 H1) as (A1 & A2 & A3 & A4 & A5 & A6 & A7 & A8 & A9 & A10).
    unfold Q2. rewrite A6, A5, A3. destruct N as [[] N1 N2 N3 N4 N5 N6]. repeat split; auto.
    + destruct A7 as [A7|A7]; rewrite ?A7; lia.
    + lia.
  - right; right; left. destruct o as [t|t|t|t|t m|t m]; cbn [time lp' lv'] in *.
    + exfalso. rewrite l_step_pupdate in S2. cbn in S2. congruence.
    + exfalso. destruct (to_p s) as [|[st m] q] eqn:E. { unfold l_step in *. rewrite E in *. cbn in S2. congruence. }
      rewrite (l_step_pread _ _ _ _ _ E) in *. destruct (init_sent (l_p s) && sensb m); cbn in S2; congruence.
    + eapply lease_ends; eauto. lia.
    + exfalso. destruct (to_v s) as [|[st m] q] eqn:E. { unfold l_step in *. rewrite E in *. cbn in S2. congruence. }
      rewrite (l_step_vparse _ _ _ _ _ E) in *. destruct (beaconb m); cbn in S2; congruence.
    + exfalso. cbn in S2. congruence.
    + exfalso. cbn in S2. congruence.
Qed.

Lemma q2_step s o lp lv : Now s (time o) lp lv -> Q2 s lp lv ->
  Q2 (fst (l_step s o)) (lp' o lp) (lv' o lv) \/ Q3 (fst (l_step s o)) (lp' o lp) \/
  P2 D2 (fst (l_step s o)) \/ (time o <= D2 /\ P3 (time o) (fst (l_step s o)) (time o) (lv' o lv)).
Proof.
  intros N (H1 & H2 & H3 & H4 & H5 & H6). pose proof (sd_time _ _ _ _ _ N H5) as T5. pose proof (sent_kept s o H1) as Hk.
  assert (time o <= e2) as Te by (destruct N; lia).
  destruct (sd_step s o lp lv _ N H5 H1) as [S|[(st & m & q & S1 & S2 & S3)|[S1 S2]]].
  - unfold Q2. destruct o as [t|t|t|t|t m|t m]; cbn [time lp' lv'] in *.
    + pose proof (p_update_case (l_p s) t) as C. rewrite l_step_pupdate in *. cbn [fst] in *. destruct (p_update (l_p s) t) as [p2 evs]. cbn [fst snd] in *.
      destruct N as [[] N1 N2 N3 N4 N5 N6]. assert (K0 := C). destruct C; try congruence; try lia.
      * right; right; left. eapply sends_p2; eauto; try lia. left. reflexivity.
      * left. cbn. repeat split; auto; lia.
    + destruct (to_p s) as [|[st m] q] eqn:E. { left. unfold l_step in *. rewrite E in *. auto 9. }
      destruct (sensb m) eqn:Em.
      * left. destruct (hears _ _ _ _ _ _ _ N E Em H1) as (A1 & A2 & A3 & A4 & A5 & A6 & A7 & A8 & A9 & A10).
        rewrite A6, A5, A3, (A8 H4). repeat split; auto; tauto.
      * left. rewrite (l_step_pread _ _ _ _ _ E) in *. rewrite Em, andb_false_r in *. cbn in *. auto 9.
    + destruct (v_on (l_v (fst (l_step s (LVUpdate t))))) eqn:Ev.
      * left. rewrite l_step_vupdate in *. cbn in *. auto 9.
      * right; left. eapply lease_ends; eauto.
    + destruct (to_v s) as [|[st m] q] eqn:E. { left. unfold l_step in *. rewrite E in *. auto 9. }
      destruct (beaconb m) eqn:Em.
      * do 3 right. split; [lia|]. eapply beacon_p3; eauto.
      * left. rewrite (l_step_vparse _ _ _ _ _ E) in *. rewrite Em in *. cbn in *. auto 9.
    + left. cbn in *. auto 9.
    + left. cbn in *. auto 9.
  - left. rewrite S1 in *. cbn [time lp' lv'] in *. destruct (hears _ _ _ _ _ _ _ N S2 S3 H1) as (A1 & A2 & A3 & A4 & A5 & A6 & A7 & A8 & A9 & A10).
    unfold Q2. rewrite A6, A5, A3, (A8 H4). repeat split; auto; tauto.
  - right; left. destruct o as [t|t|t|t|t m|t m]; cbn [time lp' lv'] in *.
    + exfalso. rewrite l_step_pupdate in S2. cbn in S2. congruence.
    + exfalso. destruct (to_p s) as [|[st m] q] eqn:E. { unfold l_step in *. rewrite E in *. cbn in S2. congruence. }
      rewrite (l_step_pread _ _ _ _ _ E) in *. destruct (init_sent (l_p s) && sensb m); cbn in S2; congruence.
    + eapply lease_ends; eauto.
    + exfalso. destruct (to_v s) as [|[st m] q] eqn:E. { unfold l_step in *. rewrite E in *. cbn in S2. congruence. }
      rewrite (l_step_vparse _ _ _ _ _ E) in *. destruct (beaconb m); cbn in S2; congruence.
    + exfalso. cbn in S2. congruence.
    + exfalso. cbn in S2. congruence.
Qed.

Lemma q3_step s o lp lv : Now s (time o) lp lv -> other o -> Q3 s lp ->
  Q3 (fst (l_step s o)) (lp' o lp) \/
  P2 D2 (fst (l_step s o)) \/ (time o <= D2 /\ P3 (time o) (fst (l_step s o)) (time o) (lv' o lv)).
Proof.
  intros N Ho (H1 & H2 & H3 & H4 & H5). pose proof (sent_kept s o H1) as Hk.
  assert (time o <= e3 + 1500 + 2 * h) as Te by (destruct N; lia).
  unfold Q3. destruct o as [t|t|t|t|t m|t m]; cbn [time lp' lv'] in *.
  - pose proof (p_update_case (l_p s) t) as C. rewrite l_step_pupdate in *. cbn [fst] in *. destruct (p_update (l_p s) t) as [p2 evs]. cbn [fst snd] in *.
    destruct N as [[] N1 N2 N3 N4 N5 N6]. assert (K0 := C). destruct C.
    + left. cbn. destruct H5 as [[H5 _]|[_ H5]]; [congruence|]. repeat split; auto. right. repeat split; auto; lia.
    + right; left. eapply sends_p2; eauto; try lia. apply in_or_app. right. left. reflexivity.
    + left. cbn. destruct H5 as [[_ H5]|[H5 _]]; [|congruence]. repeat split; auto. right. repeat split; auto; lia.
    + right; left. eapply sends_p2; eauto; try lia. left. reflexivity.
    + left. cbn. destruct H5 as [[_ H5]|[H5 _]]; [|congruence]. repeat split; auto. left. repeat split; auto; lia.
  - left. destruct (to_p s) as [|[st m] q] eqn:E. { unfold l_step in *. rewrite E in *. cbn in *. rewrite E. auto 9. }
    pose proof H4 as H4'. rewrite ?E in H4'. pose proof (Forall_inv H4') as H6. pose proof (Forall_inv_tail H4') as H7. destruct (sensb m) eqn:Em.
    + destruct (hears _ _ _ _ _ _ _ N E Em H1) as (A1 & A2 & A3 & A4 & A5 & A6 & A7 & A8 & A9 & A10).
      rewrite A6, A5, A3. cbn [snd fst] in H6. specialize (H6 Em). destruct N as [[] N1 N2 N3 N4 N5 N6]. rewrite E in N6. pose proof (Forall_inv N6) as H8. cbn in H8.
      repeat split; auto.
      * rewrite (l_step_pread _ _ _ _ _ E), H1, Em. exact H7.
      * left. repeat split; auto; lia.
    + rewrite (l_step_pread _ _ _ _ _ E) in *. rewrite Em, andb_false_r in *. cbn in *. auto 9.
  - left. rewrite l_step_vupdate in *. pose proof (v_update_case (l_v s) t) as C. cbn [fst l_p l_v to_p] in *. destruct (v_update (l_v s) t) as [v2 ms].
    cbn [fst snd] in *. destruct C; try congruence. cbn. rewrite app_nil_r. auto 9.
  - destruct (to_v s) as [|[st m] q] eqn:E. { left. unfold l_step in *. rewrite E in *. cbn. auto 9. }
    destruct (beaconb m) eqn:Em.
    + right; right. split; [lia|]. eapply beacon_p3; eauto.
    + left. rewrite (l_step_vparse _ _ _ _ _ E) in *. rewrite Em in *. cbn in *. auto 9.
  - left. cbn in *. auto 9.
  - left. cbn in *. repeat split; auto. apply Forall_app. split; auto. repeat constructor. cbn. intros Hs. destruct Ho. apply sensb_spec. auto.
Qed.

Lemma inv_step s o now lp lv : Now s (time o) lp lv -> now <= time o -> other o -> Inv s now lp lv ->
  Inv (fst (l_step s o)) (time o) (lp' o lp) (lv' o lv).
Proof.
  intros N Hn Ho [H|[(a & Ha & H)|[H|[H|[H|[H|H]]]]]]; unfold Inv.
  - left. eapply a_step; eauto.
  - destruct (p3_step _ _ _ _ _ _ N Hn H); eauto 9.
  - destruct (p2_step _ _ _ _ _ N H) as [?|[? ?]]; eauto 9.
  - destruct (q0_step _ _ _ _ N H) as [?|[H1 H2]]; [eauto 9|]. right; right; left. split; auto. eapply (in_mono beaconb); [|exact H2]. lia.
  - destruct (q1_step _ _ _ _ N H) as [?|[?|[?|[?|[? ?]]]]]; eauto 12.
  - destruct (q2_step _ _ _ _ N H) as [?|[?|[?|[? ?]]]]; eauto 12.
  - destruct (q3_step _ _ _ _ N Ho H) as [?|[?|[? ?]]]; eauto 12.
Qed.

Lemma inv_settled s t lp lv now : Now s t lp lv -> Inv s now lp lv -> D2 + 500 + g + L < t -> A s lp lv.
Proof.
  intros N I0 Ht. destruct I0 as [H|[(a & Ha & H)|[H|[H|[H|[H|H]]]]]]; auto; exfalso.
  - destruct H as (_ & _ & _ & _ & H). pose proof (sd_time _ _ _ _ _ N H). lia.
  - destruct H as [_ H]. pose proof (in_time beaconb _ _ _ (n_tv _ _ _ _ N) H). lia.
  - destruct H as (_ & _ & H). destruct N. lia.
  - destruct H as (_ & _ & _ & H). pose proof (sd_time _ _ _ _ _ N H). lia.
  - destruct H as (_ & _ & _ & _ & _ & _ & H). destruct N. lia.
  - destruct H as (_ & _ & _ & _ & H). destruct N. lia.
Qed.

Lemma paced_now s o c from now lp lv : G0 now s -> T <= lp <= now -> T <= lv <= now -> from = T -> h = every_p c -> g = every_v c -> L = takes c ->
  now <= time o -> other o -> time o <= lp + every_p c -> time o <= lv + every_v c ->
  Forall (fun e => time o <= Z.max from (fst e) + takes c) (to_v s ++ to_p s) -> Now s (time o) lp lv.
Proof.
  intros G Hp Hv Hf E1 E2 E3 Hn Ho H1 H2 H3. apply Forall_app in H3. destruct H3 as [F1 F2]. subst from. rewrite <- E3 in *. constructor; auto; try lia.
  eapply g0_later; eauto.
Qed.

Context (c : pace).
Hypothesis Hh : h = every_p c.
Hypothesis Hg : g = every_v c.
Hypothesis HL : L = takes c.

(* an invariant of the states met when keeping the pace *)
Lemma paced_ind (P : loop -> Z -> Z -> Z -> Prop) :
  (forall s o now lp lv, G0 now s -> T <= lp <= now -> T <= lv <= now -> Now s (time o) lp lv -> now <= time o -> other o -> P s now lp lv ->
     P (fst (l_step s o)) (time o) (lp' o lp) (lv' o lv)) ->
  forall ops s now lp lv, G0 now s -> T <= lp <= now -> T <= lv <= now -> P s now lp lv -> paced c T now lp lv s ops ->
  forall o1 o o2, ops = o1 ++ o :: o2 ->
  exists lp1 lv1 now1, let s1 := loop_after s o1 in
    Now s1 (time o) lp1 lv1 /\ P s1 now1 lp1 lv1 /\ G0 now1 s1 /\ T <= lp1 <= now1 /\ T <= lv1 <= now1 /\ now1 <= time o /\ other o /\
    paced c T (time o) (lp' o lp1) (lv' o lv1) (fst (l_step s1 o)) o2.
Proof.
  intros HP. induction ops as [|x ops IH]; intros s now lp lv G Hp Hv P0 Hpc o1 o o2 E; [destruct o1; discriminate|].
  cbn in Hpc. destruct Hpc as (Q1' & Q2' & Q3' & Q4' & Q5' & Q6').
  assert (Now s (time x) lp lv) as N by (eapply paced_now; eauto).
  destruct o1 as [|y o1]; cbn in E; injection E as E1 E2; subst.
  - exists lp, lv, now. cbn. repeat (split; [solve [auto]|]). exact Q6'.
  - unfold loop_after. rewrite run_cons. cbn [fst]. apply (IH (fst (l_step s y)) (time y) (lp' y lp) (lv' y lv)); auto.
    + eapply g0_step; eauto.
    + destruct y; cbn in *; lia.
    + destruct y; cbn in *; lia.
    + eapply HP; eauto.
Qed.

Lemma a_forever ops : forall s now lp lv, G0 now s -> T <= lp <= now -> T <= lv <= now -> A s lp lv -> paced c T now lp lv s ops ->
  running (l_p (loop_after s ops)) = true /\ v_on (l_v (loop_after s ops)) = true /\ v_set (l_v (loop_after s ops)) = Some 2 /\
  (forall x, ~ In (POffline x) (loop_events s ops)).
Proof.
  induction ops as [|o ops IH]; intros s now lp lv G Hp Hv H Hpc.
  - cbn. destruct H as (H1 & H2 & _). repeat split; auto. apply (g_set _ _ G H2).
  - cbn in Hpc. destruct Hpc as (Q1' & Q2' & Q3' & Q4' & Q5' & Q6').
    assert (Now s (time o) lp lv) as N by (eapply paced_now; eauto).
    destruct (a_step _ _ _ _ N H) as [A' NO].
    unfold loop_after, loop_events. rewrite run_cons. cbn [fst snd].
    destruct (IH (fst (l_step s o)) (time o) (lp' o lp) (lv' o lv)) as (B1 & B2 & B3 & B4); auto.
    + eapply g0_step; eauto.
    + destruct o; cbn in *; lia.
    + destruct o; cbn in *; lia.
    + repeat split; auto. intros x Hx. apply in_app_or in Hx. destruct Hx as [Hx|Hx]; [now apply (NO x)|now apply (B4 x)].
Qed.

Lemma settled s ops o1 o o2 : G0 T s -> paced c T T T T s ops -> ops = o1 ++ o :: o2 -> D2 + 500 + g + L < time o ->
  running (l_p (loop_after s ops)) = true /\ v_on (l_v (loop_after s ops)) = true /\ v_set (l_v (loop_after s ops)) = Some 2 /\
  (forall x, ~ In (POffline x) (loop_events (loop_after s o1) (o :: o2))).
Proof.
  intros G Hpc E Ht.
  destruct (paced_ind Inv) with (ops := ops) (s := s) (now := T) (lp := T) (lv := T) (o1 := o1) (o := o) (o2 := o2)
    as (lp1 & lv1 & now1 & N & I1 & G1 & L1 & L2 & L3 & L4 & L5); auto; try lia.
  { intros. eapply inv_step; eauto. }
  { apply start_inv; auto. }
  cbn zeta in *. pose proof (inv_settled _ _ _ _ _ N I1 Ht) as A1. destruct (a_step _ _ _ _ N A1) as [A2 NO].
  destruct (a_forever o2 (fst (l_step (loop_after s o1) o)) (time o) (lp' o lp1) (lv' o lv1)) as (B1 & B2 & B3 & B4); auto.
  - eapply g0_step; eauto.
  - destruct o; cbn in *; lia.
  - destruct o; cbn in *; lia.
  - rewrite E. unfold loop_after, loop_events in *. rewrite run_app, run_cons. cbn [fst snd].
    repeat split; auto. intros x Hx. apply in_app_or in Hx. destruct Hx as [Hx|Hx]; [now apply (NO x)|now apply (B4 x)].
Qed.


(* a fresh start: nothing has been said yet *)
Definition Quiet (s : loop) : Prop := running (l_p s) = false /\ v_on (l_v s) = false /\ Forall (fun e => sensb (snd e) = false) (to_p s).
Definition NoBeacon (s : loop) : Prop := Forall (fun e => beaconb (snd e) = false) (to_v s).
Lemma other_sens t m : other (LVSay t m) -> sensb m = false.
Proof. intros H. destruct (sensb m) eqn:E; auto. destruct H. apply sensb_spec. auto. Qed.
Lemma other_beac t m : other (LPSay t m) -> beaconb m = false.
Proof. intros H. destruct (beaconb m) eqn:E; auto. destruct H. apply beaconb_spec. auto. Qed.
Lemma quiet_step s o : other o -> Quiet s ->
  Quiet (fst (l_step s o)) \/ exists st m q, o = LVParse (time o) /\ to_v s = (st, m) :: q /\ beaconb m = true.
Proof.
  intros Ho (H1 & H2 & H3). unfold Quiet. destruct o as [t|t|t|t|t m|t m]; cbn [time].
  - left. rewrite l_step_pupdate. cbn [fst l_p l_v to_p]. repeat split; auto. pose proof (p_update_case (l_p s) t) as C. destruct (p_update (l_p s) t).
    cbn [fst snd] in *. destruct C; cbn; auto; congruence.
  - left. destruct (to_p s) as [|[st m] q] eqn:E. { unfold l_step. rewrite E. cbn. rewrite E. auto. }
    inv H3. cbn in H4. rewrite (l_step_pread _ _ _ _ _ E), H4, andb_false_r. cbn. auto.
  - left. rewrite l_step_vupdate. cbn [fst l_p l_v to_p]. unfold v_update. rewrite H2. cbn. rewrite app_nil_r. auto.
  - destruct (to_v s) as [|[st m] q] eqn:E. { left. unfold l_step. rewrite E. auto. }
    destruct (beaconb m) eqn:Em; [right; eauto 9|left]. rewrite (l_step_vparse _ _ _ _ _ E), Em. auto.
  - left. auto.
  - left. cbn. repeat split; auto. apply Forall_app. split; auto. repeat constructor. cbn. eapply other_sens; eauto.
Qed.
Lemma q0_quiet_step s o lp lv : Now s (time o) lp lv -> other o -> Quiet s -> NoBeacon s -> Q0 s lp ->
  Quiet (fst (l_step s o)) /\ (NoBeacon (fst (l_step s o)) /\ Q0 (fst (l_step s o)) (lp' o lp) \/ P2 (T + 5000 + h + L) (fst (l_step s o))).
Proof.
  intros N Ho HQ HB H. split.
  - destruct (quiet_step s o Ho HQ) as [?|(st & m & q & _ & E & Em)]; auto. unfold NoBeacon in HB. rewrite E in HB. inv HB. cbn in *. congruence.
  - destruct (q0_step _ _ _ _ N H) as [H0|H0]; auto. left. split; auto. destruct HQ as (R1 & R2 & R3). unfold NoBeacon in *.
    destruct o as [t|t|t|t|t m|t m]; cbn [time] in *.
    + rewrite l_step_pupdate in *. cbn [fst l_p to_v] in *. pose proof (p_update_case (l_p s) t) as C. destruct (p_update (l_p s) t).
      cbn [fst snd] in *. destruct C; try congruence; cbn; rewrite ?app_nil_r; auto. destruct H0 as [H0 _]. cbn in H0. discriminate.
    + destruct (to_p s) as [|[st m] q] eqn:E. { unfold l_step. rewrite E. auto. }
      rewrite (l_step_pread _ _ _ _ _ E). destruct (init_sent (l_p s) && sensb m); auto.
    + rewrite l_step_vupdate. auto.
    + destruct (to_v s) as [|[st m] q] eqn:E. { unfold l_step. rewrite E. cbn. rewrite E. auto. }
      rewrite (l_step_vparse _ _ _ _ _ E). inv HB. auto.
    + cbn. apply Forall_app. split; auto. repeat constructor. cbn. eapply other_beac; eauto.
    + auto.
Qed.
Lemma p2_quiet_step d s o lp lv : Now s (time o) lp lv -> other o -> Quiet s -> P2 d s ->
  Quiet (fst (l_step s o)) /\ P2 d (fst (l_step s o)) \/
  time o <= d /\ running (l_p (fst (l_step s o))) = false /\ P3 (time o) (fst (l_step s o)) (time o) (lv' o lv).
Proof.
  intros N Ho HQ H. destruct (quiet_step s o Ho HQ) as [Q|(st & m & q & Eo & E & Em)].
  - destruct (p2_step _ _ _ _ _ N H) as [?|(_ & _ & _ & ? & _)]; auto. destruct Q as (_ & Q & _). congruence.
  - right. destruct H as [Hi Hb]. split; [exact (in_time beaconb _ _ _ (n_tv _ _ _ _ N) Hb)|]. rewrite Eo in *. cbn [time lv'] in *. split.
    + rewrite (l_step_vparse _ _ _ _ _ E). apply HQ.
    + eapply beacon_p3; eauto.
Qed.
Lemma p3_run_step a s o now lp lv : Now s (time o) lp lv -> now <= time o -> P3 a s now lv -> running (l_p s) = false ->
  P3 a (fst (l_step s o)) (time o) (lv' o lv) /\ running (l_p (fst (l_step s o))) = false \/ A (fst (l_step s o)) (lp' o lp) (lv' o lv).
Proof.
  intros N Hn HP Hr. destruct (p3_step _ _ _ _ _ _ N Hn HP) as [HP'|]; auto.
  destruct HP as (H1 & H2 & H3 & H4 & H5). pose proof (sd_time _ _ _ _ _ N H5) as T5.
  destruct o as [t|t|t|t|t m|t m]; cbn [time lp' lv'] in *.
  - left. split; auto. rewrite l_step_pupdate in *. cbn [fst l_p]. pose proof (p_update_case (l_p s) t) as C. destruct (p_update (l_p s) t).
    cbn [fst snd] in *. destruct C; cbn; auto; congruence.
  - destruct (to_p s) as [|[st m] q] eqn:E. { left. split; auto. unfold l_step. rewrite E. auto. }
    destruct (sensb m) eqn:Em.
    + right. destruct (hears _ _ _ _ _ _ _ N E Em H2) as (A1 & A2 & A3 & A4 & A5 & A6 & A7 & A8 & A9 & A10).
      unfold A. rewrite A6, A3. repeat split; auto. right. destruct N as [[] N1 N2 N3 N4 N5 N6]. destruct A7 as [A7|A7]; rewrite ?A7; lia.
    + left. split; auto. rewrite (l_step_pread _ _ _ _ _ E), Em, andb_false_r. auto.
  - left. split; auto. rewrite l_step_vupdate. auto.
  - left. split; auto. destruct (to_v s) as [|[st m] q] eqn:E. { unfold l_step. rewrite E. auto. } rewrite (l_step_vparse _ _ _ _ _ E). auto.
  - auto.
  - auto.
Qed.

Definition InvF (s : loop) (now lp lv : Z) : Prop :=
  A s lp lv \/ (exists a, a <= T + 5000 + h + L /\ P3 a s now lv /\ running (l_p s) = false) \/
  (Quiet s /\ P2 (T + 5000 + h + L) s) \/ (Quiet s /\ NoBeacon s /\ Q0 s lp).
Lemma invf_step s o now lp lv : Now s (time o) lp lv -> now <= time o -> other o -> InvF s now lp lv -> InvF (fst (l_step s o)) (time o) (lp' o lp) (lv' o lv).
Proof.
  intros N Hn Ho [H|[(a & Ha & H & Hr)|[[HQ H]|(HQ & HB & H)]]]; unfold InvF.
  - left. eapply a_step; eauto.
  - destruct (p3_run_step _ _ _ _ _ _ N Hn H Hr) as [[? ?]|?]; eauto 9.
  - destruct (p2_quiet_step _ _ _ _ _ N Ho HQ H) as [[? ?]|(? & ? & ?)]; eauto 9.
  - destruct (q0_quiet_step _ _ _ _ N Ho HQ HB H) as [? [[? ?]|?]]; eauto 9.
Qed.
Lemma invf_no s o now lp lv : Now s (time o) lp lv -> InvF s now lp lv -> forall x, ~ In (POffline x) (snd (l_step s o)).
Proof.
  intros N H x Hx. assert (A s lp lv \/ running (l_p s) = false) as [H0|H0].
  { destruct H as [H|[(a & _ & _ & H)|[[(H & _) _]|[(H & _) _]]]]; auto. }
  - now apply (a_step _ _ _ _ N H0) in Hx.
  - destruct o as [t|t|t|t|t m|t m]; cbn [time] in *.
    + rewrite l_step_pupdate in Hx. cbn [snd] in Hx. pose proof (p_update_case (l_p s) t) as C.
      destruct (p_update (l_p s) t) as [p2 evs]. cbn [fst snd] in *. destruct C; cbn in Hx; try tauto; try congruence.
      apply in_app_or in Hx. destruct (has_been_running (l_p s)); cbn in Hx; intuition discriminate.
    + destruct (to_p s) as [|[st m] q] eqn:E. { unfold l_step in Hx. rewrite E in Hx. destruct Hx. }
      rewrite (l_step_pread _ _ _ _ _ E) in Hx. destruct (init_sent (l_p s) && sensb m); cbn in Hx; auto. destruct (running (l_p s)); cbn in Hx; intuition discriminate.
    + rewrite l_step_vupdate in Hx. destruct Hx.
    + destruct (to_v s) as [|[st m] q] eqn:E. { unfold l_step in Hx. rewrite E in Hx. destruct Hx. } rewrite (l_step_vparse _ _ _ _ _ E) in Hx. destruct Hx.
    + destruct Hx.
    + destruct Hx.
Qed.
Lemma invf_never ops : forall s now lp lv, G0 now s -> T <= lp <= now -> T <= lv <= now -> InvF s now lp lv -> paced c T now lp lv s ops ->
  forall x, ~ In (POffline x) (loop_events s ops).
Proof.
  induction ops as [|o ops IH]; intros s now lp lv G Hp Hv H Hpc; [intros x []|].
  cbn in Hpc. destruct Hpc as (Q1' & Q2' & Q3' & Q4' & Q5' & Q6').
  assert (Now s (time o) lp lv) as N by (eapply paced_now; eauto).
  unfold loop_events. rewrite run_cons. cbn [snd]. intros x Hx. apply in_app_or in Hx. destruct Hx as [Hx|Hx].
  - now apply (invf_no _ _ _ _ _ N H) in Hx.
  - revert x Hx. apply (IH (fst (l_step s o)) (time o) (lp' o lp) (lv' o lv)); auto.
    + eapply g0_step; eauto.
    + destruct o; cbn in *; lia.
    + destruct o; cbn in *; lia.
    + apply invf_step with now; auto.
Qed.
Lemma settled_fresh s ops : G0 T s -> init_sent (l_p s) = false -> Quiet s -> NoBeacon s -> paced c T T T T s ops ->
  (forall x, ~ In (POffline x) (loop_events s ops)) /\
  forall o1 o o2, ops = o1 ++ o :: o2 -> T + 5500 + h + g + 2 * L < time o ->
  running (l_p (loop_after s ops)) = true /\ v_on (l_v (loop_after s ops)) = true /\ v_set (l_v (loop_after s ops)) = Some 2.
Proof.
  intros G Hs HQ HB Hpc.
  assert (InvF s T T T) as I0 by (do 3 right; unfold Q0; destruct G; repeat split; auto; try apply HQ; lia).
  split. { apply (invf_never ops s T T T); auto; lia. }
  intros o1 o o2 E Ht.
  destruct (paced_ind InvF) with (ops := ops) (s := s) (now := T) (lp := T) (lv := T) (o1 := o1) (o := o) (o2 := o2)
    as (lp1 & lv1 & now1 & N & I1 & G1 & L1 & L2 & L3 & L4 & L5); auto; try lia.
  { intros. eapply invf_step; eauto. }
  cbn zeta in *. assert (A (loop_after s o1) lp1 lv1) as A1.
  { destruct I1 as [I1|[(a & Ha & I1 & _)|[[_ I1]|(_ & _ & I1)]]]; auto; exfalso.
    - destruct I1 as (_ & _ & _ & _ & I1). pose proof (sd_time _ _ _ _ _ N I1). lia.
    - destruct I1 as [_ I1]. pose proof (in_time beaconb _ _ _ (n_tv _ _ _ _ N) I1). lia.
    - destruct I1 as (_ & _ & I1). destruct N. lia. }
  destruct (a_step _ _ _ _ N A1) as [A2 NO].
  destruct (a_forever o2 (fst (l_step (loop_after s o1) o)) (time o) (lp' o lp1) (lv' o lv1)) as (B1 & B2 & B3 & B4); auto.
  - eapply g0_step; eauto.
  - destruct o; cbn in *; lia.
  - destruct o; cbn in *; lia.
  - rewrite E. unfold loop_after in *. rewrite run_app, run_cons. cbn [fst snd]. auto.
Qed.
End Loop.

Lemma consts lease c : fast_enough lease c ->
  0 <= every_p c /\ 0 <= every_v c /\ 0 <= takes c /\ 500 + every_v c + takes c <= 1500 /\
  500 * lease + 500 + every_p c + every_v c + 2 * takes c <= 2000 * Z.quot lease 2 /\ 3000 <= 500 * lease.
Proof. intros (F1 & F2 & F3 & F4 & F5 & F6). rewrite Z.quot_div_nonneg by lia. lia. Qed.

Lemma loop_settles lease tuner t0 ops0 c ops o1 o o2 :
  fast_enough lease c -> 0 <= t0 -> clocked t0 ops0 ->
  let s := loop_after (loop_new lease tuner t0) ops0 in let from := end_of t0 ops0 in
  keeps_pace c from s ops -> ops = o1 ++ o :: o2 -> from + settle lease c < time o ->
  both_connected (loop_after s ops) /\ ~ lost_in (loop_events (loop_after s o1) (o :: o2)).
Proof.
  intros F Ht0 Hc s from Hp E Hb. pose proof (consts _ _ F) as K. unfold settle in Hb.
  assert (G0 lease from s) as G by (apply clocked_g0; auto; apply g0_new; auto).
  pose proof (settled lease from (every_p c) (every_v c) (takes c) (500 * lease) (2000 * Z.quot lease 2)
    (from + 500 + every_v c + takes c) (from + 500 + every_v c + takes c + 500 * lease + every_p c)
    (from + 500 + every_v c + takes c + 500 * lease + every_p c + takes c)
    (from + 500 + every_v c + takes c + 500 * lease + every_p c + takes c + 1500 + 2 * every_p c + takes c) eq_refl eq_refl K ltac:(lia) c eq_refl eq_refl eq_refl
    s ops o1 o o2 G Hp E ltac:(lia)) as (B1 & B2 & B3 & B4).
  split; [repeat split; auto|]. intros [x Hx]. now apply (B4 x).
Qed.

Lemma loop_fresh lease tuner t0 c ops :
  fast_enough lease c -> 0 <= t0 -> keeps_pace c t0 (loop_new lease tuner t0) ops ->
  ~ lost_in (loop_events (loop_new lease tuner t0) ops) /\
  (lasts_beyond (t0 + settle_fresh c) ops -> both_connected (loop_after (loop_new lease tuner t0) ops)).
Proof.
  intros F Ht0 Hp. pose proof (consts _ _ F) as K.
  pose proof (settled_fresh lease t0 (every_p c) (every_v c) (takes c) (500 * lease) (2000 * Z.quot lease 2)
    (t0 + 500 + every_v c + takes c) (t0 + 500 + every_v c + takes c + 500 * lease + every_p c)
    (t0 + 500 + every_v c + takes c + 500 * lease + every_p c + takes c)
    (t0 + 500 + every_v c + takes c + 500 * lease + every_p c + takes c + 1500 + 2 * every_p c + takes c) eq_refl eq_refl K ltac:(lia) c eq_refl eq_refl eq_refl
    (loop_new lease tuner t0) ops (g0_new _ _ _ Ht0) eq_refl ltac:(repeat split; auto; constructor) ltac:(constructor) Hp) as (B1 & B2).
  split. { intros [x Hx]. now apply (B1 x). }
  intros (o & Hin & Hb). apply in_split in Hin. destruct Hin as (o1 & o2 & E). unfold settle_fresh in Hb.
  destruct (B2 o1 o o2 E) as (C1 & C2 & C3); [lia|]. repeat split; auto.
Qed.

(* what the virtual device does in any schedule *)
Lemma got_snoc s ops o t : got_beacon s ops t -> got_beacon s (ops ++ [o]) t.
Proof. intros (o1 & o2 & st & m & q & -> & H1 & H2). exists o1, (o2 ++ [o]), st, m, q. rewrite <- app_assoc. auto. Qed.
Lemma clocked_app a : forall now b, clocked now (a ++ b) <-> clocked now a /\ clocked (end_of now a) b.
Proof.
  induction a as [|o a IH]; intros now b; cbn [app clocked].
  - cbn. tauto.
  - change (end_of now (o :: a)) with (end_of (time o) a). rewrite IH. tauto.
Qed.
Lemma lease_inv lease tuner t0 ops : 0 <= t0 -> clocked t0 ops ->
  let s0 := loop_new lease tuner t0 in
  v_on (l_v (loop_after s0 ops)) = true -> got_beacon s0 ops (last_reset (v_lease (l_v (loop_after s0 ops)))).
Proof.
  intros Ht0 Hc. cbn zeta. induction ops as [|ops o IH] using rev_ind_snoc; [discriminate|].
  apply clocked_app in Hc. destruct Hc as [Hc1 Hc2]. specialize (IH Hc1).
  pose proof (clocked_g0 lease _ _ _ (g0_new lease tuner t0 Ht0) Hc1) as G.
  unfold loop_after in *. rewrite run_snoc. cbn [fst].
  set (s := fst (run l_step (loop_new lease tuner t0) ops)) in *.
  destruct o as [t|t|t|t|t m|t m].
  - rewrite l_step_pupdate. cbn [fst l_v]. intros H. apply got_snoc. auto.
  - destruct (to_p s) as [|[st m] q] eqn:E. { unfold l_step. rewrite E. intros. apply got_snoc. auto. }
    rewrite (l_step_pread _ _ _ _ _ E). destruct (init_sent (l_p s) && sensb m); cbn; intros; apply got_snoc; auto.
  - rewrite l_step_vupdate. cbn [fst l_v]. pose proof (v_update_case (l_v s) t) as C. destruct (v_update (l_v s) t). cbn [fst snd] in *.
    destruct C; cbn; intros; try congruence; apply got_snoc; auto.
  - destruct (to_v s) as [|[st m] q] eqn:E. { unfold l_step. rewrite E. intros. apply got_snoc. auto. }
    rewrite (l_step_vparse _ _ _ _ _ E). cbn [fst l_v]. destruct (beaconb m) eqn:Em; [|intros; apply got_snoc; auto].
    cbn. intros _. exists ops, [], st, m, q. repeat split; auto. now apply beaconb_spec.
  - cbn. intros. apply got_snoc. auto.
  - cbn. intros. apply got_snoc. auto.
Qed.
Lemma lease_honoured lease tuner t0 ops t : 0 <= t0 -> clocked t0 (ops ++ [LVUpdate t]) ->
  let s0 := loop_new lease tuner t0 in
  v_on (l_v (loop_after s0 (ops ++ [LVUpdate t]))) = true -> exists t1, got_beacon s0 ops t1 /\ t <= t1 + 2000 * Z.quot lease 2.
Proof.
  intros Ht0 Hc. cbn zeta. apply clocked_app in Hc. destruct Hc as [Hc1 Hc2].
  pose proof (clocked_g0 lease _ _ _ (g0_new lease tuner t0 Ht0) Hc1) as G. pose proof (lease_inv lease tuner _ _ Ht0 Hc1) as LI. cbn zeta in LI.
  unfold loop_after in *. rewrite run_snoc. cbn [fst]. set (s := fst (run l_step (loop_new lease tuner t0) ops)) in *.
  rewrite l_step_vupdate. cbn [fst l_v]. pose proof (v_update_case (l_v s) t) as C. destruct (v_update (l_v s) t). cbn [fst snd] in *.
  intros Hv. exists (last_reset (v_lease (l_v s))). destruct C; cbn in Hv; try congruence; destruct (g_l _ _ _ G H) as [L1 L2]; split; auto; lia.
Qed.
Lemma device_says lease tuner t0 ops t : 0 <= t0 -> clocked t0 ops ->
  let v := l_v (loop_after (loop_new lease tuner t0) ops) in
  snd (v_update v t) = [] \/ v_on v = true /\ exists k, 0 <= k <= 127 /\ snd (v_update v t) = [[240; 0; 32; 51; 2; 127; 126; 0; 127; k; 247]].
Proof.
  intros Ht0 Hc. cbn zeta. pose proof (clocked_g0 lease _ _ _ (g0_new lease tuner t0 Ht0) Hc) as G.
  set (v := l_v _) in *. pose proof (v_update_case v t) as C. pose proof (g_step _ _ _ G) as Gs. fold v in Gs. destruct (v_update v t). cbn [fst snd] in *.
  destruct C as [V1|V1 V2 kp k ms [(-> & -> & ->)|(-> & -> & ->)]|V1 V2 V3|V1 V2 V3]; auto; right; split; auto; eexists; (split; [|reflexivity]); lia.
Qed.
(* The device answers: with the update that follows more than half a second after the previous keep-alive *)
Lemma device_answers lease tuner t0 ops t : 0 <= t0 -> clocked t0 ops -> end_of t0 ops + 500 < t ->
  let v := l_v (loop_after (loop_new lease tuner t0) ops) in v_on v = true -> length (snd (v_update v t)) = 1%nat.
Proof.
  intros Ht0 Hc Ht. cbn zeta. pose proof (clocked_g0 lease _ _ _ (g0_new lease tuner t0 Ht0) Hc) as G. destruct G.
  intros Hv. set (v := l_v _) in *. unfold v_update. rewrite Hv. unfold p_exceeded.
  destruct (last_reset (v_lease v) + interval (v_lease v) <? t); cbn [v_keep];
  (destruct (last_reset (v_keep v) + interval (v_keep v) <? t) eqn:E; [reflexivity|lia]).
Qed.
