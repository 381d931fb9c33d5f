(* C78: the firmware and the virtual Kemper of the web emulator in a closed loop. [loop_after s ops], [loop_events s ops]: the state and the
   events of the firmware's protocol after a schedule [ops] of updates and deliveries on both sides. *)
From Verif.Lib Require Import Base.
From Verif.Model Require Import Midi Period Mapping Protocol Codec VirtualProtocol.
From Verif.Spec Require Import Protocol VirtualProtocol.
From Verif.Proofs Require Import VirtualProtocol.

(* Whatever has happened before (ops0 is any schedule: messages may have been delayed arbitrarily, updates may have stalled): once updates
   and deliveries keep a sufficient pace, both sides are connected after a bounded time, and the connection is never lost again. *)
Theorem C78_recovers : forall lease tuner t0 ops0 c ops o1 o o2,
  fast_enough lease c -> 0 <= t0 -> clocked t0 ops0 ->
  let s := loop_after (loop_new lease tuner t0) ops0 in let from := end_of t0 ops0 in
  keeps_pace c from s ops -> ops = o1 ++ o :: o2 -> from + settle lease c < time o ->
  both_connected (loop_after s ops) /\ ~ lost_in (loop_events (loop_after s o1) (o :: o2)).
Proof. exact loop_settles. Qed.
Print Assumptions C78_recovers.

(* From the start: connected after about 5.5 s and never lost *)
Theorem C78_starts : forall lease tuner t0 c ops,
  fast_enough lease c -> 0 <= t0 -> keeps_pace c t0 (loop_new lease tuner t0) ops ->
  ~ lost_in (loop_events (loop_new lease tuner t0) ops) /\
  (lasts_beyond (t0 + settle_fresh c) ops -> both_connected (loop_after (loop_new lease tuner t0) ops)).
Proof. exact loop_fresh. Qed.
Print Assumptions C78_starts.

(* In any schedule the virtual device is connected only within the lease of a beacon it has got *)
Theorem C78_lease_honoured : forall lease tuner t0 ops t, 0 <= t0 -> clocked t0 (ops ++ [LVUpdate t]) ->
  let s0 := loop_new lease tuner t0 in
  v_on (l_v (loop_after s0 (ops ++ [LVUpdate t]))) = true -> exists t1, got_beacon s0 ops t1 /\ t <= t1 + 2000 * Z.quot lease 2.
Proof. exact lease_honoured. Qed.
Print Assumptions C78_lease_honoured.

(* In any schedule an update of the virtual device sends nothing or, if it is connected, one keep-alive with a valid counter ... *)
Theorem C78_device_says : forall lease tuner t0 ops t, 0 <= t0 -> clocked t0 ops ->
  let v := l_v (loop_after (loop_new lease tuner t0) ops) in
  snd (v_update v t) = [] \/ v_on v = true /\ exists k, 0 <= k <= 127 /\ snd (v_update v t) = [[240; 0; 32; 51; 2; 127; 126; 0; 127; k; 247]].
Proof. exact device_says. Qed.
Print Assumptions C78_device_says.
(* ... and if it is connected, one is sent at the latest by an update more than half a second later *)
Theorem C78_device_answers : forall lease tuner t0 ops t, 0 <= t0 -> clocked t0 ops -> end_of t0 ops + 500 < t ->
  let v := l_v (loop_after (loop_new lease tuner t0) ops) in v_on v = true -> length (snd (v_update v t)) = 1%nat.
Proof. exact device_answers. Qed.
Print Assumptions C78_device_answers.

(* Witnesses: both sides update every 250 ms and read what has arrived; the emulator's lease of 30 s (KemperClient.js:18-24) *)
Definition beat (k : nat) : list lop := let t := 250 * Z.of_nat k in [LPUpdate t; LVParse t; LVUpdate t; LPRead t].
Definition beats (from n : nat) : list lop := flat_map beat (seq from n).
Definition ex_pace : pace := mkPace 250 250 250.
Fixpoint pacedb (c : pace) (from now last_p last_v : Z) (s : loop) (ops : list lop) : bool :=
  match ops with
  | [] => true
  | o :: ops' =>
      (now <=? time o) && (time o <=? last_p + every_p c) && (time o <=? last_v + every_v c) &&
      forallb (fun e => time o <=? Z.max from (fst e) + takes c) (to_v s ++ to_p s) &&
      match o with LPSay _ _ | LVSay _ _ => false | _ => true end &&
      pacedb c from (time o) (match o with LPUpdate t => t | _ => last_p end) (match o with LVUpdate t => t | _ => last_v end)
            (fst (l_step s o)) ops'
  end.
Lemma pacedb_ok c from ops : forall now lp lv s, pacedb c from now lp lv s ops = true -> paced c from now lp lv s ops.
Proof.
  induction ops as [|o ops IH]; intros now lp lv s H; cbn in *; auto.
  apply andb_true_iff in H. destruct H as [H H6]. apply andb_true_iff in H. destruct H as [H H5]. apply andb_true_iff in H. destruct H as [H H4].
  apply andb_true_iff in H. destruct H as [H H3]. apply andb_true_iff in H. destruct H as [H1 H2]. rewrite forallb_forall in H4.
  repeat split; try lia.
  - destruct o; cbn; auto; discriminate.
  - apply Forall_forall. intros e He. specialize (H4 e He). lia.
  - apply IH. auto.
Qed.

Example C78_fast : fast_enough 30 ex_pace.
Proof. unfold fast_enough. cbn. lia. Qed.
(* half a minute from the start *)
Example C78_starts_meets : keeps_pace ex_pace 0 (loop_new 30 true 0) (beats 0 120) /\ lasts_beyond (0 + settle_fresh ex_pace) (beats 0 120).
Proof.
  split. { apply pacedb_ok. vm_compute. reflexivity. }
  exists (LPUpdate 29750). split; [|vm_compute; reflexivity]. apply in_flat_map. exists 119%nat. split; [apply in_seq; lia|]. left. reflexivity.
Qed.
(* the virtual device stalls for some seconds after the connection was established; the connection is lost and comes back *)
Definition ex_stall : list lop := beats 0 40 ++ flat_map (fun k => [LPUpdate (250 * Z.of_nat k)]) (seq 40 10).
Example C78_recovers_meets :
  let s := loop_after (loop_new 30 true 0) ex_stall in
  clocked 0 ex_stall /\ lost_in (loop_events (loop_new 30 true 0) ex_stall) /\ ~ both_connected s /\ end_of 0 ex_stall = 12250 /\
  keeps_pace ex_pace 12250 s (beats 49 100) /\ 12250 + settle 30 ex_pace < 36000.
Proof.
  cbn zeta. split; [|split; [|split; [|split; [|split]]]].
  - vm_compute. repeat split; discriminate.
  - exists 11500. vm_compute. tauto.
  - intros (H & _). vm_compute in H. discriminate.
  - reflexivity.
  - apply pacedb_ok. vm_compute. reflexivity.
  - reflexivity.
Qed.

(* A lease of one second is sent as 0, because it is counted in units of two seconds: the virtual device gives up at its next update.
   However fast everything is, it is offline most of the time and does not report parameter changes, while the firmware takes the
   connection for established. *)
Theorem C78_short_lease_refuted : exists ops, keeps_pace ex_pace 0 (loop_new 1 true 0) ops /\ lasts_beyond 24000 ops /\
  let s := loop_after (loop_new 1 true 0) ops in running (l_p s) = true /\ v_on (l_v s) = false /\ v_set (l_v s) = None.
Proof.
  exists (beats 0 99). split; [apply pacedb_ok; vm_compute; reflexivity|split].
  - exists (LPUpdate 24500). split; [|reflexivity]. apply in_flat_map. exists 98%nat. split; [apply in_seq; lia|]. left. reflexivity.
  - vm_compute. auto.
Qed.
Print Assumptions C78_short_lease_refuted.

(* When the lease ends, a keep-alive may still be sent in the same update: the device says it is there and is not *)
Theorem C78_last_word_refuted : exists v t, v_on v = true /\ v_on (fst (v_update v t)) = false /\ snd (v_update v t) = [v_alive 0].
Proof. exists (mkV true (Some 2) (mkPeriod 30000 0) (mkPeriod 500 0) 60), 30001. vm_compute. auto. Qed.
Print Assumptions C78_last_word_refuted.
