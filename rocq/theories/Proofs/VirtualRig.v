(* C80 *)
From Coq Require Import String.
From Verif.Lib Require Import Base.
From Verif.Model Require Import Midi Mapping KemperMappings Rig VirtualParams.
From Verif.Spec Require Import Rig VirtualParams VirtualRig.
From Verif.Proofs Require Import Rig VirtualParams.
Local Open Scope list_scope.
Arguments find_param : simpl never.
Arguments ids_eqb : simpl never.
Arguments starts_with : simpl never.

Lemma found i b s : Inv s -> find_param i setup_blank = Some b -> exists q, find_param i (vd_params s) = Some q /\ blank q = b.
Proof.
  intros [(ks & Hs & _) _] H. pose proof (find_blank i (vd_params s)) as E. rewrite Hs, find_app, H in E.
  destruct (find_param i (vd_params s)) as [q|]; [|discriminate E]. cbn in E. inv E. eauto.
Qed.
(* what blank keeps *)
Lemma blank_keeps q b : blank q = b -> p_send q = p_send b /\ p_recv q = p_recv b /\ p_str q = p_str b /\ p_sets q = p_sets b /\ p_nobuf q = p_nobuf b /\ p_cb q = p_cb b.
Proof. intros <-. repeat split. Qed.

Definition quiet_ids : list (list vid) :=
  [[ICc 32]; [IPc]; [ICc 47]; [ICc 48]; [ICc 49]; [ICc 50]; [ICc 51]; [ICc 52]; [ICc 53]; [ICc 54]; [INrpn [0; 1]]].

(* callbacks of the parameters *)
Lemma cb_of s q : Inv s -> In q (vd_params s) -> (p_cb q = CbRig -> exists c, rig_switch c = true /\ p_id q = [ICc c]) /\
  (p_cb q = CbBank -> p_id q = [ICc 48] \/ p_id q = [ICc 49]).
Proof.
  intros [(ks & Hs & Hok) _] Hq. assert (In (blank q) (setup_blank ++ map (fun k => blank (fresh k)) ks)) as H by (rewrite <- Hs; apply in_map; exact Hq).
  change (p_cb q) with (p_cb (blank q)). change (p_id q) with (p_id (blank q)). apply in_app_or in H. destruct H as [H|H].
  - assert (Forall (fun b => (p_cb b = CbRig -> exists c, rig_switch c = true /\ p_id b = [ICc c]) /\ (p_cb b = CbBank -> p_id b = [ICc 48] \/ p_id b = [ICc 49])) setup_blank) as F.
    { unfold setup_blank. cbn. repeat (apply Forall_cons; [cbn; split; try discriminate; intros _; try (eexists; split; [|reflexivity]; reflexivity); auto|]). apply Forall_nil. }
    exact (proj1 (Forall_forall _ _) F _ H).
  - apply in_map_iff in H. destruct H as (k & <- & Hk). split; discriminate.
Qed.

(* ---- the relation between the virtual device and the documented one ---- *)
Record R (s : vdev) (d : device) (held : option Z) : Prop := mkR {
  r_inv : Inv s;
  r_hi : exists hi lo, value_of [ICc 32] s = JNum hi /\ value_of [IPc] s = JNum lo /\ 128 * hi + lo = d_id d;
  r_pre : value_of [ICc 47] s = match d_pending d with Some b => JNum b | None => JNull end;
  r_sw : forall c, rig_switch c = true -> value_of [ICc c] s = JNum (if match held with Some h => h =? c | None => false end then 1 else 0);
  r_name : value_of (addr 0 1) s = JStr (rig_name (d_id d)) }.

Lemma r_id s d held : R s d held -> get_rig_id s = d_id d.
Proof. intros [_ (hi & lo & H1 & H2 & H3) _ _ _]. unfold get_rig_id, num_of. rewrite H1, H2. exact H3. Qed.

(* a change that keeps all of these values *)
Lemma R_frame s s' d held : R s d held -> Inv s' -> (forall i, In i quiet_ids -> value_of i s' = value_of i s) -> R s' d held.
Proof.
  intros [I (hi & lo & H1 & H2 & H3) Hp Hs Hn] I' F. constructor; auto.
  - exists hi, lo. rewrite !F by (cbn; tauto). auto.
  - rewrite F by (cbn; tauto). exact Hp.
  - intros c Hc. rewrite F; [apply Hs; exact Hc|]. unfold rig_switch in Hc. assert (c = 50 \/ c = 51 \/ c = 52 \/ c = 53 \/ c = 54) as Hcs by lia.
    destruct Hcs as [->|[->|[->|[->| ->]]]]; cbn; tauto.
  - change (addr 0 1) with [INrpn [0; 1]]. rewrite F by (cbn; tauto). exact Hn.
Qed.
Lemma R_raw i v s d held : R s d held -> ~ In i quiet_ids -> R (fst (set_raw i v s)) d held.
Proof.
  intros HR Hi. apply (R_frame s); auto; [apply (inv_same s); [apply same_set_raw|apply HR]|]. intros j Hj. apply value_raw_other. intros ->. contradiction.
Qed.
Lemma str_param i b s t : Inv s -> find_param i setup_blank = Some b -> p_str b = true -> value_of i (fst (set_raw i (JStr t) s)) = JStr t.
Proof.
  intros I H Hb. destruct (found i b s I H) as (q & Hq & Eq). destruct (blank_keeps q b Eq) as (_ & _ & Es & _). eapply value_raw_same; [exact Hq|]. cbn. congruence.
Qed.
Lemma num_param_set i b s n : Inv s -> find_param i setup_blank = Some b -> p_str b = false -> value_of i (fst (set_raw i (JNum n) s)) = JNum n.
Proof.
  intros I H Hb. destruct (found i b s I H) as (q & Hq & Eq). destruct (blank_keeps q b Eq) as (_ & _ & Es & _). eapply value_raw_same; [exact Hq|]. cbn. rewrite Es, Hb. reflexivity.
Qed.
Lemma R_update date s d held : R s d held -> R (fst (update_rig date s)) d held.
Proof.
  intros HR. unfold update_rig. pose proof (r_id s d held HR) as Hid. rewrite Hid.
  assert (R (fst (set_raw [INrpn [0; 1]] (JStr (rig_name (d_id d))) s)) d held) as H1.
  { pose proof HR as [I Hhi Hp Hs Hn]. constructor.
    - apply (inv_same s); [apply same_set_raw|exact I].
    - rewrite !value_raw_other by discriminate. exact Hhi.
    - rewrite value_raw_other by discriminate. exact Hp.
    - intros c Hc. rewrite value_raw_other by discriminate. apply Hs. exact Hc.
    - eapply str_param; [exact I|reflexivity|reflexivity]. }
  destruct (set_raw [INrpn [0; 1]] _ s) as [s1 o1]. cbn [fst] in H1. pose proof (R_raw [INrpn [0; 3]] (JStr date) s1 d held H1) as H2.
  destruct (set_raw [INrpn [0; 3]] (JStr date) s1) as [s2 o2]. cbn [fst] in *. apply H2. cbn. intuition congruence.
Qed.
Lemma R_set_rig date id s d held : R s d held -> R (fst (set_rig_id date id s)) (mkDevice id (d_pending d)) held.
Proof.
  intros [I Hhi Hp Hs Hn]. unfold set_rig_id.
  pose proof (num_param_set [ICc 32] _ s (id / 128) I eq_refl eq_refl) as A1. pose proof (fun j H => value_raw_other j [ICc 32] (JNum (id / 128)) s H) as B1.
  pose proof (inv_same _ _ (same_set_raw [ICc 32] (JNum (id / 128)) s) I) as I1. destruct (set_raw [ICc 32] _ s) as [s1 o1]. cbn [fst] in *.
  pose proof (num_param_set [IPc] _ s1 (id mod 128) I1 eq_refl eq_refl) as A2. pose proof (fun j H => value_raw_other j [IPc] (JNum (id mod 128)) s1 H) as B2.
  pose proof (inv_same _ _ (same_set_raw [IPc] (JNum (id mod 128)) s1) I1) as I2. destruct (set_raw [IPc] _ s1) as [s2 o2]. cbn [fst] in *.
  unfold update_rig. assert (get_rig_id s2 = id) as Hid.
  { unfold get_rig_id, num_of. rewrite A2, B2, A1 by discriminate. lia. }
  rewrite Hid. pose proof (str_param [INrpn [0; 1]] _ s2 (rig_name id) I2 eq_refl eq_refl) as A3. pose proof (fun j H => value_raw_other j [INrpn [0; 1]] (JStr (rig_name id)) s2 H) as B3.
  pose proof (inv_same _ _ (same_set_raw [INrpn [0; 1]] (JStr (rig_name id)) s2) I2) as I3. destruct (set_raw [INrpn [0; 1]] _ s2) as [s3 o3]. cbn [fst] in *.
  assert (R s3 (mkDevice id (d_pending d)) held) as R3.
  { constructor; auto.
    - exists (id / 128), (id mod 128). rewrite !B3 by discriminate. rewrite B2 by discriminate. rewrite A1, A2. repeat split. cbn. lia.
    - rewrite B3, B2, B1 by discriminate. exact Hp.
    - intros c Hc. assert (c <> 32) by (unfold rig_switch in Hc; lia). rewrite B3, B2, B1 by congruence. apply Hs. exact Hc. }
  pose proof (R_raw [INrpn [0; 3]] (JStr date) s3 _ held R3) as H2. destruct (set_raw [INrpn [0; 3]] (JStr date) s3) as [s4 o4]. cbn [fst] in *. apply H2. cbn. intuition congruence.
Qed.
Lemma R_write i v s d held q : R s d held -> find_param i (vd_params s) = Some q -> ~ In i quiet_ids -> R (mkD (write i v (vd_params s)) (vd_set s) (vd_last s)) d held.
Proof.
  intros HR E Hi. apply (R_frame s); auto.
  - apply (inv_same s); [split; cbn; auto; apply blank_write|apply HR].
  - intros j Hj. unfold value_of. cbn. rewrite find_write, ids_eqb_neq by (intros ->; contradiction). destruct (find_param j (vd_params s)); reflexivity.
Qed.
Lemma R_val_other date i v s d held : R s d held -> ~ In i quiet_ids -> R (fst (set_val date i v s)) d held.
Proof.
  intros HR Hi. unfold set_val. destruct (find_param i (vd_params s)) as [q|] eqn:E; auto. repeat case_if; auto.
  pose proof (R_write i v s d held q HR E Hi) as H1. set (s1 := mkD (write i v (vd_params s)) (vd_set s) (vd_last s)) in *.
  destruct (find_id _ _ _ E) as [Hid Hin]. destruct (cb_of s q (r_inv _ _ _ HR) Hin) as [C1 C2]. destruct (inv_ok s q (r_inv _ _ _ HR) Hin) as (_ & _ & C3 & _).
  assert (R (fst (run_cb date q v s1)) d held) as H2; [|destruct (run_cb date q v s1); exact H2].
  unfold run_cb. destruct (p_cb q) eqn:Ec; auto.
  - exfalso. destruct (C1 eq_refl) as (c & Hc & Hq). apply Hi. rewrite <- Hid, Hq. unfold rig_switch in Hc.
    assert (c = 50 \/ c = 51 \/ c = 52 \/ c = 53 \/ c = 54) as Hcs by lia. destruct Hcs as [->|[->|[->|[->| ->]]]]; cbn; tauto.
  - exfalso. apply Hi. rewrite <- Hid. destruct (C2 eq_refl) as [-> | ->]; cbn; tauto.
  - apply R_update. exact H1.
  - destruct v; auto. case_if; auto. apply R_raw; auto. rewrite Hid. exact Hi.
Qed.

(* the parameters of rig selection *)
Lemma switch_case (P : Z -> Prop) c : rig_switch c = true -> P 50 -> P 51 -> P 52 -> P 53 -> P 54 -> P c.
Proof. intros H H0 H1 H2 H3 H4. unfold rig_switch in H. assert (c = 50 \/ c = 51 \/ c = 52 \/ c = 53 \/ c = 54) as Hcs by lia. destruct Hcs as [->|[->|[->|[->| ->]]]]; assumption. Qed.
Lemma switch_blank c : rig_switch c = true -> find_param [ICc c] setup_blank = Some (blank (new_param None [KCc c None] (JNum 0) [] false CbRig)).
Proof. intros H. pattern c. apply switch_case; [exact H|reflexivity..]. Qed.
Lemma switch_param c s : Inv s -> rig_switch c = true ->
  exists q, find_param [ICc c] (vd_params s) = Some q /\ p_nobuf q = false /\ p_str q = false /\ p_cb q = CbRig /\ first_control q = c /\ p_send q = None.
Proof.
  intros I H. destruct (found _ _ s I (switch_blank c H)) as (q & Hq & E). destruct (blank_keeps _ _ E) as (E1 & E2 & E3 & _ & E5 & E6).
  exists q. repeat split; auto. unfold first_control. rewrite E2. reflexivity.
Qed.
Lemma bank_param c s : Inv s -> c = 48 \/ c = 49 ->
  exists q, find_param [ICc c] (vd_params s) = Some q /\ p_nobuf q = true /\ p_str q = false /\ p_cb q = CbBank /\ first_control q = c /\ p_send q = None.
Proof.
  intros I H. assert (find_param [ICc c] setup_blank = Some (blank (new_param None [KCc c None] (JNum 0) [] true CbBank))) as Hb by (destruct H as [-> | ->]; reflexivity).
  destruct (found _ _ s I Hb) as (q & Hq & E). destruct (blank_keeps _ _ E) as (E1 & E2 & E3 & _ & E5 & E6).
  exists q. repeat split; auto. unfold first_control. rewrite E2. reflexivity.
Qed.
Lemma pre_param s : Inv s -> exists q, find_param [ICc 47] (vd_params s) = Some q /\ p_nobuf q = false /\ p_str q = false /\ p_cb q = CbNone /\ p_send q = None.
Proof. intros I. destruct (found [ICc 47] _ s I eq_refl) as (q & Hq & E). destruct (blank_keeps _ _ E) as (E1 & E2 & E3 & _ & E5 & E6). exists q. auto 6. Qed.

Lemma R_last s d held l : R s d held -> R (mkD (vd_params s) (vd_set s) l) d held.
Proof. intros [[H1 H2] Hhi Hp Hs Hn]. constructor; auto. constructor; auto. Qed.
(* setting CC 47, to a bank or to nothing *)
Definition jopt (o : option Z) : jval := match o with Some b => JNum b | None => JNull end.
Lemma R_pre_raw o s d held : R s d held -> R (fst (set_raw [ICc 47] (jopt o) s)) (mkDevice (d_id d) o) held.
Proof.
  intros [I Hhi Hp Hs Hn]. destruct (pre_param s I) as (q & Hq & E1 & E2 & E3 & E4). constructor; cbn [d_id d_pending].
  - apply (inv_same s); [apply same_set_raw|exact I].
  - rewrite !value_raw_other by discriminate. exact Hhi.
  - rewrite (value_raw_same _ _ _ q Hq); [destruct o; reflexivity|]. destruct o; cbn; rewrite ?E2; reflexivity.
  - intros c Hc. rewrite value_raw_other; [apply Hs; exact Hc|]. unfold rig_switch in Hc. intros C. inv C. lia.
  - rewrite value_raw_other by discriminate. exact Hn.
Qed.
Lemma set_val_raw date i v s q : find_param i (vd_params s) = Some q -> p_cb q = CbNone -> set_val date i v s = set_raw i v s.
Proof.
  intros E Hc. unfold set_val, set_raw. rewrite E. repeat case_if; auto. unfold run_cb. rewrite Hc. reflexivity.
Qed.
Lemma R_pre date b s d held : R s d held -> R (fst (set_val date [ICc 47] (JNum b) s)) (mkDevice (d_id d) (Some b)) held.
Proof.
  intros HR. destruct (pre_param s (r_inv _ _ _ HR)) as (q & Hq & _ & _ & E3 & _). rewrite (set_val_raw date _ _ s q Hq E3). exact (R_pre_raw (Some b) s d held HR).
Qed.
(* the value of a rig switch itself *)
Lemma R_switch c v s d h h' : R s d h -> rig_switch c = true -> (h = None \/ h = Some c) -> v = 1 /\ h' = Some c \/ v = 0 /\ h' = None ->
  R (mkD (write [ICc c] (JNum v) (vd_params s)) (vd_set s) (vd_last s)) d h'.
Proof.
  intros [I Hhi Hp Hs Hn] Hc Hh Hv. destruct (switch_param c s I Hc) as (q & Hq & _). assert (forall j, j <> [ICc c] -> value_of j (mkD (write [ICc c] (JNum v) (vd_params s)) (vd_set s) (vd_last s)) = value_of j s) as F.
  { intros j Hj. unfold value_of. cbn. rewrite find_write, ids_eqb_neq by exact Hj. destruct (find_param j (vd_params s)); reflexivity. }
  pose proof Hc as Hc'. unfold rig_switch in Hc'. constructor.
  - apply (inv_same s); [split; cbn; auto; apply blank_write|exact I].
  - rewrite !F; auto; try discriminate. intros C. inv C. lia.
  - rewrite F; auto. intros C. inv C. lia.
  - intros c' Hc2. destruct (Z.eq_dec c' c) as [->|Hne].
    + unfold value_of. cbn. rewrite find_write, ids_eqb_refl, Hq. cbn. destruct Hv as [[-> ->]|[-> ->]]; [rewrite Z.eqb_refl|]; reflexivity.
    + rewrite F by congruence. rewrite Hs by exact Hc2. f_equal.
      assert (match h with Some x => x =? c' | None => false end = false) as -> by (destruct Hh as [->| ->]; auto; apply Z.eqb_neq; congruence).
      destruct Hv as [[-> ->]|[-> ->]]; auto. replace (c =? c') with false by (symmetry; apply Z.eqb_neq; congruence). reflexivity.
  - rewrite F by discriminate. exact Hn.
Qed.
Lemma R_press date c s d : R s d None -> rig_switch c = true -> R (fst (set_val date [ICc c] (JNum 1) s)) (react d (CC c 1)) (Some c).
Proof.
  intros HR Hc. destruct (switch_param c s (r_inv _ _ _ HR) Hc) as (q & Hq & Hb & Hst & Hcb & Hfc & _). unfold set_val. rewrite Hq, Hb. cbn [negb andb well_typed].
  assert (p_val q = JNum 0) as Hv0 by (rewrite <- (value_find _ _ _ Hq); apply (r_sw _ _ _ HR c Hc)). rewrite Hv0. change (jval_eqb (JNum 0) (JNum 1)) with false. rewrite Hst. cbn [negb].
  pose proof (R_switch c 1 s d None (Some c) HR Hc (or_introl eq_refl) (or_introl (conj eq_refl eq_refl))) as H1. set (s1 := mkD (write [ICc c] (JNum 1) (vd_params s)) (vd_set s) (vd_last s)) in *.
  assert (R (fst (run_cb date q (JNum 1) s1)) (react d (CC c 1)) (Some c)) as H2; [|destruct (run_cb date q (JNum 1) s1); exact H2].
  unfold run_cb. rewrite Hcb, Hfc. pose proof (R_pre_raw None s1 d (Some c) H1) as H3. pose proof (r_pre _ _ _ H1) as Hpre. cbn [jopt] in H3.
  destruct (set_raw [ICc 47] JNull s1) as [s2 o1]. cbn [fst] in H3. pose proof (r_id _ _ _ H3) as Hid. cbn [d_id] in Hid.
  set (id := _ * 5 + _). assert (react d (CC c 1) = mkDevice id None) as ->.
  { subst id. rewrite Hpre, Hid. apply (switch_case (fun c => react d (CC c 1) = mkDevice (match match d_pending d with Some b => JNum b | None => JNull end with JNum b => b | _ => d_id d / 5 end * 5 + (c - 50)) None) c Hc);
    cbv -[Z.mul Z.add Z.sub Z.div d_id d_pending]; f_equal; destruct (d_pending d); lia. }
  change (jval_eqb (JNum 1) (JNum 1)) with true. cbv iota. pose proof (R_set_rig date id s2 _ _ H3) as H4. cbn [d_pending] in H4. destruct (set_rig_id date id s2) as [s3 o2]. cbn [fst] in H4.
  destruct (match vd_last s3 with Some l => l =? id | None => false end).
  - cbn [fst]. apply R_last. exact H4.
  - pose proof (R_raw [INrpn [0; 11]] (JNum 0) s3 _ _ H4) as H5. destruct (set_raw [INrpn [0; 11]] (JNum 0) s3) as [s4 o3]. cbn [fst] in *. apply R_last. apply H5. cbn. intuition congruence.
Qed.
Lemma R_release date c s d h : R s d h -> rig_switch c = true -> h = Some c \/ h = None -> (h = Some c -> d_pending d = None) -> R (fst (set_val date [ICc c] (JNum 0) s)) d None.
Proof.
  intros HR Hc Hh Hpend. destruct (switch_param c s (r_inv _ _ _ HR) Hc) as (q & Hq & Hb & Hst & Hcb & Hfc & _). unfold set_val. rewrite Hq, Hb. cbn [negb andb well_typed].
  destruct Hh as [-> | ->].
  - assert (p_val q = JNum 1) as Hv0 by (rewrite <- (value_find _ _ _ Hq), (r_sw _ _ _ HR c Hc), Z.eqb_refl; reflexivity). rewrite Hv0. change (jval_eqb (JNum 1) (JNum 0)) with false. rewrite Hst. cbn [negb].
    pose proof (R_switch c 0 s d (Some c) None HR Hc (or_intror eq_refl) (or_intror (conj eq_refl eq_refl))) as H1. set (s1 := mkD (write [ICc c] (JNum 0) (vd_params s)) (vd_set s) (vd_last s)) in *.
    assert (R (fst (run_cb date q (JNum 0) s1)) d None) as H2; [|destruct (run_cb date q (JNum 0) s1); exact H2].
    unfold run_cb. rewrite Hcb. pose proof (R_pre_raw None s1 d None H1) as H3. cbn [jopt] in H3. destruct (set_raw [ICc 47] JNull s1) as [s2 o1]. cbn [fst] in H3.
    change (jval_eqb (JNum 0) (JNum 1)) with false. cbv iota. cbn [fst]. replace d with (mkDevice (d_id d) None); [exact H3|]. destruct d as [di dp]. cbn in *. rewrite Hpend; reflexivity.
  - assert (p_val q = JNum 0) as Hv0 by (rewrite <- (value_find _ _ _ Hq), (r_sw _ _ _ HR c Hc); reflexivity). rewrite Hv0. change (jval_eqb (JNum 0) (JNum 0)) with true. exact HR.
Qed.
Lemma R_bank date c v s d h : R s d h -> c = 48 \/ c = 49 ->
  R (fst (set_val date [ICc c] (JNum v) s)) (if v =? 0 then mkDevice ((d_id d + if c =? 48 then 5 else -5) mod 625) (d_pending d) else d) h.
Proof.
  intros HR Hc. destruct (bank_param c s (r_inv _ _ _ HR) Hc) as (q & Hq & Hb & Hst & Hcb & Hfc & _). unfold set_val. rewrite Hq, Hb. cbn [negb andb well_typed]. rewrite Hst. cbn [negb].
  assert (R (mkD (write [ICc c] (JNum v) (vd_params s)) (vd_set s) (vd_last s)) d h) as H1.
  { pose proof HR as [I Hhi Hp Hs Hn]. assert (forall j, j <> [ICc c] -> value_of j (mkD (write [ICc c] (JNum v) (vd_params s)) (vd_set s) (vd_last s)) = value_of j s) as F.
    { intros j Hj. unfold value_of. cbn. rewrite find_write, ids_eqb_neq by exact Hj. destruct (find_param j (vd_params s)); reflexivity. }
    constructor.
    - apply (inv_same s); [split; cbn; auto; apply blank_write|exact I].
    - rewrite !F; auto; try discriminate. intros C. inv C. lia.
    - rewrite F; auto. intros C. inv C. lia.
    - intros c' Hc'. rewrite F; [apply Hs; exact Hc'|]. unfold rig_switch in Hc'. intros C. inv C. lia.
    - rewrite F by discriminate. exact Hn. }
  set (s1 := mkD (write [ICc c] (JNum v) (vd_params s)) (vd_set s) (vd_last s)) in *.
  match goal with |- R _ ?d' h => assert (R (fst (run_cb date q (JNum v) s1)) d' h) as H2; [|destruct (run_cb date q (JNum v) s1); exact H2] end.
  unfold run_cb. rewrite Hcb, Hfc. change (jval_eqb (JNum v) (JNum 0)) with (v =? 0). destruct (v =? 0); auto.
  rewrite (r_id _ _ _ H1). apply R_set_rig. exact H1.
Qed.

(* ---- one operation ---- *)
Definition next_held (held : option Z) (o : vop) : option Z :=
  match o with
  | VRecv (CC c v) _ => if rig_switch c then (if v =? 1 then Some c else None) else held
  | _ => held
  end.
Definition fine (held : option Z) (o : vop) : bool :=
  match o with
  | VRecv (CC c v) _ =>
      if rig_switch c then match held with None => (v =? 1) || (v =? 0) | Some h => (c =? h) && (v =? 0) end
      else if c =? 47 then match held with None => true | Some _ => false end else negb (c =? 32)
  | VRecv (PC _) _ => false
  | VUi (KCc c _) _ _ => negb (rig_control c)
  | VUi KPc _ _ => false
  | VSend (KNrpn _) => true
  | VSend _ => false
  | _ => true
  end.
Lemma orderly_cons held o ops : orderly held (o :: ops) = fine held o && orderly (next_held held o) ops.
Proof.
  destruct o as [m date|k v date|id date|k|x init|]; try reflexivity.
  - destruct m; try reflexivity. cbn. destruct (rig_switch control); cbn.
    + destruct held as [h|].
      * destruct (control =? h); cbn; auto. destruct (Z.eqb_spec value 0); cbn; auto. subst. reflexivity.
      * destruct (value =? 1); cbn; auto; destruct (value =? 0); reflexivity.
    + destruct (control =? 47); cbn; auto. destruct held; reflexivity.
  - destruct k; reflexivity.
  - destruct k; reflexivity.
Qed.
Lemma R_get k s d h : R s d h -> okkey k -> R (get_param k s) d h.
Proof. intros HR Hk. apply (R_frame s); auto; [apply inv_get; [exact Hk|apply HR]|]. intros j _. apply value_get. Qed.
Lemma R_act_other date i ac s d h : R s d h -> ~ In i quiet_ids -> R (fst (act date i ac s)) d h.
Proof. intros HR Hi. destruct ac; [exact HR|]. apply R_val_other; auto. Qed.
Lemma not_quiet_cc c : rig_control c = false -> ~ In [ICc c] quiet_ids.
Proof. unfold rig_control. intros H C. cbn in C. repeat match type of C with _ \/ _ => destruct C as [C|C]; [try discriminate C; inv C; lia|] end. contradiction. Qed.
Lemma not_quiet_nrpn d : d <> [0; 1] -> ~ In [INrpn d] quiet_ids.
Proof. intros H C. cbn in C. repeat match type of C with _ \/ _ => destruct C as [C|C]; [try discriminate C; inv C; congruence|] end. contradiction. Qed.

(* control changes and program changes *)
Lemma setup_known c v : In c known_cc -> parse_store setup_blank (CC c v) = Some ([ICc c], ASet (JNum v)).
Proof. intros H. cbn in H. repeat match type of H with _ \/ _ => destruct H as [<-|H]; [reflexivity|] end. contradiction. Qed.
Lemma store_known s c v : Inv s -> In c known_cc -> parse_store (vd_params s) (CC c v) = Some ([ICc c], ASet (JNum v)).
Proof. intros [(ks & Hs & _) _] Hc. rewrite <- store_blank, Hs, store_app, setup_known by exact Hc. reflexivity. Qed.

(* SysEx messages change no rig value: they address parameters with an address of two bytes, or create one *)
Lemma R_sysex date man data s d h : R s d h -> proper_msg (SysEx man data) -> no_rename (VRecv (SysEx man data) date) -> R (fst (receive_msg date (SysEx man data) s)) d h.
Proof.
  intros HR [Hd Hl] Hnr. pose proof (r_inv _ _ _ HR) as I. unfold receive_msg. cbn [no_rename] in Hnr.
  assert (forall s' q ac, R s' d h -> In q (vd_params s') -> parse_param q (SysEx man data) = Some ac -> R (fst (act date (p_id q) ac s')) d h) as HA.
  { intros s' q ac HR' Hq Ha. pose proof (r_inv _ _ _ HR') as I'. destruct ac as [|v]; [exact HR'|].
    destruct (accept_sysex s' q man data _ I' Hq Hd Ha) as (_ & x & y & t & Hi & Hsd & [[E _]|[E ->]]); [discriminate|]. inv E.
    rewrite Hi. destruct (list_eq_dec Z.eq_dec [x; y] [0; 1]) as [E|E]; [|apply R_act_other; auto; apply not_quiet_nrpn; exact E].
    inv E. cbn [act]. destruct (found [INrpn [0; 1]] _ s' I' eq_refl) as (q' & Hq' & Eb). destruct (blank_keeps _ _ Eb) as (_ & _ & Es & _).
    assert (q' = q) as -> by (pose proof (find_in _ q (inv_nodup _ I') Hq) as H; rewrite Hi in H; congruence).
    cbn in Es. rewrite Es in *. exfalso. apply Hnr. reflexivity. }
  assert (forall k, okkey k -> R (fst (get_and_parse date k (SysEx man data) s)) d h) as HG.
  { intros k Hk. unfold get_and_parse. pose proof (R_get k s d h HR Hk) as HR1. destruct (find_param [key_id k] (vd_params (get_param k s))) as [q|] eqn:E; auto.
    destruct (find_id _ _ _ E) as [A B]. destruct (parse_param q (SysEx man data)) as [ac|] eqn:Ep; auto. rewrite <- A. apply (HA _ q); auto. }
  assert (forall str r, parse_default date str (SysEx man data) s = Some r -> R (fst r) d h) as HD.
  { intros str r E. unfold parse_default in E. destruct (negb (bytes_eqb man [0; 32; 51])); [discriminate|]. cbv zeta in E.
    destruct (starts_with [2; 127; code_request str; 0] data) eqn:E1.
    - inv E. cbn [fst]. apply R_get; auto. eapply okkey_default; [|exact E1]; reflexivity.
    - destruct (starts_with [2; 127; code_set str; 0] data) eqn:E2; [|discriminate]. inv E. apply HG. eapply okkey_default; [|exact E2]; reflexivity. }
  destruct (parse_store (vd_params s) (SysEx man data)) as [[i ac]|] eqn:E.
  - destruct (store_inv _ _ _ _ I E) as (q & Hq & <- & Hf & Ha). apply (HA s q); auto.
  - destruct (parse_default date false (SysEx man data) s) as [r|] eqn:E1; [apply (HD _ _ E1)|].
    destruct (parse_default date true (SysEx man data) s) as [r|] eqn:E2; [apply (HD _ _ E2)|exact HR].
Qed.
Lemma store_odd l m : match m with CC _ _ | PC _ | SysEx _ _ => False | _ => True end -> parse_store l m = None.
Proof.
  intros Hm. destruct (parse_store l m) as [[i ac]|] eqn:E; auto. apply store_some in E. destruct E as (q & _ & _ & E). apply keys_some in E. destruct E as (k & _ & E).
  destruct k, m; try discriminate; contradiction.
Qed.
Lemma react_other d c v : rig_switch c = false -> c <> 47 -> react d (CC c v) = d.
Proof.
  intros H H1. unfold react, rig_switch in *. rewrite H. destruct c as [|p|p]; try (destruct v as [|[| |]|]; reflexivity).
  repeat (destruct p as [p|p|]; try (destruct v as [|[v|v|]|]; reflexivity); try lia).
Qed.
Lemma react_zero d c : rig_switch c = true -> react d (CC c 0) = d.
Proof. intros H. pattern c. apply switch_case; [exact H|reflexivity..]. Qed.
Lemma R_step s o d h : R s d h -> proper o -> no_rename o -> fine h o = true -> (h <> None -> d_pending d = None) ->
  R (fst (vd_step s o)) (device_step d o) (next_held h o) /\ (next_held h o <> None -> d_pending (device_step d o) = None).
Proof.
  intros HR Hp Hnr Hf Hpend. pose proof (r_inv _ _ _ HR) as I. destruct o as [m date|k v date|id date|k|x init|].
  - destruct m as [c v|v|man data|n|n].
    + cbn [vd_step device_step next_held fine] in *. destruct (rig_switch c) eqn:Ec.
      * assert (In c known_cc) as Hk by (pattern c; apply switch_case; [exact Ec|cbn; tauto..]).
        unfold receive_msg. rewrite (store_known s c v I Hk). cbn [act].
        assert (match c, v with 48, 0 => False | 49, 0 => False | _, _ => True end) as _ by (pattern c; apply switch_case; [exact Ec|exact Logic.I..]).
        destruct (Z.eqb_spec v 1) as [->|Hv1].
        -- destruct h as [h|]; [lia|]. cbn in Hf. pose proof (R_press date c s d HR Ec) as H1.
           assert (match c with 48 | 49 | _ => react d (CC c 1) end = react d (CC c 1)) as Hdev by (pattern c; apply switch_case; [exact Ec|reflexivity..]).
           revert H1. pattern c. apply switch_case; [exact Ec|..]; intros H1; (split; [exact H1|intros _; reflexivity]).
        -- assert (v = 0) as -> by (destruct h; lia). assert (R (fst (set_val date [ICc c] (JNum 0) s)) d None) as H1.
           { apply (R_release date c s d h HR Ec); [destruct h as [h'|]; auto; left; f_equal; lia|]. intros ->. apply Hpend. discriminate. }
           split; [|congruence]. revert H1. pattern c. apply switch_case; [exact Ec|..]; intros H1; exact H1.
      * destruct (Z.eqb_spec c 47) as [->|H47].
        -- destruct h as [h|]; [discriminate|]. split; [|congruence]. unfold receive_msg. rewrite (store_known s 47 v I) by (cbn; tauto). cbn [act].
           replace (react d (CC 47 v)) with (mkDevice (d_id d) (Some v)) by reflexivity. apply R_pre. exact HR.
        -- destruct (Z.eq_dec c 48) as [->|H48]; [|destruct (Z.eq_dec c 49) as [->|H49]].
           ++ unfold receive_msg. rewrite (store_known s 48 v I) by (cbn; tauto). cbn [act]. pose proof (R_bank date 48 v s d h HR (or_introl eq_refl)) as H1.
              assert (match v with 0 => mkDevice ((d_id d + 5) mod 625) (d_pending d) | _ => react d (CC 48 v) end = if v =? 0 then mkDevice ((d_id d + 5) mod 625) (d_pending d) else d) as ->
                by (destruct v as [|v|v]; auto; apply react_other; [reflexivity|lia]).
              split; [exact H1|]. intros Hh. destruct (v =? 0); cbn; auto.
           ++ unfold receive_msg. rewrite (store_known s 49 v I) by (cbn; tauto). cbn [act]. pose proof (R_bank date 49 v s d h HR (or_intror eq_refl)) as H1.
              assert (match v with 0 => mkDevice ((d_id d - 5) mod 625) (d_pending d) | _ => react d (CC 49 v) end = if v =? 0 then mkDevice ((d_id d - 5) mod 625) (d_pending d) else d) as ->
                by (destruct v as [|v|v]; auto; apply react_other; [reflexivity|lia]).
              split; [exact H1|]. intros Hh. destruct (v =? 0); cbn; auto.
           ++ assert (forall (a b : device), match c, v with 48, 0 => a | 49, 0 => b | _, _ => react d (CC c v) end = d) as Hdev.
              { intros a b. rewrite react_other by auto. destruct c as [|p|p]; auto. repeat (destruct p as [p|p|]; auto; try lia). }
              match goal with |- R _ ?D _ /\ _ => assert (D = d) as -> by apply Hdev end. split; auto.
              assert (rig_control c = false) as Hrc by (unfold rig_control, rig_switch in *; lia). unfold receive_msg.
              pose proof (store_cc s c v I) as Hc. destruct (parse_store (vd_params s) (CC c v)) as [[i ac]|] eqn:Es.
              ** destruct Hc as [(x & y & Ha & -> & ->)|[(_ & -> & -> & ->)|(_ & -> & ->)]].
                 --- apply R_act_other; auto. apply not_quiet_nrpn. intros E. inv E. unfold alias in Ha.
                     destruct c as [|p|p]; try discriminate. repeat (destruct p as [p|p|]; try discriminate).
                 --- apply R_act_other; auto. apply not_quiet_nrpn. discriminate.
                 --- apply R_act_other; auto. apply not_quiet_cc. exact Hrc.
              ** cbn [parse_default]. unfold get_and_parse. pose proof (R_get (KCc c None) s d h HR eq_refl) as H1. destruct (find_param [key_id (KCc c None)] (vd_params (get_param (KCc c None) s))) as [q|]; auto.
                 destruct (parse_param q (CC c v)) as [ac|]; auto. apply R_act_other; auto. apply not_quiet_cc. exact Hrc.
    + discriminate Hf.
    + split; auto. cbn [vd_step device_step next_held]. apply R_sysex; auto.
    + split; auto. cbn [vd_step device_step next_held]. unfold receive_msg. rewrite store_odd by exact Logic.I. exact HR.
    + split; auto. cbn [vd_step device_step next_held]. unfold receive_msg. rewrite store_odd by exact Logic.I. exact HR.
  - split; auto. cbn [vd_step device_step next_held]. destruct Hp as [Hk _]. pose proof (R_get k s d h HR (okkey_proper k Hk)) as H1.
    destruct k as [dd|c sc|]; cbn [fine] in Hf; [|apply negb_true_iff in Hf|discriminate].
    + apply R_val_other; auto. apply not_quiet_nrpn. exact Hnr.
    + apply R_val_other; auto. apply not_quiet_cc. exact Hf.
  - split; auto. cbn [vd_step device_step next_held]. apply R_set_rig. exact HR.
  - split; auto. cbn [vd_step device_step next_held act fst]. apply R_get; [exact HR|]. apply okkey_proper. exact Hp.
  - split; auto. destruct HR as [[H1 H2] Hhi Hpr Hs Hn]. constructor; auto. constructor; auto.
  - split; auto. destruct HR as [[H1 H2] Hhi Hpr Hs Hn]. constructor; auto. constructor; auto.
Qed.

(* ---- what is sent ---- *)
Definition hush (x : msg) : Prop := match x with CC c _ => c <> 32 | PC _ => False | _ => True end.
Definition same_rig (s s' : vdev) : Prop := value_of [ICc 32] s' = value_of [ICc 32] s /\ value_of [IPc] s' = value_of [IPc] s.
Definition says (s s' : vdev) (out : list msg) : Prop :=
  Forall hush out /\ same_rig s s' \/
  exists h1 hi lo h2, out = h1 ++ [CC 32 hi; PC lo] ++ h2 /\ Forall hush h1 /\ Forall hush h2 /\ value_of [ICc 32] s' = JNum hi /\ value_of [IPc] s' = JNum lo.
Lemma says_after s s1 s2 o1 o2 : Forall hush o1 /\ same_rig s s1 -> says s1 s2 o2 -> says s s2 (o1 ++ o2).
Proof.
  intros [H1 [E1 E2]] [[H2 [E3 E4]]|(h1 & hi & lo & h2 & -> & A & B & C & D)].
  - left. split; [apply Forall_app; auto|split; congruence].
  - right. exists (o1 ++ h1), hi, lo, h2. rewrite app_assoc. repeat split; auto. apply Forall_app; auto.
Qed.
Lemma says_before s s1 s2 o1 o2 : says s s1 o1 -> Forall hush o2 /\ same_rig s1 s2 -> says s s2 (o1 ++ o2).
Proof.
  intros [[H2 [E3 E4]]|(h1 & hi & lo & h2 & -> & A & B & C & D)] [H1 [E1 E2]].
  - left. split; [apply Forall_app; auto|split; congruence].
  - right. exists h1, hi, lo, (h2 ++ o2). rewrite <- !app_assoc. repeat split; auto; try congruence. apply Forall_app; auto.
Qed.
Lemma says_nothing s : says s s []. Proof. left. split; [constructor|split; reflexivity]. Qed.
Lemma hush_param s q : Inv s -> In q (vd_params s) -> p_id q <> [ICc 32] -> p_id q <> [IPc] -> Forall hush (opt_list (send_msg q)).
Proof.
  intros I Hq H1 H2. unfold send_msg, p_id in *. destruct (p_send q) as [[d|c sc|]|]; try constructor; destruct (p_val q); cbn in *; try constructor; cbn; auto; congruence.
Qed.
Lemma hush_push i s : Inv s -> i <> [ICc 32] -> i <> [IPc] -> Forall hush (push_msgs i s).
Proof.
  intros I H1 H2. unfold push_msgs. destruct (find_param i (vd_params s)) as [q|] eqn:E; [|constructor]. destruct (find_id _ _ _ E) as [A B].
  destruct (in_set s q); [|constructor]. apply (hush_param s q I B); congruence.
Qed.
Lemma hush_raw i v s : Inv s -> i <> [ICc 32] -> i <> [IPc] -> Forall hush (snd (set_raw i v s)) /\ same_rig s (fst (set_raw i v s)).
Proof.
  intros I H1 H2. split; [|split; apply value_raw_other; auto].
  unfold set_raw. destruct (find_param i (vd_params s)) as [q|]; [|constructor]. repeat case_if; try constructor.
  cbn [snd]. apply hush_push; auto. apply (inv_same s); auto. split; cbn; auto. apply blank_write.
Qed.
Lemma hush_update date s : Inv s -> Forall hush (snd (update_rig date s)) /\ same_rig s (fst (update_rig date s)).
Proof.
  intros I. unfold update_rig.
  pose proof (hush_raw [INrpn [0; 1]] (JStr (rig_name (get_rig_id s))) s I ltac:(discriminate) ltac:(discriminate)) as [A1 [B1 B1']]. pose proof (inv_same _ _ (same_set_raw [INrpn [0; 1]] (JStr (rig_name (get_rig_id s))) s) I) as I1.
  destruct (set_raw [INrpn [0; 1]] _ s) as [s1 o1]. cbn [fst snd] in *. pose proof (hush_raw [INrpn [0; 3]] (JStr date) s1 I1 ltac:(discriminate) ltac:(discriminate)) as [A2 [B2 B2']].
  destruct (set_raw [INrpn [0; 3]] _ s1) as [s2 o2]. cbn [fst snd] in *. split; [apply Forall_app; auto|split; congruence].
Qed.
Lemma nobuf_raw i b s n x : Inv s -> vd_set s = Some x -> In x all_sets -> find_param i setup_blank = Some b -> p_nobuf b = true -> p_str b = false -> p_sets b = all_sets ->
  snd (set_raw i (JNum n) s) = opt_list (send_msg (with_pval b (JNum n))) /\ value_of i (fst (set_raw i (JNum n) s)) = JNum n.
Proof.
  intros I Hx Hin Hb Hnb Hst Hsets. split; [|eapply num_param_set; eauto]. destruct (found i b s I Hb) as (q & Hq & Eq). destruct (blank_keeps q b Eq) as (E1 & _ & E3 & E4 & E5 & _).
  unfold set_raw. rewrite Hq, E5, Hnb. cbn [negb andb well_typed]. rewrite E3, Hst. cbn [negb snd]. unfold push_msgs. cbn [vd_params]. rewrite find_write, ids_eqb_refl, Hq. cbn [option_map].
  unfold in_set. cbn [vd_set p_sets with_pval]. rewrite Hx, E4, Hsets. replace (existsb (Z.eqb x) all_sets) with true by (symmetry; apply existsb_exists; exists x; split; auto; lia).
  unfold send_msg. cbn [p_send p_val p_str with_pval]. rewrite E1, E3. reflexivity.
Qed.
Lemma says_set_rig date id s x : Inv s -> vd_set s = Some x -> In x all_sets -> says s (fst (set_rig_id date id s)) (snd (set_rig_id date id s)).
Proof.
  intros I Hx Hin. unfold set_rig_id. destruct (nobuf_raw [ICc 32] _ s (id / 128) x I Hx Hin eq_refl eq_refl eq_refl eq_refl) as [A1 A2]. cbn in A1.
  pose proof (inv_same _ _ (same_set_raw [ICc 32] (JNum (id / 128)) s) I) as I1. pose proof (proj2 (same_set_raw [ICc 32] (JNum (id / 128)) s)) as X1. destruct (set_raw [ICc 32] _ s) as [s1 o1]. cbn [fst snd] in *.
  destruct (nobuf_raw [IPc] _ s1 (id mod 128) x I1 (eq_trans X1 Hx) Hin eq_refl eq_refl eq_refl eq_refl) as [A3 A4]. cbn in A3. pose proof (value_raw_other [ICc 32] [IPc] (JNum (id mod 128)) s1) as B1.
  pose proof (inv_same _ _ (same_set_raw [IPc] (JNum (id mod 128)) s1) I1) as I2. destruct (set_raw [IPc] _ s1) as [s2 o2]. cbn [fst snd] in *.
  pose proof (hush_update date s2 I2) as [A5 [B2 B3]]. destruct (update_rig date s2) as [s3 o3]. cbn [fst snd] in *. subst o1 o2.
  right. exists [], (id / 128), (id mod 128), o3. repeat split; auto; [|congruence]. rewrite B2, B1 by discriminate. exact A2.
Qed.
Lemma says_cb date q v s x : Inv s -> vd_set s = Some x -> In x all_sets -> p_id q <> [ICc 32] -> p_id q <> [IPc] -> says s (fst (run_cb date q v s)) (snd (run_cb date q v s)).
Proof.
  intros I Hx Hin H1 H2. unfold run_cb. destruct (p_cb q); try apply says_nothing.
  - pose proof (hush_raw [ICc 47] JNull s I ltac:(discriminate) ltac:(discriminate)) as A1. pose proof (inv_same _ _ (same_set_raw [ICc 47] JNull s) I) as I1. pose proof (proj2 (same_set_raw [ICc 47] JNull s)) as X1.
    destruct (set_raw [ICc 47] JNull s) as [s1 o1]. cbn [fst snd] in *. set (id := _ * 5 + _). case_if; [|left; exact A1].
    pose proof (says_set_rig date id s1 x I1 (eq_trans X1 Hx) Hin) as A2. pose proof (inv_same _ _ (same_set_rig date id s1) I1) as I2. destruct (set_rig_id date id s1) as [s2 o2]. cbn [fst snd] in *.
    destruct (match vd_last s2 with Some l => l =? id | None => false end).
    + cbn [fst snd]. rewrite app_nil_r. apply (says_after s s1); auto.
    + pose proof (hush_raw [INrpn [0; 11]] (JNum 0) s2 I2 ltac:(discriminate) ltac:(discriminate)) as A3. destruct (set_raw [INrpn [0; 11]] _ s2) as [s3 o3]. cbn [fst snd] in *.
      apply (says_after s s1); auto. apply (says_before s1 s2); auto.
  - case_if; [apply (says_set_rig date _ s x); auto|apply says_nothing].
  - left. apply hush_update. exact I.
  - destruct v; try apply says_nothing. case_if; [apply says_nothing|]. left. apply hush_raw; auto.
Qed.
Lemma says_val date i v s x : Inv s -> vd_set s = Some x -> In x all_sets -> i <> [ICc 32] -> i <> [IPc] -> says s (fst (set_val date i v s)) (snd (set_val date i v s)).
Proof.
  intros I Hx Hin H1 H2. unfold set_val. destruct (find_param i (vd_params s)) as [q|] eqn:E; [|apply says_nothing]. destruct (find_id _ _ _ E) as [A B]. repeat case_if; try apply says_nothing.
  set (s0 := mkD (write i v (vd_params s)) (vd_set s) (vd_last s)).
  assert (Inv s0) as I1 by (apply (inv_same s); auto; split; cbn; auto; apply blank_write).
  assert (Forall hush [] /\ same_rig s s0) as A0.
  { split; [constructor|]. unfold same_rig, value_of, s0. cbn. split; rewrite find_write, ids_eqb_neq by congruence; match goal with |- context [find_param ?a ?b] => destruct (find_param a b) end; reflexivity. }
  pose proof (says_cb date q v s0 x I1 Hx Hin ltac:(congruence) ltac:(congruence)) as Hc. pose proof (inv_same _ _ (same_run_cb date q v s0) I1) as I2.
  destruct (run_cb date q v s0) as [s1 o]. cbn [fst snd] in *. apply (says_before s s1); [exact (says_after s s0 s1 [] o A0 Hc)|]. split; [apply hush_push; auto|split; reflexivity].
Qed.
Lemma says_act date i ac s x : Inv s -> vd_set s = Some x -> In x all_sets -> i <> [ICc 32] -> i <> [IPc] -> says s (fst (act date i ac s)) (snd (act date i ac s)).
Proof.
  intros I Hx Hin H1 H2. destruct ac; [|apply (says_val date i v s x); auto]. left. cbn [act fst snd]. split; [|split; reflexivity].
  destruct (find_param i (vd_params s)) as [q|] eqn:E; [|constructor]. destruct (find_id _ _ _ E) as [A B]. apply (hush_param s q I B); congruence.
Qed.
Lemma get_set k s : vd_set (get_param k s) = vd_set s.
Proof. unfold get_param. destruct (find_param [key_id k] (vd_params s)); reflexivity. Qed.
Lemma says_get k s s' out : says (get_param k s) s' out -> says s s' out.
Proof. intros H. apply (says_after s (get_param k s) s' [] out); auto. split; [constructor|split; apply value_get]. Qed.
Lemma says_get_act date i ac k s x : okkey k -> Inv s -> vd_set s = Some x -> In x all_sets -> i <> [ICc 32] -> i <> [IPc] ->
  says s (fst (act date i ac (get_param k s))) (snd (act date i ac (get_param k s))).
Proof. intros Hk I Hx Hin H1 H2. apply says_get with k. apply (says_act date i ac (get_param k s) x); auto; [apply inv_get; auto|rewrite get_set; exact Hx]. Qed.
Lemma says_sysex date man data s x : Inv s -> vd_set s = Some x -> In x all_sets -> proper_msg (SysEx man data) ->
  says s (fst (receive_msg date (SysEx man data) s)) (snd (receive_msg date (SysEx man data) s)).
Proof.
  intros I Hx Hin [Hd _]. unfold receive_msg.
  assert (forall k, okkey k -> (exists d, k = KNrpn d) -> says s (fst (get_and_parse date k (SysEx man data) s)) (snd (get_and_parse date k (SysEx man data) s))) as HG.
  { intros k Hk (d & ->). unfold get_and_parse. destruct (find_param [key_id (KNrpn d)] (vd_params (get_param (KNrpn d) s))) as [q|] eqn:E; [|apply says_get with (KNrpn d), says_nothing].
    destruct (parse_param q (SysEx man data)) as [ac|]; [|apply says_get with (KNrpn d), says_nothing]. apply (says_get_act _ _ _ _ _ x); auto; discriminate. }
  assert (forall str r, parse_default date str (SysEx man data) s = Some r -> says s (fst r) (snd r)) as HD.
  { intros str r E. unfold parse_default in E. destruct (negb (bytes_eqb man [0; 32; 51])); [discriminate|]. cbv zeta in E.
    destruct (starts_with [2; 127; code_request str; 0] data) eqn:E1.
    - inv E. set (k := KNrpn _). assert (okkey k) as Hk by (eapply okkey_default; [|exact E1]; reflexivity).
      exact (says_get_act [] [key_id k] ASend k s x Hk I Hx Hin ltac:(discriminate) ltac:(discriminate)).
    - destruct (starts_with [2; 127; code_set str; 0] data) eqn:E2; [|discriminate]. inv E. apply HG; [|eauto]. eapply okkey_default; [|exact E2]; reflexivity. }
  destruct (parse_store (vd_params s) (SysEx man data)) as [[i ac]|] eqn:E.
  - destruct (store_inv _ _ _ _ I E) as (q & Hq & <- & Hf & Ha). destruct (accept_sysex s q man data _ I Hq Hd Ha) as (_ & y & z & t & Hi & _).
    apply (says_act date _ ac s x); auto; rewrite Hi; discriminate.
  - destruct (parse_default date false (SysEx man data) s) as [r|] eqn:E1; [apply (HD _ _ E1)|].
    destruct (parse_default date true (SysEx man data) s) as [r|] eqn:E2; [apply (HD _ _ E2)|apply says_nothing].
Qed.
Lemma map_app_inv {A B} (f : A -> B) l a b : map f l = a ++ b -> exists l1 l2, l = l1 ++ l2 /\ map f l1 = a /\ map f l2 = b.
Proof.
  revert l. induction a as [|x a IH]; intros l H; [exists [], l; auto|]. destruct l as [|y l]; [discriminate|]. cbn in H. inv H. destruct (IH l H2) as (l1 & l2 & -> & E1 & E2).
  exists (y :: l1), l2. cbn. rewrite E1. auto.
Qed.
Lemma hush_all (f : vparam -> bool) s l : Inv s -> (forall q, In q l -> In q (vd_params s)) -> ~ In [ICc 32] (map p_id l) -> ~ In [IPc] (map p_id l) ->
  Forall hush (flat_map (fun x => if f x then opt_list (send_msg x) else []) l).
Proof.
  intros I. induction l as [|q l IH]; intros Hin H1 H2; [constructor|]. cbn [flat_map]. apply Forall_app. split; [|apply IH; auto; [intros q' Hq'; apply Hin; right; exact Hq'|cbn in *; tauto..]].
  case_if; [|constructor]. apply (hush_param s q I); [apply Hin; left; reflexivity|cbn in *; intuition congruence..].
Qed.
Lemma says_beacon s x hi lo : Inv s -> In x all_sets -> vd_set s = Some x -> value_of [ICc 32] s = JNum hi -> value_of [IPc] s = JNum lo ->
  says s s (flat_map (fun q => if in_set s q then opt_list (send_msg q) else []) (vd_params s)).
Proof.
  intros I Hin Hx H1 H2. pose proof (inv_shape _ I) as (ks & Hs & _). pose proof (inv_nodup _ I) as Hn.
  assert (exists a b c, setup_blank = a ++ b :: c :: skipn 20 setup_blank /\ a = firstn 18 setup_blank /\ b = blank (new_param (Some (KCc 32 None)) [] (JNum 0) all_sets true CbNone) /\
    c = blank (new_param (Some KPc) [] (JNum 0) all_sets true CbNone)) as (a & b & c & Hsb & _ & Hb & Hc) by (do 3 eexists; split; [|split; [reflexivity|split; reflexivity]]; reflexivity).
  rewrite Hsb, <- app_assoc in Hs. apply map_app_inv in Hs. destruct Hs as (l1 & l2 & El & Ea & El2). cbn [app] in El2. destruct l2 as [|q1 [|q2 l2]]; try discriminate. cbn [map] in El2.
  injection El2 as Eb Ec Er. assert (forall q, In q (l1 ++ q1 :: q2 :: l2) -> In q (vd_params s)) as Hsub by (rewrite El; auto).
  assert (p_id q1 = [ICc 32]) as I1 by (change (p_id q1) with (p_id (blank q1)); rewrite Eb, Hb; reflexivity).
  assert (p_id q2 = [IPc]) as I2 by (change (p_id q2) with (p_id (blank q2)); rewrite Ec, Hc; reflexivity).
  assert (find_param [ICc 32] (vd_params s) = Some q1) as F1 by (rewrite <- I1; apply find_in; auto; apply Hsub; apply in_or_app; right; left; reflexivity).
  assert (find_param [IPc] (vd_params s) = Some q2) as F2 by (rewrite <- I2; apply find_in; auto; apply Hsub; apply in_or_app; right; right; left; reflexivity).
  rewrite (value_find _ _ _ F1) in H1. rewrite (value_find _ _ _ F2) in H2.
  assert (forall q, p_sets q = all_sets -> in_set s q = true) as Hset.
  { intros q Hq. unfold in_set. rewrite Hx, Hq. apply existsb_exists. exists x. split; auto. lia. }
  destruct (blank_keeps _ _ (eq_trans Eb Hb)) as (S1 & _ & _ & S2 & _). destruct (blank_keeps _ _ (eq_trans Ec Hc)) as (T1 & _ & _ & T2 & _).
  rewrite El, map_app in Hn. cbn [map] in Hn. rewrite I1, I2 in Hn.
  assert (~ In [ICc 32] (map p_id l1) /\ ~ In [IPc] (map p_id l1) /\ ~ In [ICc 32] (map p_id l2) /\ ~ In [IPc] (map p_id l2)) as (N1 & N2 & N3 & N4).
  { pose proof (NoDup_remove_2 _ _ _ Hn) as A. pose proof (NoDup_remove_1 _ _ _ Hn) as B. apply NoDup_remove_2 in B. rewrite in_app_iff in A, B. cbn in A. tauto. }
  right. exists (flat_map (fun q => if in_set s q then opt_list (send_msg q) else []) l1), hi, lo, (flat_map (fun q => if in_set s q then opt_list (send_msg q) else []) l2).
  split; [|split; [|split; [|split]]].
  - rewrite El at 1. rewrite flat_map_app. cbn [flat_map]. rewrite !Hset by assumption. unfold send_msg at 2. rewrite S1, H1. cbn [p_send blank with_pval new_param]. unfold send_msg at 2. rewrite T1, H2. reflexivity.
  - apply (hush_all _ s); auto. intros q Hq. apply Hsub, in_or_app. left. exact Hq.
  - apply (hush_all _ s); auto. intros q Hq. apply Hsub, in_or_app. right. right. right. exact Hq.
  - rewrite (value_find _ _ _ F1). exact H1.
  - rewrite (value_find _ _ _ F2). exact H2.
Qed.

Lemma says_step s o x d h : R s d h -> vd_set s = Some x -> In x all_sets -> proper o -> fine h o = true -> stays x o -> says s (fst (vd_step s o)) (snd (vd_step s o)).
Proof.
  intros HR Hx Hin Hp Hf Hst. pose proof (r_inv _ _ _ HR) as I. destruct o as [m date|k v date|id date|k|y init|]; cbn [vd_step].
  - destruct m as [c v|v|man data|n|n].
    + cbn [fine] in Hf. assert (c <> 32) as H32 by (unfold rig_switch in Hf; intros ->; discriminate Hf).
      unfold receive_msg. pose proof (store_cc s c v I) as Hc. destruct (parse_store (vd_params s) (CC c v)) as [[i ac]|] eqn:Es.
      * destruct Hc as [(y & z & Ha & -> & ->)|[(_ & -> & -> & ->)|(_ & -> & ->)]]; apply (says_act date _ _ s x); auto; try discriminate. congruence.
      * cbn [parse_default]. unfold get_and_parse. destruct (find_param [key_id (KCc c None)] (vd_params (get_param (KCc c None) s))) as [q|]; [|apply says_get with (KCc c None), says_nothing].
        destruct (parse_param q (CC c v)) as [ac|]; [|apply says_get with (KCc c None), says_nothing]. apply (says_get_act _ _ _ _ _ x); auto; try discriminate; [reflexivity|cbn; congruence].
    + discriminate.
    + apply (says_sysex date man data s x); auto.
    + unfold receive_msg. rewrite store_odd by exact Logic.I. apply says_nothing.
    + unfold receive_msg. rewrite store_odd by exact Logic.I. apply says_nothing.
  - destruct Hp as [Hk _]. apply okkey_proper in Hk. apply (says_get_act date [key_id k] (ASet v) k s x); auto; destruct k; cbn [fine key_id] in *; try discriminate.
    intros C. inv C. discriminate Hf.
  - apply (says_set_rig date id s x); auto.
  - apply okkey_proper in Hp. apply (says_get_act [] [key_id k] ASend k s x); auto; destruct k; cbn [fine key_id] in *; discriminate.
  - cbn in Hst. subst y. cbn [fst snd]. destruct init.
    + pose proof (r_hi _ _ _ HR) as (hi & lo & H1 & H2 & _). replace (mkD (vd_params s) (Some x) (vd_last s)) with s by (destruct s; cbn in *; congruence).
      apply (says_beacon s x hi lo); auto.
    + left. split; [constructor|split; reflexivity].
  - contradiction.
Qed.

(* ---- the firmware's rig id ---- *)
Definition rigmap (m : mapping) : Prop := two_part m = true /\ typ m = Numeric /\ response_t m = TMany [Some (CC 32 0); Some (PC 0)].
Lemma hear_app m a b : hear m (a ++ b) = hear (hear m a) b. Proof. apply fold_left_app. Qed.
Lemma hear_hush m ms : rigmap m -> Forall hush ms -> hear m ms = m.
Proof.
  intros (H1 & H2 & H3) Hh. induction Hh as [|x ms Hx Hms IH]; [reflexivity|]. unfold hear. cbn [fold_left].
  assert (match parse m x with Ok (m', _) => m' | Raise => m end = m) as ->; [|exact IH].
  unfold parse. rewrite H1. unfold parse_two. rewrite H3, H2. destruct x as [c v|v|man data|n|n]; try reflexivity; cbn in *; [|contradiction].
  replace (c =? 32) with false by lia. reflexivity.
Qed.
Lemma hear_pair m hi lo : rigmap m -> rigmap (hear m [CC 32 hi; PC lo]) /\ val (hear m [CC 32 hi; PC lo]) = Some (VNum (128 * hi + lo)).
Proof.
  intros (H1 & H2 & H3). destruct m. cbn in H1, H2, H3. subst. repeat split.
Qed.
Lemma hear_says m s s' out d d' h h' : rigmap m -> says s s' out -> R s d h -> R s' d' h' -> val m = Some (VNum (d_id d)) ->
  rigmap (hear m out) /\ val (hear m out) = Some (VNum (d_id d')).
Proof.
  intros Hm Hs HR HR' Hv. destruct Hs as [[Hh [E1 E2]]|(h1 & hi & lo & h2 & -> & A & B & C & D)].
  - rewrite (hear_hush m out Hm Hh). split; auto. rewrite Hv. do 2 f_equal.
    rewrite <- (r_id _ _ _ HR), <- (r_id _ _ _ HR'). unfold get_rig_id, num_of. rewrite E1, E2. reflexivity.
  - rewrite !hear_app, (hear_hush m h1 Hm A). destruct (hear_pair m hi lo Hm) as [P1 P2]. rewrite (hear_hush _ h2 P1 B). split; auto. rewrite P2. do 2 f_equal.
    rewrite <- (r_id _ _ _ HR'). unfold get_rig_id, num_of. rewrite C, D. reflexivity.
Qed.
Lemma R_new date : R (vdev_new date) (mkDevice 0 None) None.
Proof.
  constructor; [apply inv_new|exists 0, 0; repeat split|reflexivity| |reflexivity]. intros c Hc. pattern c. apply switch_case; [exact Hc|reflexivity..].
Qed.
Lemma R_run ops : forall s d h, R s d h -> (h <> None -> d_pending d = None) -> Forall proper ops -> Forall no_rename ops -> orderly h ops = true ->
  exists h', R (fst (run vd_step s ops)) (fold_left device_step ops d) h' /\ (h' <> None -> d_pending (fold_left device_step ops d) = None) /\
    (forall ops2, orderly h (ops ++ ops2) = true -> orderly h' ops2 = true) /\ h' = fold_left next_held ops h.
Proof.
  induction ops as [|o ops IH]; intros s d h HR Hpe Hp Hn Hord.
  - exists h. auto.
  - inv Hp. inv Hn. rewrite orderly_cons in Hord. apply andb_true_iff in Hord. destruct Hord as [Hf Hord]. destruct (R_step s o d h HR H1 H3 Hf Hpe) as [R1 P1].
    rewrite run_cons. destruct (vd_step s o) as [s1 o1]. cbn [fst] in *. destruct (IH s1 _ _ R1 P1 H2 H4 Hord) as (h' & R2 & P2 & Hc & Hh). exists h'. destruct (run vd_step s1 ops) as [s2 o2]. cbn [fst fold_left] in *.
    split; [exact R2|split; [exact P2|split; [|exact Hh]]]. intros ops2 Ho. cbn [app] in Ho. rewrite orderly_cons in Ho. apply andb_true_iff in Ho. apply Hc. apply Ho.
Qed.
Lemma orderly_app1 h a b : orderly h (a ++ b) = true -> orderly h a = true.
Proof.
  revert h. induction a as [|o a IH]; intros h H; [reflexivity|]. cbn [app] in H. rewrite orderly_cons in *. apply andb_true_iff in H. destruct H as [H1 H2]. rewrite H1. cbn. apply IH. exact H2.
Qed.
Lemma hear_run x ops : In x all_sets -> forall s d h m, R s d h -> (h <> None -> d_pending d = None) -> Forall proper ops -> Forall no_rename ops -> Forall (stays x) ops -> orderly h ops = true ->
  vd_set s = Some x -> rigmap m -> val m = Some (VNum (d_id d)) ->
  rigmap (hear m (snd (run vd_step s ops))) /\ val (hear m (snd (run vd_step s ops))) = Some (VNum (d_id (fold_left device_step ops d))).
Proof.
  intros Hin. induction ops as [|o ops IH]; intros s d h m HR Hpe Hp Hn Hst Hord Hx Hm Hv.
  - split; [exact Hm|exact Hv].
  - inv Hp. inv Hn. inv Hst. rewrite orderly_cons in Hord. apply andb_true_iff in Hord. destruct Hord as [Hf Hord]. destruct (R_step s o d h HR H1 H3 Hf Hpe) as [R1 P1].
    pose proof (says_step s o x d h HR Hx Hin H1 Hf H5) as Hs. pose proof (set_kept s o x Hx H5) as Hx1. rewrite run_cons. destruct (vd_step s o) as [s1 o1]. cbn [fst snd] in *.
    destruct (hear_says m s s1 o1 d _ h _ Hm Hs HR R1 Hv) as [Hm1 Hv1]. specialize (IH s1 _ _ (hear m o1) R1 P1 H2 H4 H6 Hord Hx1 Hm1 Hv1).
    destruct (run vd_step s1 ops) as [s2 o2]. cbn [fst snd fold_left] in *. rewrite hear_app. exact IH.
Qed.
Lemma rig_known date ops1 ops2 x k : In x all_sets -> k_response (kemper k) = TMany [Some (CC 32 0); Some (PC 0)] -> Forall proper (ops1 ++ ops2) -> Forall no_rename (ops1 ++ ops2) -> Forall (stays x) ops2 ->
  orderly None (ops1 ++ ops2) = true ->
  heard k (snd (run vd_step (vd_after date ops1) (VBeacon x true :: ops2))) = Some (VNum (d_id (device_after (ops1 ++ ops2)))).
Proof.
  intros Hin Hk Hp Hn Hst Hord. apply Forall_app in Hp. destruct Hp as [Hp1 Hp2]. apply Forall_app in Hn. destruct Hn as [Hn1 Hn2].
  destruct (R_run ops1 _ _ None (R_new date) ltac:(congruence) Hp1 Hn1 (orderly_app1 _ _ _ Hord)) as (h & HR & Hpe & Hc & _). specialize (Hc ops2 Hord). fold (vd_after date ops1) in HR. fold (device_after ops1) in HR, Hpe.
  set (s := vd_after date ops1) in *. set (s1 := mkD (vd_params s) (Some x) (vd_last s)).
  assert (R s1 (device_after ops1) h) as HR1 by (destruct HR as [[A1 A2] Hhi Hpr Hs Hnm]; constructor; auto; constructor; auto).
  pose proof (r_hi _ _ _ HR1) as (hi & lo & V1 & V2 & V3). pose proof (says_beacon s1 x hi lo (r_inv _ _ _ HR1) Hin eq_refl V1 V2) as Hs.
  assert (vd_step s (VBeacon x true) = (s1, flat_map (fun q => if in_set s1 q then opt_list (send_msg q) else []) (vd_params s1))) as E by reflexivity.
  rewrite run_cons, E. set (o1 := flat_map _ _) in *. cbn [fst snd].
  assert (rigmap (mapping_of k)) as Hm by (destruct k; try destruct s0; try destruct r; cbn in Hk; try discriminate Hk; repeat split).
  assert (rigmap (hear (mapping_of k) o1) /\ val (hear (mapping_of k) o1) = Some (VNum (d_id (device_after ops1)))) as [Hm1 Hv1].
  { destruct Hs as [[Hh _]|(h1 & hi' & lo' & h2 & E2 & A & B & C & D)].
    - exfalso.
      assert (In (CC 32 hi) o1) as Hi.
      { destruct (found [ICc 32] _ s1 (r_inv _ _ _ HR1) eq_refl) as (q & Hq & Eq). destruct (blank_keeps _ _ Eq) as (S1 & _ & S3 & S2 & _). apply in_flat_map. exists q. split; [apply (find_id _ _ _ Hq)|].
        replace (in_set s1 q) with true by (symmetry; unfold in_set; rewrite S2; apply existsb_exists; exists x; split; auto; cbn; lia).
        unfold send_msg. rewrite S1. rewrite (value_find _ _ _ Hq) in V1. rewrite V1. left. reflexivity. }
      rewrite Forall_forall in Hh. apply Hh in Hi. cbn in Hi. congruence.
    - rewrite E2, !hear_app, (hear_hush _ h1 Hm A). destruct (hear_pair _ hi' lo' Hm) as [P1 P2]. rewrite (hear_hush _ h2 P1 B). split; auto. rewrite P2. do 2 f_equal.
      rewrite <- (r_id _ _ _ HR1). unfold get_rig_id, num_of. rewrite C, D. reflexivity. }
  pose proof (proj2 (hear_run x ops2 Hin s1 _ h _ HR1 Hpe Hp2 Hn2 Hst Hc eq_refl Hm1 Hv1)) as H. destruct (run vd_step s1 ops2) as [s2 o2]. cbn [fst snd] in *.
  unfold heard. rewrite hear_app. rewrite H. unfold device_after. rewrite fold_left_app. reflexivity.
Qed.

(* the rig name, asked for *)
Lemma name_told s d h now : R s d h -> heard RigName (snd (vd_step s (VRecv (ask_text 1) now))) = Some (VStr (rig_name (d_id d))).
Proof.
  intros HR. pose proof (r_inv _ _ _ HR) as I. pose proof (r_name _ _ _ HR) as Hname. cbn [vd_step]. unfold receive_msg.
  destruct (found [INrpn [0; 1]] _ s I eq_refl) as (q & Hq & Eq). destruct (blank_keeps _ _ Eq) as (S1 & S0 & S3 & S2 & _). cbn in S1, S0, S3.
  assert (parse_store (vd_params s) (ask_text 1) = Some ([INrpn [0; 1]], ASend)) as ->.
  { destruct I as [(ks & Hs & _) _]. rewrite <- store_blank, Hs, store_app. reflexivity. }
  cbn [act snd]. rewrite Hq. change (addr 0 1) with [INrpn [0; 1]] in Hname. rewrite (value_find _ _ _ Hq) in Hname. unfold send_msg. rewrite S1, Hname, S3. unfold heard. rewrite hear_plain by reflexivity.
  set (t := rig_name _). change (Some (VStr (removelast (t ++ [0]))) = Some (VStr t)). rewrite removelast_last. reflexivity.
Qed.
Lemma name_known date ops now : Forall proper ops -> Forall no_rename ops -> orderly None ops = true ->
  heard RigName (answers date ops (ask_text 1) now) = Some (VStr (rig_name (d_id (device_after ops)))).
Proof.
  intros Hp Hn Hord. destruct (R_run ops _ _ None (R_new date) ltac:(congruence) Hp Hn Hord) as (h & HR & _). exact (name_told _ _ h now HR).
Qed.

(* ---- the rig switches and the virtual device in a closed loop ---- *)
Lemma rig_cc_switch r : 0 <= r <= 4 -> rig_switch (50 + r) = true. Proof. unfold rig_switch. lia. Qed.
Ltac pres := repeat (apply Forall_cons || apply Forall_nil); try first [left; eexists; reflexivity | right; left; reflexivity | right; right; reflexivity].
Lemma press_shape cfg fuel w w' ev k : (forall k, good_cb (cfg k)) -> sane w -> wstep cfg fuel w (Press k) = Some (w', ev) -> k_sent (w_st w k) = None ->
  exists pre, map snd ev = pre ++ match k_sent (w_st w' k) with Some r => [CC (50 + r) 1] | None => [] end /\
    Forall (fun m => (exists b, m = CC 47 b) \/ m = CC 48 0 \/ m = CC 49 0) pre.
Proof.
  intros Hg S H Hn. cbn [wstep] in H. destruct (cfg k) as [up keep|c|c|c].
  - unfold rig_change_push in H. destruct (w_id w) as [id|]; [destruct (next_rig up keep id =? id)|]; injection H as <- <-; cbn [w_st]; rewrite put_same; cbn [put_sent k_sent]; rewrite ?Hn.
    + exists []. auto.
    + rewrite snd_pair. eexists. split; [reflexivity|]. case_if; pres.
    + exists []. auto.
  - unfold bank_change_push in H. destruct (bc_pre c); [destruct (w_id w) as [id|]; [destruct (next_bank _ _ _ _); [|discriminate]|]|]; injection H as <- <-; cbn [w_st]; rewrite Hn, ?snd_pair.
    + eexists. rewrite app_nil_r. split; [reflexivity|]. pres.
    + exists []. auto.
    + eexists. rewrite app_nil_r. split; [reflexivity|]. unfold bank_step. destruct (bc_up c); pres.
  - unfold rs_push in H. injection H as <- <-. cbn [w_st]. rewrite put_same, snd_pair. cbn [k_sent]. eexists. split; [reflexivity|].
    repeat match goal with |- context [match ?x with _ => _ end] => destruct x end; pres.
  - unfold bs_push in H. destruct (w_id w) as [id|]; [destruct (bs_pre c)|]; injection H as <- <-; cbn [w_st]; rewrite put_same, ?snd_pair; cbn [put_sent k_sent]; rewrite ?Hn.
    + eexists. rewrite app_nil_r. split; [reflexivity|]. pres.
    + cbn [map snd]. match goal with |- exists pre, [?x; ?y] = _ /\ _ => exists [x] end. split; [reflexivity|]. pres.
    + exists []. auto.
Qed.
Lemma release_shape cfg fuel w w' ev k : wstep cfg fuel w (Let_go k) = Some (w', ev) -> (forall c, cfg k = BankChange c -> k_sent (w_st w k) = None) ->
  map snd ev = match k_sent (w_st w k) with Some r => [CC (50 + r) 0] | None => [] end /\ k_sent (w_st w' k) = None.
Proof.
  intros H Hb. cbn [wstep] in H. destruct (cfg k) as [up keep|c|c|c].
  2: { injection H as <- <-. rewrite (Hb c eq_refl). auto. }
  all: unfold rs_release, release_sent in H; destruct (k_sent (w_st w k)) as [r|] eqn:E; injection H as <- <-; cbn [w_st]; rewrite put_same; cbn [put_sent k_sent]; split; auto.
Qed.
Definition pre_msg (m : msg) : Prop := (exists b, m = CC 47 b) \/ m = CC 48 0 \/ m = CC 49 0.
Lemma orderly_pre pre ops : Forall pre_msg pre -> orderly None (delivered pre ++ ops) = orderly None ops /\ fold_left next_held (delivered pre) None = None.
Proof.
  intros H. induction H as [|m pre Hm Hpre IH]; [auto|]. cbn [delivered map app]. rewrite orderly_cons. cbn [fold_left].
  destruct Hm as [(b & ->)|[-> | ->]]; exact IH.
Qed.
Lemma proper_cc ms : (forall m, In m ms -> exists c v, m = CC c v) -> Forall proper (delivered ms) /\ Forall no_rename (delivered ms) /\ forall x, Forall (stays x) (delivered ms).
Proof.
  intros H. induction ms as [|m ms IH]; [repeat split; constructor|]. destruct IH as (A & B & C); [intros m' Hm'; apply H; right; exact Hm'|].
  destruct (H m (or_introl eq_refl)) as (c & v & ->). cbn [delivered map]. repeat split; try (constructor; [exact Logic.I|assumption]). intros x. constructor; [exact Logic.I|apply C].
Qed.

Record K (x id0 : Z) (cfg : nat -> cb) (c : closed) (held : option nat) : Prop := mkK {
  k_r : exists h, R (c_dev c) (device_of id0 (c_sent c)) h /\ h = match held with Some k => option_map (Z.add 50) (k_sent (w_st (c_world c) k)) | None => None end;
  k_pend : forall k r, held = Some k -> k_sent (w_st (c_world c) k) = Some r -> d_pending (device_of id0 (c_sent c)) = None;
  k_set : vd_set (c_dev c) = Some x;
  k_map : rigmap (c_map c) /\ val (c_map c) = Some (VNum (d_id (device_of id0 (c_sent c))));
  k_id : w_id (c_world c) = Some (d_id (device_of id0 (c_sent c)));
  k_sane : sane (c_world c);
  k_free : forall j, held <> Some j -> k_sent (w_st (c_world c) j) = None;
  k_bank : forall j c', cfg j = BankChange c' -> k_sent (w_st (c_world c) j) = None }.

(* what a step has to show *)
Lemma K_deliver x id0 cfg c held w ms held' : In x all_sets -> K x id0 cfg c held -> (forall m, In m ms -> exists cc v, m = CC cc v) ->
  orderly (match held with Some k => option_map (Z.add 50) (k_sent (w_st (c_world c) k)) | None => None end) (delivered ms) = true ->
  sane w -> (forall j, held' <> Some j -> k_sent (w_st w j) = None) -> (forall j c', cfg j = BankChange c' -> k_sent (w_st w j) = None) ->
  fold_left next_held (delivered ms) (match held with Some k => option_map (Z.add 50) (k_sent (w_st (c_world c) k)) | None => None end) =
    (match held' with Some k => option_map (Z.add 50) (k_sent (w_st w k)) | None => None end) ->
  K x id0 cfg (exchange c w ms) held'.
Proof.
  intros Hin HK Hcc Hord Hsane Hfree Hbank Hnext. destruct HK as [(h & HR & Hh) Hpend Hset [Hm Hv] Hid _ _ _]. subst h.
  destruct (proper_cc ms Hcc) as (Hp & Hn & Hst).
  assert (match held with Some k => option_map (Z.add 50) (k_sent (w_st (c_world c) k)) | None => None end <> None -> d_pending (device_of id0 (c_sent c)) = None) as Hpe.
  { destruct held as [k|]; [|congruence]. intros Hne. destruct (k_sent (w_st (c_world c) k)) as [r|] eqn:E; [|cbn in Hne; congruence]. eapply Hpend; eauto. }
  destruct (R_run _ _ _ _ HR Hpe Hp Hn Hord) as (h' & HR' & Hpe' & _ & Hh'). rewrite Hnext in Hh'.
  destruct (hear_run x _ Hin _ _ _ _ HR Hpe Hp Hn (Hst x) Hord Hset Hm Hv) as [Hm' Hv'].
  assert (fold_left device_step (delivered ms) (device_of id0 (c_sent c)) = device_of id0 (c_sent c ++ ms)) as Ed by (unfold device_of, delivered; rewrite map_app, fold_left_app; reflexivity).
  rewrite Ed in *. unfold exchange. constructor; cbn [c_dev c_map c_sent c_world w_st w_id].
  - exists h'. split; [exact HR'|exact Hh'].
  - intros k r -> Hs. apply Hpe'. rewrite Hh', Hs. discriminate.
  - assert (forall ops s, Forall (stays x) ops -> vd_set s = Some x -> vd_set (fst (run vd_step s ops)) = Some x) as Hrun.
    { induction ops as [|o ops IH]; intros s Hs E; [exact E|]. inv Hs. rewrite run_cons. pose proof (set_kept s o x E H1) as E1. destruct (vd_step s o) as [s1 o1]. cbn [fst] in E1.
      exact (IH s1 H2 E1). }
    apply Hrun; auto.
  - split; assumption.
  - unfold reported. rewrite Hv'. reflexivity.
  - intros k. exact (Hsane k).
  - exact Hfree.
  - exact Hbank.
Qed.
Lemma K_step x id0 cfg fuel c held o c' : In x all_sets -> (forall k, good_cb (cfg k)) -> K x id0 cfg c held -> allowed held o = true -> closed_step cfg fuel c o = Some c' ->
  K x id0 cfg c' (holding held o).
Proof.
  intros Hin Hg HK Ha H. unfold closed_step in H. destruct (wstep cfg fuel (c_world c) o) as [[w ev]|] eqn:E; [|discriminate]. inv H.
  pose proof (step_sane _ _ _ _ _ _ Hg E (k_sane _ _ _ _ _ HK)) as Hsane.
  assert (forall j c0, cfg j = BankChange c0 -> k_sent (w_st w j) = None) as Hbank by (intros j c0 Hc; eapply bank_change_sent; eauto; eapply (k_bank _ _ _ _ _ HK); eauto).
  destruct o as [k|k|k|id]; cbn [allowed holding] in *.
  - destruct held as [|]; [discriminate|]. pose proof (k_free _ _ _ _ _ HK k ltac:(discriminate)) as Hk.
    destruct (press_shape _ _ _ _ _ _ Hg (k_sane _ _ _ _ _ HK) E Hk) as (pre & Hms & Hpre). rewrite Hms.
    assert (forall r, k_sent (w_st w k) = Some r -> 0 <= r <= 4) as Hr by (intros r Er; apply (Hsane k); exact Er).
    destruct (orderly_pre pre (delivered match k_sent (w_st w k) with Some r => [CC (50 + r) 1] | None => [] end) Hpre) as [O1 O2].
    apply (K_deliver x id0 cfg c None w _ (Some k)); auto.
    + intros m Hm. apply in_app_or in Hm. destruct Hm as [Hm|Hm].
      * rewrite Forall_forall in Hpre. destruct (Hpre m Hm) as [(b & ->)|[-> | ->]]; eauto.
      * destruct (k_sent (w_st w k)); [|contradiction]. destruct Hm as [<-|[]]. eauto.
    + unfold delivered in *. rewrite map_app, O1. destruct (k_sent (w_st w k)) as [r|]; [|reflexivity]. cbn. rewrite (rig_cc_switch r (Hr r eq_refl)). reflexivity.
    + intros j Hj. assert (k <> j) as Hkj by congruence. destruct (wstep_other _ _ _ _ _ _ j E ltac:(congruence) ltac:(discriminate)) as (_ & ->). apply (k_free _ _ _ _ _ HK). discriminate.
    + unfold delivered in *. rewrite map_app, fold_left_app, O2. destruct (k_sent (w_st w k)) as [r|]; [|reflexivity]. cbn. rewrite (rig_cc_switch r (Hr r eq_refl)). reflexivity.
  - destruct held as [k'|]; [|discriminate]. apply Nat.eqb_eq in Ha. subst k'.
    destruct (release_shape _ _ _ _ _ _ E ltac:(intros c0 Hc; eapply (k_bank _ _ _ _ _ HK); eauto)) as [Hms Hk]. rewrite Hms.
    assert (forall r, k_sent (w_st (c_world c) k) = Some r -> 0 <= r <= 4) as Hr by (intros r Er; apply (k_sane _ _ _ _ _ HK k); exact Er).
    apply (K_deliver x id0 cfg c (Some k) w _ None); auto.
    + intros m Hm. destruct (k_sent (w_st (c_world c) k)); [|contradiction]. destruct Hm as [<-|[]]. eauto.
    + destruct (k_sent (w_st (c_world c) k)) as [r|]; [|reflexivity]. cbn. rewrite (rig_cc_switch r (Hr r eq_refl)). rewrite Z.eqb_refl. reflexivity.
    + intros j _. destruct (Nat.eq_dec j k) as [->|Hj]; [exact Hk|]. destruct (wstep_other _ _ _ _ _ _ j E ltac:(discriminate) ltac:(congruence)) as (_ & ->). apply (k_free _ _ _ _ _ HK). congruence.
    + destruct (k_sent (w_st (c_world c) k)) as [r|]; [|reflexivity]. cbn. rewrite (rig_cc_switch r (Hr r eq_refl)). reflexivity.
  - assert (map snd ev = []) as ->.
    { cbn [wstep] in E. destruct (cfg k); injection E as <- <-; reflexivity. }
    assert (forall j, k_sent (w_st w j) = k_sent (w_st (c_world c) j)) as Hsame by (intros j; apply (wstep_other _ _ _ _ _ _ j E); discriminate).
    apply (K_deliver x id0 cfg c held w [] held); auto.
    + intros m [].
    + intros j Hj. rewrite Hsame. apply (k_free _ _ _ _ _ HK). exact Hj.
    + cbn. destruct held as [k'|]; [|reflexivity]. rewrite Hsame. reflexivity.
  - discriminate.
Qed.
Lemma K_run x id0 cfg fuel ops : In x all_sets -> (forall k, good_cb (cfg k)) -> forall c held c', K x id0 cfg c held -> singly held ops = true -> closed_run cfg fuel c ops = Some c' ->
  K x id0 cfg c' (fold_left holding ops held).
Proof.
  intros Hin Hg. induction ops as [|o ops IH]; intros c held c' HK Hs H; cbn [closed_run singly fold_left] in *.
  - inv H. exact HK.
  - apply andb_true_iff in Hs. destruct Hs as [Ha Hs]. destruct (closed_step cfg fuel c o) as [c1|] eqn:E; [|discriminate]. eapply IH; eauto. eapply K_step; eauto.
Qed.
Lemma K_start x id0 cfg date : In x all_sets -> (forall k, good_cb (cfg k)) -> K x id0 cfg (closed_start cfg date id0 x) None.
Proof.
  intros Hin Hg. unfold closed_start. set (s := vd_after date [VUiRig id0 date]).
  pose proof (R_set_rig date id0 _ _ _ (R_new date)) as HR. cbn [d_pending] in HR.
  assert (R s (mkDevice id0 None) None) as HRs.
  { subst s. unfold vd_after. rewrite run_cons. cbn [vd_step]. destruct (set_rig_id date id0 (vdev_new date)) as [s1 o1]. exact HR. }
  assert (vd_after date ([VUiRig id0 date] ++ [VBeacon x true]) = fst (vd_step s (VBeacon x true))) as Hs1.
  { unfold vd_after. rewrite run_app. subst s. unfold vd_after. rewrite run_cons. reflexivity. }
  pose proof (rig_known date [VUiRig id0 date] [] x RigId Hin eq_refl ltac:(repeat constructor) ltac:(repeat constructor) ltac:(constructor) eq_refl) as Hk. rewrite app_nil_r in Hk. cbn [device_after fold_left device_step d_id d_pending] in Hk.
  fold s in Hk. rewrite run_cons in Hk. destruct (vd_step s (VBeacon x true)) as [s1 o1] eqn:E. cbn [run fst snd] in Hk. rewrite app_nil_r in Hk. cbn [fst snd].
  constructor; cbn [c_dev c_map c_sent c_world device_of delivered map fold_left d_id].
  - exists None. split; [|reflexivity]. cbn in E. inv E. destruct HRs as [[A1 A2] Hhi Hpr Hsw Hnm]. constructor; auto. constructor; auto.
  - discriminate.
  - cbn in E. inv E. reflexivity.
  - split; [|exact Hk]. assert (forall ms m, rigmap m -> rigmap (hear m ms)) as Hrm.
    { induction ms as [|y ms IH]; intros m Hm; [exact Hm|]. unfold hear. cbn [fold_left]. apply IH. destruct m. destruct Hm as (M1 & M2 & M3). cbn in M1, M2, M3. subst. unfold parse, parse_two. cbn.
      destruct y as [c v|v|man data|n|n]; cbn; repeat (case_if; cbn); try (repeat split; fail). destruct value_1 as [[z|z]|]; cbn; repeat split. }
    apply Hrm. repeat split.
  - unfold heard in Hk. unfold reported. cbn [w_id]. rewrite Hk. reflexivity.
  - intros k. apply (new_sane cfg Hg k).
  - intros j _. apply new_sent.
  - intros j c' _. apply new_sent.
Qed.
Lemma closed_agree cfg fuel date id0 x ops c now : In x all_sets -> (forall k, good_cb (cfg k)) -> singly None ops = true -> closed_run cfg fuel (closed_start cfg date id0 x) ops = Some c ->
  let d := device_of id0 (c_sent c) in
  w_id (c_world c) = Some (d_id d) /\ heard RigName (snd (vd_step (c_dev c) (VRecv (ask_text 1) now))) = Some (VStr (rig_name (d_id d))).
Proof.
  intros Hin Hg Hs H d. pose proof (K_run x id0 cfg fuel ops Hin Hg _ _ _ (K_start x id0 cfg date Hin Hg) Hs H) as HK. split; [apply HK|].
  destruct (k_r _ _ _ _ _ HK) as (h & HR & _). fold d in HR. apply (name_told (c_dev c) d h now HR).
Qed.
(* a press of a switch which changes or selects rigs *)
Lemma device_press pre id m : Forall (fun m => exists c v, m = CC c v /\ c <> 48 /\ c <> 49) m -> fold_left device_step (delivered m) (mkDevice id pre) = react_all (mkDevice id pre) m.
Proof.
  unfold react_all. intros H. generalize (mkDevice id pre). induction H as [|x m Hx Hm IH]; intros d; [reflexivity|]. cbn [delivered map fold_left].
  destruct Hx as (c & v & -> & H1 & H2). unfold delivered in IH. rewrite IH. f_equal. unfold device_step.
  destruct c as [|c|c]; [reflexivity| |reflexivity]. do 6 (destruct c as [c|c|]; try reflexivity; try congruence).
Qed.
Lemma closed_run_app cfg fuel ops1 ops2 c : closed_run cfg fuel c (ops1 ++ ops2) = match closed_run cfg fuel c ops1 with None => None | Some c1 => closed_run cfg fuel c1 ops2 end.
Proof. revert c. induction ops1 as [|o ops IH]; intros c; [reflexivity|]. cbn [closed_run app]. destruct (closed_step cfg fuel c o); auto. Qed.
Lemma singly_app ops1 ops2 h : singly h (ops1 ++ ops2) = singly h ops1 && singly (fold_left holding ops1 h) ops2.
Proof. revert h. induction ops1 as [|o ops IH]; intros h; [reflexivity|]. cbn [singly app fold_left]. rewrite IH. apply andb_assoc. Qed.
Lemma cc_not_bank ms : (forall m, In m ms -> (exists b, m = CC 47 b) \/ exists r v, m = CC (50 + r) v /\ 0 <= r <= 4) -> Forall (fun m => exists c v, m = CC c v /\ c <> 48 /\ c <> 49) ms.
Proof.
  intros H. apply Forall_forall. intros m Hm. destruct (H m Hm) as [(b & ->)|(r & v & -> & Hr)]; do 2 eexists; (split; [reflexivity|lia]).
Qed.
Lemma closed_press cfg fuel date id0 x ops c c' k now : In x all_sets -> (forall k, good_cb (cfg k)) -> singly None ops = true -> fold_left holding ops None = None ->
  closed_run cfg fuel (closed_start cfg date id0 x) ops = Some c -> closed_step cfg fuel c (Press k) = Some c' ->
  let d := device_of id0 (c_sent c) in valid_id (d_id d) -> s_pre (w_sh (c_world c)) = d_pending d ->
  (forall id', match cfg k with
               | RigChange up keep => d_pending d = None /\ id' = neighbour up keep (d_id d)
               | RigSelect s => id' = target s (k_rig_off (w_st (c_world c) k)) (k_bank_off (w_st (c_world c) k)) (d_pending d) (d_id d)
               | _ => False
               end ->
     w_id (c_world c') = Some id' /\ heard RigName (snd (vd_step (c_dev c') (VRecv (ask_text 1) now))) = Some (VStr (rig_name id'))).
Proof.
  intros Hin Hg Hs Hh H H' d Hv Hpre id' Hid.
  pose proof (K_run x id0 cfg fuel ops Hin Hg _ _ _ (K_start x id0 cfg date Hin Hg) Hs H) as HK. rewrite Hh in HK.
  assert (closed_run cfg fuel (closed_start cfg date id0 x) (ops ++ [Press k]) = Some c') as Hrun by (rewrite closed_run_app, H; cbn [closed_run]; rewrite H'; reflexivity).
  assert (singly None (ops ++ [Press k]) = true) as Hs' by (rewrite singly_app, Hs, Hh; reflexivity).
  pose proof (closed_agree cfg fuel date id0 x _ c' now Hin Hg Hs' Hrun) as [A B]. cbv zeta in A, B.
  enough (d_id (device_of id0 (c_sent c')) = id') as <- by (split; assumption).
  pose proof (k_id _ _ _ _ _ HK) as Hw. fold d in Hw. pose proof (k_sane _ _ _ _ _ HK k) as [S1 S2].
  unfold closed_step in H'. destruct (wstep cfg fuel (c_world c) (Press k)) as [[w ev]|] eqn:E; [|discriminate]. inv H'. cbn [exchange c_sent].
  unfold device_of, delivered. rewrite map_app, fold_left_app. fold (delivered (c_sent c)) (delivered (map snd ev)). fold (device_of id0 (c_sent c)). fold d.
  destruct (press_shape _ _ _ _ _ _ Hg (k_sane _ _ _ _ _ HK) E (k_free _ _ _ _ _ HK k ltac:(discriminate))) as (pre & Hms & Hpm).
  pose proof (step_sane _ _ _ _ _ _ Hg E (k_sane _ _ _ _ _ HK) k) as [_ S3].
  destruct d as [id pend] eqn:Ed. cbn [d_id d_pending] in *. cbn [wstep] in E. destruct (cfg k) as [up keep|c0|s|c0] eqn:Ek; try contradiction.
  - destruct Hid as [-> ->]. rewrite Hw in E. destruct (rig_change_push up keep (Some id) (k_sent (w_st (c_world c) k)) (w_sh (c_world c))) as [[sent' sh'] m] eqn:Ep. inv E. rewrite snd_pair in *.
    rewrite device_press, (rig_change_device _ _ _ _ _ _ _ _ Hv Ep); [reflexivity|]. apply cc_not_bank. pose proof (rig_change_messages _ _ _ _ _ _ _ _ Hv Ep) as Hm.
    intros m0 Hm0. rewrite Hm in Hm0. destruct (_ =? id); [contradiction|]. apply in_app_or in Hm0. destruct Hm0 as [Hm0|Hm0].
    + left. destruct (_ =? _); [contradiction|]. destruct Hm0 as [<-|[]]. eexists. reflexivity.
    + right. destruct Hm0 as [<-|[]]. do 2 eexists. split; [reflexivity|]. pose proof (Z.mod_pos_bound (neighbour up keep id) 5 ltac:(lia)). lia.
  - rewrite Hw in E. destruct (rs_push s (Some id) (w_st (c_world c) k) (w_sh (c_world c))) as [[s' sh'] m] eqn:Ep. inv E. rewrite snd_pair in *.
    pose proof (Hg k) as Hgk. rewrite Ek in Hgk. cbn [good_cb] in Hgk.
    assert (good_opt (k_rig_off (w_st (c_world c) k)) 5) as Hgo by (destruct (k_rig_off (w_st (c_world c) k)); [apply S2; reflexivity|exact Logic.I]).
    destruct (rs_press _ _ _ _ _ _ _ Hgk Hv Hgo Ep) as (Hr & _ & b & r & Hm & Hr4 & _ & Hb).
    rewrite device_press, Hr; [reflexivity|]. apply cc_not_bank. intros m0 Hm0. rewrite Hm in Hm0. apply in_app_or in Hm0. destruct Hm0 as [Hm0|[<-|[]]].
    + left. destruct Hb as [(_ & _ & y & ->)|(_ & ->)]; [|contradiction]. destruct Hm0 as [<-|[]]. eexists. reflexivity.
    + right. do 2 eexists. split; [reflexivity|exact Hr4].
Qed.
