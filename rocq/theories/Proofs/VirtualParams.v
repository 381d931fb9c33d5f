From Coq Require Import String.
From Verif.Lib Require Import Base.
From Verif.Model Require Import Midi Mapping KemperMappings VirtualParams.
From Verif.Spec Require Import VirtualParams.
From Verif.Proofs Require Import Codec.
Local Open Scope list_scope.

Arguments find_param : simpl never.
Arguments ids_eqb : simpl never.
Arguments starts_with : simpl never.

(* ---- identities ---- *)
Lemma beqb_eq a b : bytes_eqb a b = true <-> a = b.
Proof.
  revert b. induction a as [|x a IH]; intros [|y b]; cbn; split; intros H; try discriminate; auto.
  - apply andb_true_iff in H. destruct H as [H1 H2]. apply Z.eqb_eq in H1. apply IH in H2. congruence.
  - inv H. apply andb_true_iff. split; [apply Z.eqb_refl|apply IH; reflexivity].
Qed.
Lemma vid_eqb_eq a b : vid_eqb a b = true <-> a = b.
Proof.
  destruct a, b; cbn; split; intros H; try discriminate; auto.
  - apply beqb_eq in H. congruence.
  - inv H. apply beqb_eq. reflexivity.
  - apply Z.eqb_eq in H. congruence.
  - inv H. apply Z.eqb_refl.
Qed.
Lemma ids_eqb_eq a b : ids_eqb a b = true <-> a = b.
Proof.
  revert b. induction a as [|x a IH]; intros [|y b]; cbn; split; intros H; try discriminate; auto.
  - apply andb_true_iff in H. destruct H as [H1 H2]. apply vid_eqb_eq in H1. apply IH in H2. congruence.
  - inv H. apply andb_true_iff. split; [apply vid_eqb_eq; reflexivity|apply IH; reflexivity].
Qed.
Lemma ids_eqb_refl a : ids_eqb a a = true. Proof. apply ids_eqb_eq. reflexivity. Qed.
Lemma ids_eqb_neq a b : a <> b -> ids_eqb a b = false.
Proof. intros H. destruct (ids_eqb a b) eqn:E; auto. apply ids_eqb_eq in E. contradiction. Qed.
Lemma jval_eqb_eq a b : jval_eqb a b = true -> a = b.
Proof. destruct a, b; cbn; intros H; try discriminate; auto; [apply Z.eqb_eq in H|apply beqb_eq in H]; congruence. Qed.

Definition blank (p : vparam) : vparam := with_pval p JNull.
Definition fresh (k : vkey) : vparam := new_param (Some k) [] (JNum 0) [] false CbNone.
Lemma id_with p v : p_id (with_pval p v) = p_id p. Proof. reflexivity. Qed.
Lemma blank_with p v : blank (with_pval p v) = blank p. Proof. reflexivity. Qed.

Lemma find_id i l p : find_param i l = Some p -> p_id p = i /\ In p l.
Proof. intros H. apply find_some in H. destruct H as [H1 H2]. apply ids_eqb_eq in H2. auto. Qed.
Lemma find_none_id i l : find_param i l = None -> ~ In i (map p_id l).
Proof.
  intros H C. apply in_map_iff in C. destruct C as (p & E & Hp). apply (find_none _ _ H) in Hp. rewrite E, ids_eqb_refl in Hp. discriminate.
Qed.
Lemma find_in l p : NoDup (map p_id l) -> In p l -> find_param (p_id p) l = Some p.
Proof.
  unfold find_param. induction l as [|q l IH]; cbn; intros Hn H; [contradiction|]. destruct H as [->|H].
  - rewrite ids_eqb_refl. reflexivity.
  - inv Hn. rewrite ids_eqb_neq; [apply IH; auto|]. intros E. apply H2. rewrite E. apply in_map. exact H.
Qed.
Lemma find_write j i v l : find_param j (write i v l) = option_map (fun p => if ids_eqb j i then with_pval p v else p) (find_param j l).
Proof.
  induction l as [|p l IH]; cbn; auto. unfold find_param in *. cbn.
  destruct (ids_eqb (p_id p) i) eqn:E; cbn; rewrite ?id_with.
  - destruct (ids_eqb (p_id p) j) eqn:Ej; cbn; auto. apply ids_eqb_eq in Ej. subst j. rewrite E. reflexivity.
  - destruct (ids_eqb (p_id p) j) eqn:Ej; cbn; auto. apply ids_eqb_eq in Ej. subst j. rewrite E. reflexivity.
Qed.
Lemma find_blank j l : find_param j (map blank l) = option_map blank (find_param j l).
Proof. induction l as [|p l IH]; cbn; auto. unfold find_param in *. cbn. change (p_id (blank p)) with (p_id p). destruct (ids_eqb (p_id p) j); auto. Qed.
Lemma blank_write i v l : map blank (write i v l) = map blank l.
Proof. unfold write. rewrite map_map. apply map_ext. intros p. destruct (ids_eqb _ _); reflexivity. Qed.
Lemma ids_blank l : map p_id (map blank l) = map p_id l.
Proof. rewrite map_map. reflexivity. Qed.

(* ---- what an operation leaves unchanged: everything but values, unless a parameter is created ---- *)
Definition same_shape (s s' : vdev) : Prop := map blank (vd_params s') = map blank (vd_params s) /\ vd_set s' = vd_set s.
Lemma same_refl s : same_shape s s. Proof. split; reflexivity. Qed.
Lemma same_trans a b c : same_shape a b -> same_shape b c -> same_shape a c.
Proof. intros [A1 A2] [B1 B2]. split; congruence. Qed.
Lemma same_set_raw i v s : same_shape s (fst (set_raw i v s)).
Proof.
  unfold set_raw. destruct (find_param i (vd_params s)); [|apply same_refl].
  repeat case_if; try apply same_refl. split; cbn; auto. apply blank_write.
Qed.
Lemma same_update_rig date s : same_shape s (fst (update_rig date s)).
Proof.
  unfold update_rig. pose proof (same_set_raw [INrpn [0; 1]] (JStr (rig_name (get_rig_id s))) s) as H1.
  destruct (set_raw [INrpn [0; 1]] _ s) as [s1 o1]. pose proof (same_set_raw [INrpn [0; 3]] (JStr date) s1) as H2.
  destruct (set_raw [INrpn [0; 3]] _ s1) as [s2 o2]. eapply same_trans; eauto.
Qed.
Lemma same_set_rig date id s : same_shape s (fst (set_rig_id date id s)).
Proof.
  unfold set_rig_id. pose proof (same_set_raw [ICc 32] (JNum (id / 128)) s) as H1.
  destruct (set_raw [ICc 32] _ s) as [s1 o1]. pose proof (same_set_raw [IPc] (JNum (id mod 128)) s1) as H2.
  destruct (set_raw [IPc] _ s1) as [s2 o2]. pose proof (same_update_rig date s2) as H3. destruct (update_rig date s2) as [s3 o3].
  eapply same_trans; [eapply same_trans|]; eauto.
Qed.
Lemma same_run_cb date p v s : same_shape s (fst (run_cb date p v s)).
Proof.
  unfold run_cb. destruct (p_cb p); try apply same_refl.
  - pose proof (same_set_raw [ICc 47] JNull s) as H1. destruct (set_raw [ICc 47] JNull s) as [s1 o1]. cbn [fst] in H1.
    set (id := _ * 5 + _). case_if; [|exact H1].
    pose proof (same_set_rig date id s1) as H2. destruct (set_rig_id date id s1) as [s2 o2]. cbn [fst] in H2.
    assert (same_shape s s2) as H3 by (eapply same_trans; eauto).
    destruct (match vd_last s2 with Some l => l =? id | None => false end); cbn [fst].
    + destruct H3 as [A B]. split; auto.
    + pose proof (same_set_raw [INrpn [0; 11]] (JNum 0) s2) as H4. destruct (set_raw [INrpn [0; 11]] _ s2) as [s3 o3]. cbn [fst] in *.
      destruct (same_trans _ _ _ H3 H4) as [A B]. split; auto.
  - case_if; [apply same_set_rig|apply same_refl].
  - apply same_update_rig.
  - destruct v; try apply same_refl. case_if; [apply same_refl|apply same_set_raw].
Qed.
Lemma same_set_val date i v s : same_shape s (fst (set_val date i v s)).
Proof.
  unfold set_val. destruct (find_param i (vd_params s)) as [p|]; [|apply same_refl].
  repeat case_if; try apply same_refl.
  pose proof (same_run_cb date p v (mkD (write i v (vd_params s)) (vd_set s) (vd_last s))) as H.
  destruct (run_cb date p v _) as [s1 o]. cbn [fst] in *. destruct H as [A B]. cbn in A, B. rewrite blank_write in A. split; auto.
Qed.
Lemma same_act date i a s : same_shape s (fst (act date i a s)).
Proof. destruct a; cbn; [apply same_refl|apply same_set_val]. Qed.

(* ---- the invariant ---- *)
Definition okkey (k : vkey) : Prop := match k with KNrpn d => length d = 2%nat \/ d = [247] | KCc _ sc => sc = None | KPc => True end.
Definition setup_blank : list vparam := map blank (setup_params []).
Record Inv (s : vdev) : Prop := mkInv {
  inv_shape : exists ks, map blank (vd_params s) = setup_blank ++ map (fun k => blank (fresh k)) ks /\ Forall okkey ks;
  inv_nodup : NoDup (map p_id (vd_params s)) }.

Lemma inv_same s s' : same_shape s s' -> Inv s -> Inv s'.
Proof.
  intros [E _] [(ks & Hk & Hok) Hn]. constructor.
  - exists ks. split; auto. congruence.
  - rewrite <- ids_blank, E, ids_blank. exact Hn.
Qed.
Lemma inv_get k s : okkey k -> Inv s -> Inv (get_param k s).
Proof.
  intros Hk I. unfold get_param. destruct (find_param [key_id k] (vd_params s)) eqn:E; auto.
  destruct I as [(ks & Hs & Hok) Hn]. constructor; cbn.
  - exists (ks ++ [k]). rewrite !map_app, Hs, <- app_assoc. split; [reflexivity|]. apply Forall_app. auto.
  - rewrite map_app. cbn. apply (NoDup_Add (Add_app [key_id k] (map p_id (vd_params s)) [])). rewrite app_nil_r. split; [exact Hn|].
    apply find_none_id. exact E.
Qed.

(* What is known of every parameter *)
Definition okp (p : vparam) : Prop :=
  (forall d, In (KNrpn d) (p_recv p) -> p_send p = Some (KNrpn d) /\ okkey (KNrpn d)) /\
  (forall k, p_send p = Some k -> In k (p_recv p)) /\
  (p_cb p = CbTempo -> p_id p = [INrpn [4; 0]]) /\
  (p_str p = true -> In (p_id p) [[INrpn [0; 16]]; [INrpn [0; 1]]; [INrpn [0; 3]]]) /\
  (p_sets p <> [] -> p_cb p = CbNone).
Lemma setup_ok : Forall okp setup_blank.
Proof.
  unfold setup_blank. cbn. repeat (apply Forall_cons; [|]); try apply Forall_nil.
  all: unfold okp; cbn; split; [|split; [|split; [|split]]]; try discriminate; try congruence; try tauto.
  all: let k := fresh "k" in let Hk := fresh "Hk" in intros k Hk;
    repeat match type of Hk with _ \/ _ => destruct Hk as [Hk|Hk]; [try discriminate Hk|] end; try contradiction Hk;
    inversion Hk; subst; auto.
Qed.
Lemma inv_ok s p : Inv s -> In p (vd_params s) -> okp p.
Proof.
  intros [(ks & Hs & Hok) _] Hp. assert (In (blank p) (setup_blank ++ map (fun k => blank (fresh k)) ks)) as H by (rewrite <- Hs; apply in_map; exact Hp).
  cut (okp (blank p)); [exact (fun x => x)|].
  apply in_app_or in H. destruct H as [H|H].
  - exact (proj1 (Forall_forall _ _) setup_ok _ H).
  - apply in_map_iff in H. destruct H as (k & <- & Hk). rewrite Forall_forall in Hok. specialize (Hok k Hk).
    unfold okp. cbn. split; [|split; [|split; [|split]]]; try discriminate; try congruence.
    + intros d [H|[]]. subst k. auto.
    + intros k0 H. inv H. auto.
Qed.

(* ---- values ---- *)
Lemma value_find j s p : find_param j (vd_params s) = Some p -> value_of j s = p_val p.
Proof. intros H. unfold value_of. rewrite H. reflexivity. Qed.
Lemma find_app j l l' : find_param j (l ++ l') = match find_param j l with Some p => Some p | None => find_param j l' end.
Proof. unfold find_param. induction l as [|p l IH]; cbn; auto. destruct (ids_eqb (p_id p) j); auto. Qed.
Lemma find_get k s : exists p, find_param [key_id k] (vd_params (get_param k s)) = Some p.
Proof.
  unfold get_param. destruct (find_param [key_id k] (vd_params s)) eqn:E; [eauto|]. cbn. rewrite find_app, E.
  unfold find_param. cbn [find]. change (p_id (fresh k)) with [key_id k]. rewrite ids_eqb_refl. eauto.
Qed.
Lemma find_get_other k s j p : find_param j (vd_params s) = Some p -> find_param j (vd_params (get_param k s)) = Some p.
Proof. intros H. unfold get_param. destruct (find_param [key_id k] (vd_params s)); cbn; auto. rewrite find_app, H. reflexivity. Qed.
Lemma value_get j k s : value_of j (get_param k s) = value_of j s.
Proof.
  unfold get_param. destruct (find_param [key_id k] (vd_params s)) eqn:E; auto. unfold value_of. cbn. rewrite find_app.
  destruct (find_param j (vd_params s)); auto. unfold find_param. cbn [find]. case_if; reflexivity.
Qed.
Lemma value_raw_other j i v s : i <> j -> value_of j (fst (set_raw i v s)) = value_of j s.
Proof.
  intros H. unfold set_raw. destruct (find_param i (vd_params s)); auto. repeat case_if; auto.
  unfold value_of. cbn. rewrite find_write, ids_eqb_neq by congruence. destruct (find_param j (vd_params s)); reflexivity.
Qed.
Lemma value_raw_same i v s p : find_param i (vd_params s) = Some p -> well_typed p v = true -> value_of i (fst (set_raw i v s)) = v.
Proof.
  intros H Hw. unfold set_raw. rewrite H, Hw. cbn [negb]. case_if.
  - apply andb_true_iff in Heqb. destruct Heqb as [_ E]. apply jval_eqb_eq in E. cbn [fst]. rewrite (value_find _ _ _ H). exact E.
  - unfold value_of. cbn. rewrite find_write, ids_eqb_refl, H. reflexivity.
Qed.

(* The parameters changed by the callbacks *)
Definition internal : list (list vid) := [[ICc 47]; [ICc 32]; [IPc]; [INrpn [0; 1]]; [INrpn [0; 3]]; [INrpn [0; 11]]].
Lemma value_update_rig j date s : ~ In j internal -> value_of j (fst (update_rig date s)) = value_of j s.
Proof.
  intros H. unfold internal in H. cbn in H. unfold update_rig.
  pose proof (value_raw_other j [INrpn [0; 1]] (JStr (rig_name (get_rig_id s))) s) as H1.
  destruct (set_raw [INrpn [0; 1]] _ s) as [s1 o1]. pose proof (value_raw_other j [INrpn [0; 3]] (JStr date) s1) as H2.
  destruct (set_raw [INrpn [0; 3]] _ s1) as [s2 o2]. cbn [fst] in *. rewrite H2, H1; auto; intros E; subst j; tauto.
Qed.
Lemma value_set_rig j date id s : ~ In j internal -> value_of j (fst (set_rig_id date id s)) = value_of j s.
Proof.
  intros H. pose proof H as Hi. unfold internal in H. cbn in H. unfold set_rig_id.
  pose proof (value_raw_other j [ICc 32] (JNum (id / 128)) s) as H1.
  destruct (set_raw [ICc 32] _ s) as [s1 o1]. pose proof (value_raw_other j [IPc] (JNum (id mod 128)) s1) as H2.
  destruct (set_raw [IPc] _ s1) as [s2 o2]. pose proof (value_update_rig j date s2 Hi) as H3. destruct (update_rig date s2) as [s3 o3].
  cbn [fst] in *. rewrite H3, H2, H1; auto; intros E; subst j; tauto.
Qed.
Lemma value_run_cb j date p v s : ~ In j internal -> (p_cb p = CbTempo -> p_id p <> j) -> value_of j (fst (run_cb date p v s)) = value_of j s.
Proof.
  intros H Ht. pose proof H as Hi. unfold internal in H. cbn in H. unfold run_cb. destruct (p_cb p) eqn:Ecb; auto.
  - pose proof (value_raw_other j [ICc 47] JNull s) as H1. destruct (set_raw [ICc 47] JNull s) as [s1 o1]. cbn [fst] in H1.
    set (id := _ * 5 + _). case_if; [|apply H1; intros E; subst j; tauto].
    pose proof (value_set_rig j date id s1 Hi) as H2. destruct (set_rig_id date id s1) as [s2 o2]. cbn [fst] in H2.
    destruct (match vd_last s2 with Some l => l =? id | None => false end).
    + change (value_of j s2 = value_of j s). rewrite H2. apply H1. intros E. subst j. tauto.
    + pose proof (value_raw_other j [INrpn [0; 11]] (JNum 0) s2) as H4. destruct (set_raw [INrpn [0; 11]] _ s2) as [s3 o3]. cbn [fst] in *.
      change (value_of j s3 = value_of j s). rewrite H4, H2, H1; auto; intros E; subst j; tauto.
  - case_if; auto. apply value_set_rig. exact Hi.
  - apply value_update_rig. exact Hi.
  - destruct v; auto. case_if; auto. apply value_raw_other. auto.
Qed.
Lemma value_val_other j date i v s : ~ In j internal -> j <> [INrpn [4; 0]] -> Inv s -> i <> j -> value_of j (fst (set_val date i v s)) = value_of j s.
Proof.
  intros Hi Ht I Hne. unfold set_val. destruct (find_param i (vd_params s)) as [p|] eqn:E; auto.
  destruct (find_id _ _ _ E) as [Hid Hin]. repeat case_if; auto.
  assert (value_of j (mkD (write i v (vd_params s)) (vd_set s) (vd_last s)) = value_of j s) as H.
  { unfold value_of. cbn. rewrite find_write, ids_eqb_neq by congruence. destruct (find_param j (vd_params s)); reflexivity. }
  pose proof (value_run_cb j date p v (mkD (write i v (vd_params s)) (vd_set s) (vd_last s)) Hi) as Hc.
  destruct (run_cb date p v _) as [s1 o]. cbn [fst] in *. rewrite Hc; auto. intros Ec C.
  apply Ht. rewrite <- C. apply (inv_ok s p I Hin). exact Ec.
Qed.
Lemma value_val_same j date v s p : ~ In j internal -> j <> [INrpn [4; 0]] -> Inv s -> find_param j (vd_params s) = Some p -> well_typed p v = true ->
  value_of j (fst (set_val date j v s)) = v.
Proof.
  intros Hi Ht I E Hw. unfold set_val. rewrite E, Hw. cbn [negb]. destruct (find_id _ _ _ E) as [Hid Hin]. case_if.
  - apply andb_true_iff in Heqb. destruct Heqb as [_ Ev]. apply jval_eqb_eq in Ev. cbn [fst]. rewrite (value_find _ _ _ E). exact Ev.
  - pose proof (value_run_cb j date p v (mkD (write j v (vd_params s)) (vd_set s) (vd_last s)) Hi) as Hc.
    destruct (run_cb date p v _) as [s1 o]. cbn [fst] in *. rewrite Hc.
    + unfold value_of. cbn. rewrite find_write, ids_eqb_refl, E. reflexivity.
    + intros Ec C. apply Ht. rewrite <- C. apply (inv_ok s p I Hin). exact Ec.
Qed.

(* ---- which parameter accepts a message ---- *)
Lemma store_blank l m : parse_store (map blank l) m = parse_store l m.
Proof. induction l as [|p l IH]; [reflexivity|]. cbn [map parse_store].
  change (parse_param (blank p) m) with (parse_param p m). destruct (parse_param p m); [reflexivity|exact IH]. Qed.
Lemma store_some l m i a : parse_store l m = Some (i, a) -> exists p, In p l /\ p_id p = i /\ parse_param p m = Some a.
Proof.
  induction l as [|p l IH]; cbn; [discriminate|]. destruct (parse_param p m) eqn:E; intros H.
  - inv H. exists p. auto.
  - destruct (IH H) as (q & A & B). exists q. auto.
Qed.
Lemma store_none l m p : parse_store l m = None -> In p l -> parse_param p m = None.
Proof.
  induction l as [|q l IH]; cbn; [intros _ []|]. destruct (parse_param q m) eqn:E; [discriminate|]. intros H [->|Hp]; auto.
Qed.
Lemma keys_some str ks m a : parse_keys str ks m = Some a -> exists k, In k ks /\ parse_key str k m = Some a.
Proof.
  induction ks as [|k ks IH]; cbn; [discriminate|]. destruct (parse_key str k m) eqn:E; intros H.
  - inv H. eauto.
  - destruct (IH H) as (k' & A & B). eauto.
Qed.
Lemma keys_none str ks m k : parse_keys str ks m = None -> In k ks -> parse_key str k m = None.
Proof.
  induction ks as [|q ks IH]; cbn; [intros _ []|]. destruct (parse_key str q m) eqn:E; [discriminate|]. intros H [->|Hp]; auto.
Qed.
Lemma starts_app h d : starts_with h d = true -> exists t, d = h ++ t.
Proof. unfold starts_with. intros H. apply beqb_eq in H. exists (skipn (length h) d). rewrite <- H at 1. rewrite firstn_skipn. reflexivity. Qed.
Lemma starts_self h t : starts_with h (h ++ t) = true.
Proof. unfold starts_with. rewrite firstn_app, firstn_all, Nat.sub_diag, firstn_O, app_nil_r. apply beqb_eq. reflexivity. Qed.

(* a SysEx message of the family *)
Lemma accept_sysex s p man data a : Inv s -> In p (vd_params s) -> Forall data_byte data -> parse_param p (SysEx man data) = Some a ->
  man = [0; 32; 51] /\ exists x y t, p_id p = [INrpn [x; y]] /\ p_send p = Some (KNrpn [x; y]) /\
    ((a = ASend /\ data = [2; 127; code_request (p_str p); 0; x; y] ++ t) \/
     (a = ASet (eval_nrpn (p_str p) t) /\ data = [2; 127; code_set (p_str p); 0; x; y] ++ t)).
Proof.
  intros I Hp Hd H. apply keys_some in H. destruct H as (k & Hk & H). destruct k as [d| |]; cbn [parse_key] in H; try discriminate.
  destruct (bytes_eqb man [0; 32; 51]) eqn:Em; cbn [negb] in H; [|discriminate]. apply beqb_eq in Em. subst man. split; auto.
  destruct (inv_ok s p I Hp) as (Hn & _). destruct (Hn d Hk) as [Hs Hok].
  assert (forall c t, data = [2; 127; c; 0] ++ d ++ t -> exists x y, d = [x; y]) as Hxy.
  { intros c t E. subst data. destruct Hok as [Hl|Hin].
    - destruct d as [|x [|y [|]]]; try discriminate Hl. eauto.
    - exfalso. subst d. rewrite Forall_forall in Hd. specialize (Hd 247). unfold data_byte in Hd. assert (0 <= 247 < 128) by (apply Hd; cbn; tauto). lia. }
  case_if_in H.
  - inv H. apply starts_app in Heqb. destruct Heqb as (t & E). rewrite <- app_assoc in E. destruct (Hxy _ _ E) as (x & y & ->).
    exists x, y, t. unfold p_id. rewrite Hs. split; [reflexivity|split; [reflexivity|left; split; [reflexivity|exact E]]].
  - case_if_in H; [|discriminate]. inv H. apply starts_app in Heqb0. destruct Heqb0 as (t & E). rewrite <- app_assoc in E. destruct (Hxy _ _ E) as (x & y & ->).
    exists x, y, t. unfold p_id. rewrite Hs. split; [reflexivity|split; [reflexivity|right; split; [rewrite E; reflexivity|exact E]]].
Qed.

(* a control change: the parameters of the setup come first *)
Definition known_cc : list Z := [32; 47; 50; 51; 52; 53; 54; 48; 49; 30; 80].
Lemma setup_cc c v : parse_store setup_blank (CC c v) =
  match alias c with
  | Some (p, a) => Some ([INrpn [p; a]], ASet (JNum v))
  | None => if c =? 11 then Some ([INrpn [0; 11]], ASet (JNum (v * 128)))
            else if existsb (Z.eqb c) known_cc then Some ([ICc c], ASet (JNum v)) else None
  end.
Proof.
  assert (forall l, (In c l \/ ~ In c l)) as Hdec by (intros l; destruct (in_dec Z.eq_dec c l); auto).
  destruct (Hdec [17; 18; 19; 20; 22; 24; 26; 27; 28; 29; 31; 11; 32; 47; 50; 51; 52; 53; 54; 48; 49; 30; 80]) as [H|H].
  - cbn in H. repeat destruct H as [H|H]; try contradiction; subst c; reflexivity.
  - assert (alias c = None) as ->.
    { unfold alias. repeat match goal with |- context [match ?x with _ => _ end] => destruct x; try reflexivity; try (exfalso; apply H; cbn; tauto) end. }
    assert (existsb (Z.eqb c) known_cc = false) as ->.
    { apply not_true_iff_false. intros E. apply existsb_exists in E. destruct E as (x & Hx & E). apply Z.eqb_eq in E. subst x. apply H. cbn in *. tauto. }
    assert ((c =? 11) = false) as -> by (apply Z.eqb_neq; intros E; apply H; cbn; lia).
    assert (forall x, In x [17; 18; 19; 20; 22; 24; 26; 27; 28; 29; 31; 11; 32; 47; 50; 51; 52; 53; 54; 48; 49; 30; 80] -> (x =? c) = false) as Hx.
    { intros x Hx. apply Z.eqb_neq. intros E. subst x. contradiction. }
    let l := eval vm_compute in setup_blank in change setup_blank with l.
    unfold parse_store, parse_param. cbn [p_recv p_str parse_keys parse_key].
    rewrite !Hx by (cbn; tauto). reflexivity.
Qed.

Definition addr (p a : Z) : list vid := [INrpn [p; a]].
Lemma addr_inj p a x y : addr p a = addr x y <-> p = x /\ a = y.
Proof. unfold addr. split; [intros H; inv H; auto|intros [-> ->]; reflexivity]. Qed.
Lemma at_addr_true p a x y : at_addr p a (x, y) = true <-> x = p /\ y = a.
Proof. unfold at_addr. cbn. lia. Qed.
Lemma ordinary_free p a : ordinary p a -> ~ In (addr p a) internal /\ addr p a <> [INrpn [4; 0]] /\
  ~ In (addr p a) [[INrpn [0; 16]]; [INrpn [0; 1]]; [INrpn [0; 3]]].
Proof.
  unfold ordinary, internal, addr. cbn. intros H. repeat split; intros C; apply H.
  - repeat destruct C as [C|C]; try contradiction; inv C; tauto.
  - inv C. tauto.
  - repeat destruct C as [C|C]; try contradiction; inv C; tauto.
Qed.
Lemma ordinary_num s p a q : Inv s -> ordinary p a -> find_param (addr p a) (vd_params s) = Some q -> p_str q = false /\ p_send q = Some (KNrpn [p; a]).
Proof.
  intros I Ho E. destruct (find_id _ _ _ E) as [Hid Hin]. destruct (inv_ok s q I Hin) as (Hn & Hs & _ & Ht & _). split.
  - destruct (p_str q) eqn:Es; auto. exfalso. destruct (ordinary_free p a Ho) as (_ & _ & H). apply H. rewrite <- Hid. apply Ht. reflexivity.
  - unfold p_id in Hid. destruct (p_send q) as [k|] eqn:Ek.
    + destruct k; inv Hid. reflexivity.
    + exfalso. destruct (p_recv q) as [|k [|]] eqn:Er; cbn in Hid; try discriminate. destruct k; inv Hid.
      destruct (Hn [p; a] (or_introl eq_refl)). discriminate.
Qed.

Lemma set_addr s date p a x y v : Inv s -> ordinary p a -> find_param (addr x y) (vd_params s) <> None ->
  value_of (addr p a) (fst (set_val date (addr x y) (JNum v) s)) = if at_addr p a (x, y) then JNum v else value_of (addr p a) s.
Proof.
  intros I Ho Hf. destruct (ordinary_free p a Ho) as (H1 & H2 & _). destruct (at_addr p a (x, y)) eqn:E.
  - apply at_addr_true in E. destruct E as [-> ->]. destruct (find_param (addr p a) (vd_params s)) as [q|] eqn:Eq; [|congruence].
    apply (value_val_same _ date (JNum v) s q H1 H2 I Eq). cbn. rewrite (proj1 (ordinary_num s p a q I Ho Eq)). reflexivity.
  - apply value_val_other; auto. intros C. apply addr_inj in C. destruct C as [-> ->]. unfold at_addr in E. cbn in E. lia.
Qed.

Lemma store_inv s m i a : Inv s -> parse_store (vd_params s) m = Some (i, a) ->
  exists p, In p (vd_params s) /\ p_id p = i /\ find_param i (vd_params s) = Some p /\ parse_param p m = Some a.
Proof.
  intros I H. apply store_some in H. destruct H as (p & Hp & Hi & Ha). exists p. repeat split; auto. subst i. apply find_in; [apply I|exact Hp].
Qed.
Lemma store_app b l m : parse_store (b ++ l) m = match parse_store b m with Some x => Some x | None => parse_store l m end.
Proof. induction b as [|p b IH]; auto. cbn [app parse_store]. destruct (parse_param p m); auto. Qed.
Lemma store_cc s c v : Inv s ->
  match parse_store (vd_params s) (CC c v) with
  | Some (i, a) => (exists x y, alias c = Some (x, y) /\ i = addr x y /\ a = ASet (JNum v)) \/
                   (alias c = None /\ c = 11 /\ i = addr 0 11 /\ a = ASet (JNum (v * 128))) \/ (alias c = None /\ i = [ICc c] /\ a = ASet (JNum v))
  | None => alias c = None /\ c <> 11 /\ ~ In c known_cc
  end.
Proof.
  intros [(ks & Hs & Hok) _]. rewrite <- store_blank, Hs.
  rewrite store_app, setup_cc. destruct (alias c) as [[x y]|] eqn:Ea.
  - left. exists x, y. auto.
  - destruct (c =? 11) eqn:E11; [right; left; repeat split; lia|]. destruct (existsb (Z.eqb c) known_cc) eqn:Ek; [right; right; auto|].
    assert (~ In c known_cc) as Hk.
    { intros C. apply not_true_iff_false in Ek. apply Ek. apply existsb_exists. exists c. split; [exact C|apply Z.eqb_refl]. }
    clear Hs. induction ks as [|k ks IH]; cbn [map parse_store]; [repeat split; auto; lia|]. inv Hok.
    destruct (parse_param (blank (fresh k)) (CC c v)) eqn:Ep; [|apply IH; auto].
    destruct k as [d|c' sc|]; cbn in Ep; try discriminate. destruct (c' =? c) eqn:Ec; [|discriminate]. apply Z.eqb_eq in Ec. subst c'.
    cbn in H1. subst sc. inv Ep. right. right. auto.
Qed.
Lemma store_pc s v : Inv s -> parse_store (vd_params s) (PC v) = Some ([IPc], ASet (JNum v)).
Proof. intros [(ks & Hs & Hok) _]. rewrite <- store_blank, Hs. reflexivity. Qed.

Lemma find_ordinary_get s k p a : find_param (addr p a) (vd_params (get_param k s)) <> None -> find_param (addr p a) (vd_params s) <> None \/ key_id k = INrpn [p; a].
Proof.
  unfold get_param. destruct (find_param [key_id k] (vd_params s)); auto. cbn. rewrite find_app. destruct (find_param (addr p a) (vd_params s)); [left; congruence|].
  intros H. right. unfold find_param in H. cbn [find] in H. change (p_id _) with [key_id k] in H. destruct (ids_eqb [key_id k] (addr p a)) eqn:E; [|congruence].
  apply ids_eqb_eq in E. unfold addr in E. congruence.
Qed.

Lemma okkey_proper k : proper_key k -> okkey k. Proof. destruct k; cbn; auto. Qed.
Lemma okkey_default data h : length h = 4%nat -> starts_with h data = true -> okkey (KNrpn (firstn 2 (skipn 4 (data ++ [247])))).
Proof.
  intros Hh H. apply starts_app in H. destruct H as (t & ->). destruct h as [|h0 [|h1 [|h2 [|h3 [|]]]]]; try discriminate. cbn.
  destruct t as [|x [|y t]]; cbn; auto.
Qed.
Lemma find_num s p a q : Inv s -> find_param (addr p a) (vd_params s) = Some q ->
  p_send q = Some (KNrpn [p; a]) /\ In (KNrpn [p; a]) (p_recv q).
Proof.
  intros I E. destruct (find_id _ _ _ E) as [Hid Hin]. destruct (inv_ok s q I Hin) as (Hn & Hs & _ & Ht & _).
  assert (p_send q = Some (KNrpn [p; a])) as H; [|auto].
  unfold p_id in Hid. destruct (p_send q) as [k|] eqn:Ek.
  - destruct k; inv Hid. reflexivity.
  - exfalso. destruct (p_recv q) as [|k [|]] eqn:Er; cbn in Hid; try discriminate. destruct k; inv Hid.
    destruct (Hn [p; a] (or_introl eq_refl)). discriminate.
Qed.

(* ---- every operation keeps the invariant ---- *)
Lemma inv_act date i a s : Inv s -> Inv (fst (act date i a s)).
Proof. intros I. exact (inv_same _ _ (same_act date i a s) I). Qed.
Lemma inv_get_and_parse date k m s : okkey k -> Inv s -> Inv (fst (get_and_parse date k m s)).
Proof.
  intros Hk I. unfold get_and_parse. assert (Inv (get_param k s)) as I1 by (apply inv_get; auto).
  destruct (find_param [key_id k] (vd_params (get_param k s))) as [p|]; auto. destruct (parse_param p m); auto. apply inv_act. exact I1.
Qed.
Lemma inv_default date str m s r : Inv s -> parse_default date str m s = Some r -> Inv (fst r).
Proof.
  intros I H. unfold parse_default in H. destruct m as [c v|v|man data| |]; try discriminate.
  - inv H. apply inv_get_and_parse; auto. reflexivity.
  - inv H. apply inv_get_and_parse; auto. exact Logic.I.
  - destruct (negb (bytes_eqb man [0; 32; 51])); [discriminate|]. cbv zeta in H. case_if_in H.
    + inv H. cbn [fst]. apply inv_get; [|exact I]. eapply okkey_default; [|exact Heqb]; reflexivity.
    + case_if_in H; [|discriminate]. inv H. apply inv_get_and_parse; [|exact I]. eapply okkey_default; [|exact Heqb0]; reflexivity.
Qed.
Lemma inv_step s o : proper o -> Inv s -> Inv (fst (vd_step s o)).
Proof.
  intros Hp I. destruct o as [m date|k v date|id date|k|x init|]; cbn [vd_step].
  - unfold receive_msg. destruct (parse_store (vd_params s) m) as [[i a]|]; [apply inv_act; auto|].
    destruct (parse_default date false m s) eqn:E1; [apply (inv_default _ _ _ _ _ I E1)|].
    destruct (parse_default date true m s) eqn:E2; [apply (inv_default _ _ _ _ _ I E2)|]. exact I.
  - apply (inv_same _ _ (same_set_val date _ v _)). apply inv_get; auto. apply okkey_proper, Hp.
  - exact (inv_same _ _ (same_set_rig date id s) I).
  - apply inv_act. apply inv_get; auto. apply okkey_proper, Hp.
  - destruct I as [A B]. constructor; cbn; auto.
  - destruct I as [A B]. constructor; cbn; auto.
Qed.
Lemma inv_new date : Inv (vdev_new date).
Proof.
  constructor.
  - exists []. split; [reflexivity|constructor].
  - cbn. repeat (apply NoDup_cons; [cbn; intros H; repeat destruct H as [H|H]; try discriminate H; try contradiction|]). apply NoDup_nil.
Qed.
Lemma inv_after date ops : Forall proper ops -> Inv (vd_after date ops).
Proof.
  unfold vd_after. induction ops as [|o ops IH] using rev_ind_snoc; intros H; [apply inv_new|].
  apply Forall_app in H. destruct H as [H1 H2]. rewrite run_snoc. cbn [fst]. apply inv_step; [apply (Forall_inv H2)|auto].
Qed.

(* ---- the memory ---- *)
Lemma step_value s o p a : Inv s -> proper o -> ordinary p a ->
  value_of (addr p a) (fst (vd_step s o)) = match written p a o with Some v => JNum v | None => value_of (addr p a) s end.
Proof.
  intros I Hp Ho. destruct (ordinary_free p a Ho) as (H1 & H2 & H3). destruct o as [m date|k v date|id date|k|x init|]; cbn [vd_step written].
  - unfold receive_msg. destruct m as [c v|v|man data|n|n].
    + pose proof (store_cc s c v I) as Hc. destruct (parse_store (vd_params s) (CC c v)) as [[i ac]|] eqn:Es.
      * destruct (store_inv _ _ _ _ I Es) as (q & Hq & Hid & Hf & Ha).
        destruct Hc as [(x & y & -> & -> & ->)|[(-> & -> & -> & ->)|(-> & -> & ->)]]; cbn [act].
        -- rewrite set_addr; auto; [|congruence]. destruct (at_addr p a (x, y)); reflexivity.
        -- apply value_val_other; auto. intros C. apply H1. rewrite <- C. unfold internal, addr. cbn. tauto.
        -- apply value_val_other; auto. discriminate.
      * destruct Hc as (-> & _ & _). cbn [parse_default]. unfold get_and_parse. destruct (find_get (KCc c None) s) as (q & Hq). rewrite Hq.
        destruct (parse_param q (CC c v)) as [ac|]; [|apply value_get]. destruct ac; cbn [act]; [apply value_get|].
        rewrite value_val_other; auto; [apply value_get|apply inv_get; [reflexivity|exact I]|discriminate].
    + rewrite (store_pc s v I). cbn [act]. apply value_val_other; auto. discriminate.
    + destruct Hp as [Hd Hl]. destruct (parse_store (vd_params s) (SysEx man data)) as [[i ac]|] eqn:Es.
      * destruct (store_inv _ _ _ _ I Es) as (q & Hq & Hid & Hf & Ha).
        destruct (accept_sysex s q man data ac I Hq Hd Ha) as (-> & x & y & t & Hi & Hsd & [[-> ->]|[-> ->]]).
        -- cbn [act fst]. change (bytes_eqb [0; 32; 51] [0; 32; 51]) with true. destruct (p_str q); reflexivity.
        -- change (bytes_eqb [0; 32; 51] [0; 32; 51]) with true. cbn [act]. rewrite Hid in Hi. rewrite Hi in *. fold (addr x y) in *. destruct (p_str q) eqn:Est.
           ++ change (bytes_eqb (firstn 4 ([2; 127; code_set true; 0; x; y] ++ t)) [2; 127; 1; 0]) with false. cbn [andb].
              apply value_val_other; auto. intros C. rewrite C in Hf. destruct (ordinary_num s p a q I Ho Hf). congruence.
           ++ change (bytes_eqb (firstn 4 ([2; 127; code_set false; 0; x; y] ++ t)) [2; 127; 1; 0]) with true. cbn [andb].
              change (skipn 4 ([2; 127; code_set false; 0; x; y] ++ t)) with (x :: y :: t).
              pose proof (Hl eq_refl) as Hlen.
              destruct t as [|hi [|lo t]]; cbn in Hlen; try lia. cbn [eval_nrpn].
              rewrite set_addr; auto; [|congruence]. destruct (at_addr p a (x, y)); reflexivity.
      * destruct (bytes_eqb man [0; 32; 51]) eqn:Em.
        2:{ unfold parse_default. rewrite Em. reflexivity. }
        apply beqb_eq in Em. subst man. cbn [andb].
        unfold parse_default. change (bytes_eqb [0; 32; 51] [0; 32; 51]) with true. cbn [negb]. cbv zeta.
        set (k := KNrpn (firstn 2 (skipn 4 (data ++ [247])))).
        assert (forall str, starts_with [2; 127; code_request str; 0] data = true -> bytes_eqb (firstn 4 data) [2; 127; 1; 0] = false) as Hr.
        { intros str H. apply starts_app in H. destruct H as (t & ->). destruct str; reflexivity. }
        destruct (starts_with [2; 127; code_request false; 0] data) eqn:E1.
        { rewrite (Hr _ E1). cbn [fst]. apply value_get. }
        destruct (starts_with [2; 127; code_set false; 0] data) eqn:E2.
        -- pose proof E2 as E2'. unfold starts_with in E2. change (length [2; 127; code_set false; 0]) with 4%nat in E2. cbn [code_set] in E2. rewrite E2.
           apply beqb_eq in E2. specialize (Hl E2). apply starts_app in E2'. destruct E2' as (t & ->). cbn [code_set] in *.
           destruct t as [|x [|y [|hi [|lo t]]]]; cbn in Hl; try lia. change (skipn 4 ([2; 127; 1; 0] ++ x :: y :: hi :: lo :: t)) with (x :: y :: hi :: lo :: t).
           change k with (nkey x y). unfold get_and_parse. assert (Inv (get_param (nkey x y) s)) as I1 by (apply inv_get; [left; reflexivity|exact I]).
           change [key_id (nkey x y)] with (addr x y). destruct (find_get (nkey x y) s) as (q & Hq). change [key_id (nkey x y)] with (addr x y) in Hq. rewrite Hq.
           destruct (find_num _ _ _ _ I1 Hq) as [Hs' Hr'].
           destruct (parse_param q (SysEx [0; 32; 51] ([2; 127; 1; 0] ++ x :: y :: hi :: lo :: t))) as [ac|] eqn:Ep.
           ++ destruct (accept_sysex _ q _ _ ac I1 (proj2 (find_id _ _ _ Hq)) Hd Ep) as (_ & x' & y' & t' & Hi & Hsd & [[-> E]|[-> E]]).
              ** destruct (p_str q); inv E.
              ** destruct (p_str q); inv E. cbn [eval_nrpn act]. rewrite set_addr; auto; [|congruence]. rewrite value_get. destruct (at_addr p a (x', y')); reflexivity.
           ++ cbn [fst]. rewrite value_get. destruct (at_addr p a (x, y)) eqn:Eat; auto. exfalso. apply at_addr_true in Eat. destruct Eat as [-> ->].
              destruct (ordinary_num _ _ _ _ I1 Ho Hq) as [Hstr _]. pose proof (keys_none _ _ _ _ Ep Hr') as Hk. rewrite Hstr in Hk. cbn in Hk.
              unfold starts_with in Hk. cbn in Hk. rewrite !Z.eqb_refl in Hk. cbn in Hk. discriminate.
        -- assert (bytes_eqb (firstn 4 data) [2; 127; 1; 0] = false) as -> by exact E2.
           destruct (starts_with [2; 127; code_request true; 0] data) eqn:E3; [apply value_get|].
           destruct (starts_with [2; 127; code_set true; 0] data) eqn:E4; [|reflexivity].
           unfold get_and_parse. destruct (find_get k s) as (q & Hq). rewrite Hq.
           assert (Inv (get_param k s)) as I1 by (apply inv_get; [eapply okkey_default; [|exact E4]; reflexivity|exact I]).
           destruct (parse_param q (SysEx [0; 32; 51] data)) as [ac|] eqn:Ep; [|apply value_get].
           destruct (accept_sysex _ q _ _ ac I1 (proj2 (find_id _ _ _ Hq)) Hd Ep) as (_ & x & y & t & Hi & Hsd & [[-> E]|[-> E]]); [apply value_get|].
           rewrite E in E2, E4. destruct (p_str q) eqn:Est; [|discriminate E2]. cbn [act].
           rewrite value_val_other; auto; [apply value_get|]. rewrite (proj1 (find_id _ _ _ Hq)) in Hi. rewrite Hi in Hq |- *. intros C. change [INrpn [x; y]] with (addr x y) in *. rewrite C in Hq.
           destruct (ordinary_num _ _ _ _ I1 Ho Hq). congruence.
    + assert (parse_store (vd_params s) (OtherMsg n) = None) as ->; [|reflexivity].
      destruct (parse_store _ _) as [[i ac]|] eqn:E; auto. apply store_some in E. destruct E as (q & _ & _ & E). apply keys_some in E. destruct E as (k & _ & E). destruct k; discriminate.
    + assert (parse_store (vd_params s) (UnknownMsg n) = None) as ->; [|reflexivity].
      destruct (parse_store _ _) as [[i ac]|] eqn:E; auto. apply store_some in E. destruct E as (q & _ & _ & E). apply keys_some in E. destruct E as (k & _ & E). destruct k; discriminate.
  - destruct Hp as [Hk Hv]. assert (Inv (get_param k s)) as I1 by (apply inv_get; [apply okkey_proper, Hk|exact I]).
    destruct k as [d|c sc|]; cbn [key_id].
    + destruct d as [|x [|y [|]]]; try discriminate Hk. change [INrpn [x; y]] with (addr x y). destruct (find_get (nkey x y) s) as (q & Hq). change [key_id (nkey x y)] with (addr x y) in Hq. change (KNrpn [x; y]) with (nkey x y).
      destruct v as [|n|t]; [congruence| |].
      * rewrite set_addr; auto; [|congruence]. rewrite value_get. destruct (at_addr p a (x, y)); reflexivity.
      * destruct (list_eq_dec Z.eq_dec [x; y] [p; a]) as [E|E].
        -- inv E. unfold set_val. rewrite Hq. destruct (ordinary_num _ _ _ _ I1 Ho Hq) as [Hs _]. case_if; [apply value_get|]. cbn [well_typed]. rewrite Hs. apply value_get.
        -- rewrite value_val_other; auto; [apply value_get|]. intros C. apply addr_inj in C. apply E. destruct C as [-> ->]. reflexivity.
    + destruct v; (rewrite value_val_other by (auto; discriminate); apply value_get).
    + destruct v; (rewrite value_val_other by (auto; discriminate); apply value_get).
  - apply value_set_rig. exact H1.
  - cbn. apply value_get.
  - reflexivity.
  - reflexivity.
Qed.

Lemma memory date ops p a : Forall proper ops -> ordinary p a -> value_of (addr p a) (vd_after date ops) = JNum (remembered p a ops).
Proof.
  intros Hp Ho. induction ops as [|ops o IH] using rev_ind_snoc.
  - unfold remembered, vd_after. cbn [run fold_left fst]. destruct (ordinary_free p a Ho) as (H1 & H2 & H3).
    destruct (find_param (addr p a) (setup_params date)) as [q|] eqn:E.
    + pose proof (value_find (addr p a) (vdev_new date) q E) as Hv. rewrite Hv. destruct (find_id _ _ _ E) as [Hid Hin].
      unfold setup_params in Hin. cbn in Hin. repeat destruct Hin as [Hin|Hin]; try contradiction; subst q; cbn in Hid; unfold addr in Hid; inv Hid; try reflexivity;
        exfalso; apply Ho; cbn; tauto.
    + assert (initially p a = 0) as ->.
      { assert (~ In (p, a) [(60, 0); (60, 3); (61, 0); (61, 3); (50, 0); (50, 3); (51, 0); (51, 3); (52, 0); (53, 0);
          (53, 3); (56, 0); (56, 3); (58, 0); (58, 3); (124, 15)]) as Hall.
        { intros Hin. cbn in Hin. repeat destruct Hin as [Hin|Hin]; try contradiction; inv Hin; discriminate E. }
        clear - Hall. unfold initially.
        repeat match goal with |- context [match ?x with _ => _ end] => is_var x; destruct x; try reflexivity end; exfalso; apply Hall; cbn; tauto. }
      unfold value_of. change (vd_params (vdev_new date)) with (setup_params date). rewrite E. reflexivity.
  - apply Forall_app in Hp. destruct Hp as [Hp1 Hp2]. unfold vd_after. rewrite run_snoc. cbn [fst]. fold (vd_after date ops).
    rewrite step_value; [|apply inv_after; auto|apply (Forall_inv Hp2)|exact Ho]. unfold remembered. rewrite fold_left_snoc. fold (remembered p a ops).
    rewrite (IH Hp1). destruct (written p a o); reflexivity.
Qed.

(* ---- answers ---- *)
Definition answer_msg (p a n : Z) : msg := SysEx [0; 32; 51] [0; 0; 1; 0; p; a; n / 128; n mod 128].
Lemma send_ordinary s p a q n : Inv s -> ordinary p a -> find_param (addr p a) (vd_params s) = Some q -> value_of (addr p a) s = JNum n ->
  opt_list (send_msg q) = [answer_msg p a n].
Proof.
  intros I Ho Hq Hv. destruct (ordinary_num s p a q I Ho Hq) as [Hs Hk]. rewrite (value_find _ _ _ Hq) in Hv.
  unfold send_msg. rewrite Hs, Hk, Hv. reflexivity.
Qed.
Lemma ask_answer s p a d n : Inv s -> ordinary p a -> data_byte p -> data_byte a -> value_of (addr p a) s = JNum n ->
  snd (receive_msg d (ask p a) s) = [answer_msg p a n].
Proof.
  intros I Ho Hp Ha Hv. unfold receive_msg.
  assert (Forall data_byte [2; 127; 65; 0; p; a]) as Hd by (repeat constructor; unfold data_byte in *; lia).
  destruct (parse_store (vd_params s) (ask p a)) as [[i ac]|] eqn:E.
  - destruct (store_inv _ _ _ _ I E) as (q & Hq & Hid & Hf & Hac).
    destruct (accept_sysex s q _ _ ac I Hq Hd Hac) as (_ & x & y & t & Hi & Hsd & [[-> E2]|[-> E2]]); destruct (p_str q) eqn:Es; inv E2.
    fold (addr x y) in Hi. rewrite Hi in Hf. cbn [act snd]. rewrite Hi, Hf. apply (send_ordinary s x y q n I Ho Hf Hv).
  - cbn [parse_default ask nrpn negb]. change (negb (bytes_eqb [0; 32; 51] [0; 32; 51])) with false. cbv iota. cbv zeta.
    change (starts_with [2; 127; code_request false; 0] [2; 127; f_request_single; 0; p; a]) with true. cbv iota.
    change (KNrpn (firstn 2 (skipn 4 ([2; 127; f_request_single; 0; p; a] ++ [247])))) with (nkey p a).
    destruct (find_get (nkey p a) s) as (q & Hq). change [key_id (nkey p a)] with (addr p a) in *. cbn [snd]. rewrite Hq.
    apply (send_ordinary (get_param (nkey p a) s)); auto; [apply inv_get; [left; reflexivity|exact I]|]. rewrite value_get. exact Hv.
Qed.

(* ---- the firmware's side ---- *)
Definition resp_of (m : mapping) : option msg := match response_t m with TOne r => Some r | _ => None end.
Definition listen (t : ptype) (r : option msg) (v : option value) (ms : list msg) : option value :=
  fold_left (fun v x => match parse_against t x r with Ok (Some v') => Some v' | _ => v end) ms v.
Lemma hear_plain ms : forall m, two_part m = false -> val (hear m ms) = listen (typ m) (resp_of m) (val m) ms.
Proof.
  induction ms as [|x ms IH]; intros m H; [reflexivity|]. unfold hear, listen. cbn [fold_left]. fold (hear (match parse m x with Ok (m', _) => m' | Raise => m end) ms).
  unfold parse at 1. rewrite H. unfold parse_plain. fold (resp_of m).
  destruct (parse_against (typ m) x (resp_of m)) as [[v|]|]; apply IH; exact H.
Qed.
Definition resp_num (p a : Z) (r : option msg) : Prop := exists rd, r = Some (SysEx [0; 32; 51] rd) /\ slice rd 2 6 = [1; 0; p; a].
Lemma listen_answer p a r v n : resp_num p a r -> listen Numeric r v [answer_msg p a n] = Some (VNum n).
Proof.
  intros (rd & -> & Hr). unfold listen, answer_msg. cbn [fold_left parse_against]. change (bytes_eqb [0; 32; 51] [0; 32; 51]) with true. rewrite Hr.
  change (slice [0; 0; 1; 0; p; a; n / 128; n mod 128] 2 6) with [1; 0; p; a].
  assert (bytes_eqb [1; 0; p; a] [1; 0; p; a] = true) as -> by (apply beqb_eq; reflexivity). cbn. do 2 f_equal. lia.
Qed.
Lemma told_nrpn k p a v : k_set (kemper k) = TOne (nrpn 1 p a) -> k_type (kemper k) = Numeric -> is_byte p = true -> is_byte a = true -> 0 <= v < 16384 ->
  told k v = Some (SysEx [0; 32; 51] [2; 127; 1; 0; p; a; v / 128; v mod 128]).
Proof.
  intros Hs Ht Hp Ha Hv. unfold told, set_value, mapping_of. cbn [set_t typ]. rewrite Hs, Ht. cbn [set_value_one nrpn].
  change (set_nth 7 (v mod 128) (set_nth 6 (v / 128) (pad8 [2; 127; 1; 0; p; a]))) with [2; 127; 1; 0; p; a; v / 128; v mod 128].
  assert (forallb is_byte [2; 127; 1; 0; p; a; v / 128; v mod 128] = true) as ->; [|reflexivity].
  cbn [forallb]. rewrite Hp, Ha. unfold is_byte. lia.
Qed.
Lemma written_nrpn p a v d : written p a (VRecv (SysEx [0; 32; 51] [2; 127; 1; 0; p; a; v / 128; v mod 128]) d) = Some v.
Proof. cbn. unfold at_addr. cbn. rewrite !Z.eqb_refl. cbn. f_equal. lia. Qed.
Lemma requested k p a : k_request (kemper k) = TOne (ask p a) -> ordinary p a ->
  two_part (mapping_of k) = false /\ typ (mapping_of k) = Numeric /\ resp_num p a (resp_of (mapping_of k)) /\
  (forall v, 0 <= v < 16384 -> match told k v with Some m => forall d, written p a (VRecv m d) = Some v | None => True end).
Proof.
  intros H Ho. destruct k; try destruct s; try destruct r; cbn in H; try discriminate H; inv H; try (exfalso; apply Ho; cbn; tauto).
  all: split; [reflexivity|split; [reflexivity|split; [eexists; split; reflexivity|]]].
  all: intros w Hw; try exact Logic.I.
  all: match goal with
       | Hw : 0 <= ?w < 16384 |- context [told ?k ?w] => first [rewrite (told_nrpn k _ _ w eq_refl eq_refl eq_refl eq_refl Hw); intros d; apply written_nrpn | intros d; reflexivity]
       end.
Qed.
Lemma read_back date ops k p a now : Forall proper ops -> k_request (kemper k) = TOne (ask p a) -> ordinary p a -> data_byte p -> data_byte a ->
  heard k (answers date ops (ask p a) now) = Some (VNum (remembered p a ops)).
Proof.
  intros Hp Hk Ho Hbp Hba. destruct (requested k p a Hk Ho) as (H1 & H2 & H3 & _). unfold heard, answers.
  rewrite hear_plain by exact H1. cbn [vd_step]. rewrite (ask_answer _ p a now _ (inv_after date ops Hp) Ho Hbp Hba (memory date ops p a Hp Ho)).
  rewrite H2. apply listen_answer. exact H3.
Qed.
Lemma set_remembered ops k p a v m d : k_request (kemper k) = TOne (ask p a) -> ordinary p a -> 0 <= v < 16384 -> told k v = Some m ->
  remembered p a (ops ++ [VRecv m d]) = v.
Proof.
  intros Hk Ho Hv Hm. destruct (requested k p a Hk Ho) as (_ & _ & _ & H). specialize (H v Hv). rewrite Hm in H.
  unfold remembered. rewrite fold_left_snoc, H. reflexivity.
Qed.

(* ---- pushed parameters ---- *)
Section Push.
Variables (p a : Z) (r : option msg).
Hypothesis Hbyte : data_byte p /\ data_byte a.
Hypothesis Ho : ordinary p a.
Hypothesis Hr : resp_num p a r.
Notation j := (addr p a).
Notation h := (listen Numeric r).

Lemma listen_app v m1 m2 : h v (m1 ++ m2) = h (h v m1) m2. Proof. apply fold_left_app. Qed.
Definition silent (ms : list msg) : Prop := forall v, h v ms = v.
Lemma silent_nil : silent []. Proof. intros v. reflexivity. Qed.
Lemma silent_app m1 m2 : silent m1 -> silent m2 -> silent (m1 ++ m2).
Proof. intros A B v. rewrite listen_app, A, B. reflexivity. Qed.
Lemma silent_param s q : Inv s -> In q (vd_params s) -> p_id q <> j -> silent (opt_list (send_msg q)).
Proof.
  intros I Hq Hid. destruct (inv_ok s q I Hq) as (Hn & Hs & _). destruct Hr as (rd & Er & Hrd).
  assert (forall d t, p_send q = Some (KNrpn d) -> silent [SysEx [0; 32; 51] ([0; 0; code_set (p_str q); 0] ++ d ++ t)]) as Hm.
  { intros d t E v. unfold listen. rewrite Er. cbn [fold_left parse_against]. change (bytes_eqb [0; 32; 51] [0; 32; 51]) with true. cbn [negb]. rewrite Hrd.
    destruct (bytes_eqb (slice ([0; 0; code_set (p_str q); 0] ++ d ++ t) 2 6) [1; 0; p; a]) eqn:Eb; [|reflexivity]. exfalso. apply beqb_eq in Eb.
    destruct (Hn d (Hs _ E)) as [_ [Hl| ->]].
    - destruct d as [|x [|y [|]]]; try discriminate Hl. cbn in Eb. inv Eb. apply Hid. unfold p_id. rewrite E. reflexivity.
    - destruct t; cbn in Eb; inv Eb; destruct Hbyte; unfold data_byte in *; lia. }
  unfold send_msg. destruct (p_send q) as [[d|c sc|]|] eqn:Es; try apply silent_nil; destruct (p_val q) as [|n|t]; try apply silent_nil; try (apply Hm; reflexivity).
  - intros v. unfold listen. rewrite Er. destruct v; reflexivity.
  - intros v. unfold listen. rewrite Er. destruct v; reflexivity.
Qed.
Lemma silent_push i s : Inv s -> i <> j -> silent (push_msgs i s).
Proof.
  intros I Hi. unfold push_msgs. destruct (find_param i (vd_params s)) as [q|] eqn:E; [|apply silent_nil]. destruct (find_id _ _ _ E) as [A B].
  destruct (in_set s q); [|apply silent_nil]. apply (silent_param s q I B). congruence.
Qed.
Lemma silent_raw i v s : Inv s -> i <> j -> silent (snd (set_raw i v s)).
Proof.
  intros I Hi. unfold set_raw. destruct (find_param i (vd_params s)) as [q|]; [|apply silent_nil]. repeat case_if; try apply silent_nil.
  cbn [snd]. apply silent_push; auto. apply (inv_same s); auto. split; cbn; auto. apply blank_write.
Qed.
Lemma silent_update_rig date s : Inv s -> silent (snd (update_rig date s)).
Proof.
  intros I. destruct (ordinary_free p a Ho) as (H1 & _). unfold internal in H1. cbn in H1. unfold update_rig.
  pose proof (silent_raw [INrpn [0; 1]] (JStr (rig_name (get_rig_id s))) s I) as A1. pose proof (inv_same _ _ (same_set_raw [INrpn [0; 1]] (JStr (rig_name (get_rig_id s))) s) I) as I1.
  destruct (set_raw [INrpn [0; 1]] _ s) as [s1 o1]. cbn [fst snd] in *. pose proof (silent_raw [INrpn [0; 3]] (JStr date) s1 I1) as A2.
  destruct (set_raw [INrpn [0; 3]] _ s1) as [s2 o2]. cbn [fst snd] in *. apply silent_app; [apply A1|apply A2]; intros E; rewrite <- E in H1; tauto.
Qed.
Lemma silent_set_rig date id s : Inv s -> silent (snd (set_rig_id date id s)).
Proof.
  intros I. destruct (ordinary_free p a Ho) as (H1 & _). unfold internal in H1. cbn in H1. unfold set_rig_id.
  pose proof (silent_raw [ICc 32] (JNum (id / 128)) s I) as A1. pose proof (inv_same _ _ (same_set_raw [ICc 32] (JNum (id / 128)) s) I) as I1.
  destruct (set_raw [ICc 32] _ s) as [s1 o1]. cbn [fst snd] in *. pose proof (silent_raw [IPc] (JNum (id mod 128)) s1 I1) as A2.
  pose proof (inv_same _ _ (same_set_raw [IPc] (JNum (id mod 128)) s1) I1) as I2. destruct (set_raw [IPc] _ s1) as [s2 o2]. cbn [fst snd] in *.
  pose proof (silent_update_rig date s2 I2) as A3. destruct (update_rig date s2) as [s3 o3]. cbn [snd] in *.
  apply silent_app; [apply A1; discriminate|apply silent_app; [apply A2; discriminate|exact A3]].
Qed.
Lemma silent_cb date q v s : Inv s -> p_id q <> j -> silent (snd (run_cb date q v s)).
Proof.
  intros I Hq. unfold run_cb. destruct (p_cb q); try apply silent_nil.
  - pose proof (silent_raw [ICc 47] JNull s I) as A1. pose proof (inv_same _ _ (same_set_raw [ICc 47] JNull s) I) as I1. destruct (set_raw [ICc 47] JNull s) as [s1 o1]. cbn [fst snd] in *.
    assert (silent o1) as B1 by (apply A1; discriminate). set (id := _ * 5 + _). case_if; [|exact B1].
    pose proof (silent_set_rig date id s1 I1) as A2. pose proof (inv_same _ _ (same_set_rig date id s1) I1) as I2. destruct (set_rig_id date id s1) as [s2 o2]. cbn [fst snd] in *.
    destruct (match vd_last s2 with Some l => l =? id | None => false end).
    + cbn [snd]. apply silent_app; auto. apply silent_app; auto. apply silent_nil.
    + pose proof (silent_raw [INrpn [0; 11]] (JNum 0) s2 I2) as A3. destruct (set_raw [INrpn [0; 11]] _ s2) as [s3 o3]. cbn [snd] in *.
      apply silent_app; auto. apply silent_app; auto. apply A3. intros E. destruct (ordinary_free p a Ho) as (H1 & _). apply H1. rewrite <- E. cbn. tauto.
  - case_if; [apply silent_set_rig; auto|apply silent_nil].
  - apply silent_update_rig; auto.
  - destruct v; try apply silent_nil. case_if; [apply silent_nil|apply silent_raw; auto].
Qed.
Lemma silent_val date i v s : Inv s -> i <> j -> silent (snd (set_val date i v s)).
Proof.
  intros I Hi. unfold set_val. destruct (find_param i (vd_params s)) as [q|] eqn:E; [|apply silent_nil]. destruct (find_id _ _ _ E) as [A B].
  repeat case_if; try apply silent_nil.
  assert (Inv (mkD (write i v (vd_params s)) (vd_set s) (vd_last s))) as I1 by (apply (inv_same s); auto; split; cbn; auto; apply blank_write).
  pose proof (silent_cb date q v _ I1) as Hc. pose proof (inv_same _ _ (same_run_cb date q v (mkD (write i v (vd_params s)) (vd_set s) (vd_last s))) I1) as I2.
  destruct (run_cb date q v _) as [s1 o]. cbn [fst snd] in *. apply silent_app; [apply Hc; congruence|apply silent_push; auto].
Qed.

(* with the parameter in the active set *)
Definition active (s : vdev) : Prop := exists q, find_param j (vd_params s) = Some q /\ in_set s q = true.
Lemma active_cb s q : Inv s -> find_param j (vd_params s) = Some q -> in_set s q = true -> p_cb q = CbNone.
Proof.
  intros I E Hs. destruct (inv_ok s q I (proj2 (find_id _ _ _ E))) as (_ & _ & _ & _ & H). apply H. intros C. unfold in_set in Hs. rewrite C in Hs. destruct (vd_set s); discriminate.
Qed.
Lemma heard_val date v n s : Inv s -> active s -> value_of j s = JNum n -> v <> JNull ->
  exists n', value_of j (fst (set_val date j v s)) = JNum n' /\ h (Some (VNum n)) (snd (set_val date j v s)) = Some (VNum n').
Proof.
  intros I (q & E & Hs) Hn Hv. destruct (ordinary_num s p a q I Ho E) as [Hstr Hk]. pose proof (active_cb s q I E Hs) as Hcb. unfold set_val. rewrite E.
  case_if; [exists n; auto|]. destruct v as [|x|t]; [congruence| |].
  - cbn [well_typed]. rewrite Hstr. cbn [negb]. unfold run_cb. rewrite Hcb. exists x. cbn [fst snd app]. split.
    + unfold value_of. cbn. rewrite find_write, ids_eqb_refl, E. reflexivity.
    + unfold push_msgs. cbn [vd_params]. rewrite find_write, ids_eqb_refl, E. cbn [option_map].
      change (in_set (mkD (write j (JNum x) (vd_params s)) (vd_set s) (vd_last s)) (with_pval q (JNum x))) with (in_set s q). rewrite Hs.
      assert (opt_list (send_msg (with_pval q (JNum x))) = [answer_msg p a x]) as -> by (unfold send_msg; cbn [p_send p_val p_str with_pval]; rewrite Hk, Hstr; reflexivity).
      apply listen_answer. exact Hr.
  - cbn [well_typed]. rewrite Hstr. cbn [negb]. exists n. auto.
Qed.

Lemma heard_act date i ac n s : Inv s -> active s -> value_of j s = JNum n -> (i = j -> ac <> ASet JNull) ->
  exists n', value_of j (fst (act date i ac s)) = JNum n' /\ h (Some (VNum n)) (snd (act date i ac s)) = Some (VNum n').
Proof.
  intros I Ha Hn Hv. destruct (ordinary_free p a Ho) as (H1 & H2 & _). destruct (ids_eqb i j) eqn:Ei.
  - apply ids_eqb_eq in Ei. subst i. destruct ac as [|v]; cbn [act fst snd].
    + exists n. split; auto. destruct Ha as (q & E & Hs). rewrite E, (send_ordinary s p a q n I Ho E Hn). apply listen_answer. exact Hr.
    + apply heard_val; auto. intros ->. apply Hv; reflexivity.
  - assert (i <> j) as Hi by (intros ->; rewrite ids_eqb_refl in Ei; discriminate). exists n. destruct ac as [|v]; cbn [act fst snd].
    + split; auto. destruct (find_param i (vd_params s)) as [q|] eqn:E; [|apply silent_nil]. destruct (find_id _ _ _ E) as [A B]. apply (silent_param s q I B). congruence.
    + split; [|apply silent_val; auto]. rewrite (value_val_other j date i v s H1 H2 I Hi). exact Hn.
Qed.
Lemma parse_not_null s q m ac : Inv s -> In q (vd_params s) -> proper_msg m -> parse_param q m = Some ac -> p_id q = j -> ac <> ASet JNull.
Proof.
  intros I Hq Hm Hac Hid. destruct m as [c v|v|man data| |].
  1, 2: apply keys_some in Hac; destruct Hac as (k & Hk & E); destruct k; cbn in E; try discriminate; repeat match type of E with context [if ?b then _ else _] => destruct b end; inv E; discriminate.
  2, 3: apply keys_some in Hac; destruct Hac as (k & Hk & E); destruct k; discriminate E.
  destruct Hm as [Hd Hl]. destruct (accept_sysex s q man data ac I Hq Hd Hac) as (_ & x & y & t & Hi & Hsd & [[-> E2]|[-> E2]]); [discriminate|].
  assert (find_param j (vd_params s) = Some q) as Hf by (rewrite <- Hid; apply find_in; [apply I|exact Hq]).
  destruct (ordinary_num s p a q I Ho Hf) as [Hstr _]. rewrite Hstr in *. subst data. cbn in Hl. specialize (Hl eq_refl).
  destruct t as [|t0 [|t1 t]]; cbn in Hl; try lia. cbn. discriminate.
Qed.
Lemma active_get k s : active s -> active (get_param k s).
Proof.
  intros (q & E & Hs). exists q. split; [apply find_get_other; exact E|]. unfold in_set in *. replace (vd_set (get_param k s)) with (vd_set s); auto.
  unfold get_param. destruct (find_param [key_id k] (vd_params s)); reflexivity.
Qed.
Lemma heard_get_parse date k m n s : okkey k -> Inv s -> active s -> value_of j s = JNum n -> proper_msg m ->
  exists n', value_of j (fst (get_and_parse date k m s)) = JNum n' /\ h (Some (VNum n)) (snd (get_and_parse date k m s)) = Some (VNum n').
Proof.
  intros Hk I Ha Hn Hm. unfold get_and_parse. pose proof (inv_get k s Hk I) as I1. pose proof (active_get k s Ha) as Ha1.
  rewrite <- (value_get j k s) in Hn. destruct (find_param [key_id k] (vd_params (get_param k s))) as [q|] eqn:E; [|exists n; auto].
  destruct (find_id _ _ _ E) as [A B]. destruct (parse_param q m) as [ac|] eqn:Eac; [|exists n; auto].
  apply heard_act; auto. intros Hj. apply (parse_not_null _ q m ac I1 B Hm Eac). congruence.
Qed.
Lemma heard_default date str m n s r' : Inv s -> active s -> value_of j s = JNum n -> proper_msg m -> parse_default date str m s = Some r' ->
  exists n', value_of j (fst r') = JNum n' /\ h (Some (VNum n)) (snd r') = Some (VNum n').
Proof.
  intros I Ha Hn Hm E. unfold parse_default in E. destruct m as [c v|v|man data| |]; try discriminate.
  - inv E. apply heard_get_parse; auto. reflexivity.
  - inv E. apply heard_get_parse; cbn; auto.
  - destruct (negb (bytes_eqb man [0; 32; 51])); [discriminate|]. cbv zeta in E.
    destruct (starts_with [2; 127; code_request str; 0] data) eqn:E1.
    + inv E. set (k := KNrpn _). assert (okkey k) as Hk by (eapply okkey_default; [|exact E1]; reflexivity).
      exact (heard_act [] [key_id k] ASend n (get_param k s) (inv_get k s Hk I) (active_get k s Ha) (eq_trans (value_get j k s) Hn) ltac:(discriminate)).
    + destruct (starts_with [2; 127; code_set str; 0] data) eqn:E2; [|discriminate]. inv E. apply heard_get_parse; auto. eapply okkey_default; [|exact E2]; reflexivity.
Qed.
Lemma heard_all (f : vparam -> bool) s q n : Inv s -> find_param j (vd_params s) = Some q -> f q = true -> value_of j s = JNum n ->
  forall v, h v (flat_map (fun x => if f x then opt_list (send_msg x) else []) (vd_params s)) = Some (VNum n).
Proof.
  intros I E Hf Hn. pose proof (inv_nodup s I) as Hnd. pose proof (find_id _ _ _ E) as [Hid Hin]. pose proof (send_ordinary s p a q n I Ho E Hn) as Hs.
  assert (forall x, In x (vd_params s) -> p_id x <> j -> silent (opt_list (send_msg x))) as Hsil by (intros x Hx Hi; exact (silent_param s x I Hx Hi)).
  clear E Hn I. revert Hnd Hin Hsil. induction (vd_params s) as [|x l IH]; intros Hnd Hin Hsil v; [contradiction|]. cbn [flat_map map] in *. inv Hnd.
  rewrite listen_app. destruct Hin as [->|Hin].
  - rewrite Hf, Hs, (listen_answer p a r v n Hr).
    assert (silent (flat_map (fun x => if f x then opt_list (send_msg x) else []) l)) as S; [|apply S].
    clear IH. assert (forall x, In x l -> silent (opt_list (send_msg x))) as Hl.
    { intros x Hx. apply Hsil; [right; exact Hx|]. intros C. apply H1. rewrite Hid, <- C. apply in_map. exact Hx. }
    clear -Hl. induction l as [|x l IH]; [apply silent_nil|]. cbn [flat_map]. apply silent_app; [|apply IH; intros y Hy; apply Hl; right; exact Hy].
    case_if; [apply Hl; left; reflexivity|apply silent_nil].
  - apply IH; auto. intros y Hy. apply Hsil. right. exact Hy.
Qed.
Lemma heard_step s o x n : Inv s -> active s -> vd_set s = Some x -> value_of j s = JNum n -> proper o -> stays x o ->
  exists n', value_of j (fst (vd_step s o)) = JNum n' /\ h (Some (VNum n)) (snd (vd_step s o)) = Some (VNum n').
Proof.
  intros I Ha Hx Hn Hp Hst. destruct o as [m date|k v date|id date|k|y init|]; cbn [vd_step].
  - unfold receive_msg. destruct (parse_store (vd_params s) m) as [[i ac]|] eqn:E.
    + destruct (store_inv _ _ _ _ I E) as (q & Hq & Hid & Hf & Hac). apply heard_act; auto. intros Hj. apply (parse_not_null s q m ac I Hq Hp Hac). congruence.
    + destruct (parse_default date false m s) as [r'|] eqn:E1; [eapply heard_default; eauto|].
      destruct (parse_default date true m s) as [r'|] eqn:E2; [eapply heard_default; eauto|]. exists n. auto.
  - destruct Hp as [Hk Hv]. apply okkey_proper in Hk. exact (heard_act date [key_id k] (ASet v) n (get_param k s) (inv_get k s Hk I) (active_get k s Ha)
      (eq_trans (value_get j k s) Hn) ltac:(intros _ C; inv C; congruence)).
  - exists n. destruct (ordinary_free p a Ho) as (H1 & _). rewrite (value_set_rig j date id s H1). split; auto. apply silent_set_rig. exact I.
  - apply okkey_proper in Hp. exact (heard_act [] [key_id k] ASend n (get_param k s) (inv_get k s Hp I) (active_get k s Ha) (eq_trans (value_get j k s) Hn) ltac:(discriminate)).
  - cbn in Hst. subst y. exists n. split; [exact Hn|]. destruct init; [|reflexivity]. destruct Ha as (q & E & Hs).
    apply (heard_all (in_set (mkD (vd_params s) (Some x) (vd_last s))) s q n I E); auto. unfold in_set in *. cbn. rewrite Hx in Hs. exact Hs.
  - contradiction.
Qed.
End Push.

Lemma set_kept s o x : vd_set s = Some x -> stays x o -> vd_set (fst (vd_step s o)) = Some x.
Proof.
  intros Hx Hst. assert (forall k t, vd_set (get_param k t) = vd_set t) as Hg by (intros k t; unfold get_param; destruct (find_param [key_id k] (vd_params t)); reflexivity).
  assert (forall date i ac t, vd_set (fst (act date i ac t)) = vd_set t) as Ha by (intros date i ac t; exact (proj2 (same_act date i ac t))).
  assert (forall date k m t, vd_set (fst (get_and_parse date k m t)) = vd_set t) as Hgp.
  { intros date k m t. unfold get_and_parse. destruct (find_param [key_id k] (vd_params (get_param k t))) as [q|]; [destruct (parse_param q m)|]; rewrite ?Ha; apply Hg. }
  assert (forall date str m t r, parse_default date str m t = Some r -> vd_set (fst r) = vd_set t) as Hd.
  { intros date str m t r E. unfold parse_default in E. destruct m; try discriminate.
    1, 2: inv E; apply Hgp.
    cbv zeta in E. repeat match type of E with context [if ?b then _ else _] => destruct b end; inv E; [apply Hg|apply Hgp]. }
  destruct o as [m date|k v date|id date|k|y init|]; cbn [vd_step].
  - unfold receive_msg. destruct (parse_store (vd_params s) m) as [[i ac]|]; [rewrite Ha; exact Hx|].
    destruct (parse_default date false m s) as [r'|] eqn:E1; [rewrite (Hd _ _ _ _ _ E1); exact Hx|].
    destruct (parse_default date true m s) as [r'|] eqn:E2; [rewrite (Hd _ _ _ _ _ E2); exact Hx|exact Hx].
  - rewrite (proj2 (same_set_val date [key_id k] v (get_param k s))), Hg. exact Hx.
  - rewrite (proj2 (same_set_rig date id s)). exact Hx.
  - rewrite Ha, Hg. exact Hx.
  - cbn in *. congruence.
  - contradiction.
Qed.
Lemma pushed_map k p a : pushed k = Some (p, a) -> data_byte p /\ data_byte a /\ ordinary p a /\ two_part (mapping_of k) = false /\ typ (mapping_of k) = Numeric /\
  resp_num p a (resp_of (mapping_of k)).
Proof.
  destruct k; try destruct s; cbn; intros E; inv E.
  all: unfold data_byte, ordinary; repeat split; try lia; try (cbn; intuition congruence).
  all: eexists; split; reflexivity.
Qed.
Lemma pushed_found k p a s x : pushed k = Some (p, a) -> Inv s -> In x all_sets -> vd_set s = Some x -> active p a s.
Proof.
  intros Hk [(ks & Hs & _) _] Hx Hset. pose proof (find_blank (addr p a) (vd_params s)) as H. rewrite Hs, find_app in H.
  assert (exists b, find_param (addr p a) setup_blank = Some b /\ p_sets b = all_sets) as (b & Hb & Hbs).
  { destruct k; try destruct s0; cbn in Hk; inv Hk; eexists; split; vm_compute; reflexivity. }
  rewrite Hb in H. destruct (find_param (addr p a) (vd_params s)) as [q|] eqn:E; [|discriminate H]. cbn in H. inv H.
  exists q. split; auto. unfold in_set. rewrite Hset. change (p_sets q) with (p_sets (blank q)). rewrite Hbs. apply existsb_exists. exists x. split; auto. lia.
Qed.
Lemma mirror_run k p a x : pushed k = Some (p, a) -> In x all_sets -> forall ops s n, Inv s -> vd_set s = Some x -> value_of (addr p a) s = JNum n ->
  Forall proper ops -> Forall (stays x) ops ->
  exists n', value_of (addr p a) (fst (run vd_step s ops)) = JNum n' /\
    listen Numeric (resp_of (mapping_of k)) (Some (VNum n)) (snd (run vd_step s ops)) = Some (VNum n').
Proof.
  intros Hk Hx. destruct (pushed_map k p a Hk) as (B1 & B2 & Ho & _ & _ & Hr). induction ops as [|o ops IH]; intros s n I Hs Hn Hp Hst.
  - exists n. auto.
  - inv Hp. inv Hst. destruct (heard_step p a _ (conj B1 B2) Ho Hr s o x n I (pushed_found k p a s x Hk I Hx Hs) Hs Hn H1 H3) as (n1 & E1 & E2).
    pose proof (inv_step s o H1 I) as I1. pose proof (set_kept s o x Hs H3) as Hs1. rewrite run_cons. destruct (vd_step s o) as [s1 o1]. cbn [fst snd] in *.
    destruct (IH s1 n1 I1 Hs1 E1 H2 H4) as (n2 & E3 & E4). exists n2. destruct (run vd_step s1 ops) as [s2 o2]. cbn [fst snd] in *. split; auto.
    unfold listen in *. rewrite fold_left_app, E2. exact E4.
Qed.
Lemma mirror date ops1 ops2 k p a x : pushed k = Some (p, a) -> In x all_sets -> Forall proper (ops1 ++ ops2) -> Forall (stays x) ops2 ->
  heard k (snd (run vd_step (vd_after date ops1) (VBeacon x true :: ops2))) = Some (VNum (remembered p a (ops1 ++ VBeacon x true :: ops2))).
Proof.
  intros Hk Hx Hp Hst. destruct (pushed_map k p a Hk) as (B1 & B2 & Ho & H1 & H2 & Hr). apply Forall_app in Hp. destruct Hp as [Hp1 Hp2].
  pose proof (inv_after date ops1 Hp1) as I. pose proof (memory date ops1 p a Hp1 Ho) as Hm.
  assert (Forall proper (ops1 ++ VBeacon x true :: ops2)) as Hpa by (apply Forall_app; split; auto; constructor; auto; exact Logic.I).
  pose proof (memory date _ p a Hpa Ho) as Hm2. unfold vd_after in Hm2. rewrite run_app in Hm2. cbn [fst] in Hm2. fold (vd_after date ops1) in Hm2.
  unfold heard. rewrite hear_plain by exact H1. rewrite H2. rewrite run_cons in *.
  set (s1 := mkD (vd_params (vd_after date ops1)) (Some x) (vd_last (vd_after date ops1))).
  assert (Inv s1) as I1 by (apply (inv_step _ (VBeacon x true)); [exact Logic.I|exact I]).
  assert (vd_step (vd_after date ops1) (VBeacon x true) = (s1, flat_map (fun q => if in_set s1 q then opt_list (send_msg q) else []) (vd_params s1))) as E by reflexivity.
  rewrite E in *. cbn [fst snd] in *. destruct (pushed_found k p a s1 x Hk I1 Hx eq_refl) as (q & Hq & Hqs).
  destruct (mirror_run k p a x Hk Hx ops2 s1 (remembered p a ops1) I1 eq_refl Hm Hp2 Hst) as (n' & E1 & E2).
  destruct (run vd_step s1 ops2) as [s2 o2]. cbn [fst snd] in *. unfold listen in *. rewrite fold_left_app.
  pose proof (heard_all p a _ (conj B1 B2) Ho Hr (in_set s1) s1 q _ I1 Hq Hqs Hm None) as Ha. unfold listen in Ha. change (val (mapping_of k)) with (@None value). rewrite Ha, E2. congruence.
Qed.

Lemma requested_bytes k p a : k_request (kemper k) = TOne (ask p a) -> data_byte p /\ data_byte a.
Proof. intros H. destruct k; try destruct s; try destruct r; cbn in H; try discriminate H; inv H; unfold data_byte; lia. Qed.
Lemma read_once date ops k p a now : Forall proper ops -> k_request (kemper k) = TOne (ask p a) -> ordinary p a ->
  length (answers date ops (ask p a) now) = 1%nat /\ heard k (answers date ops (ask p a) now) = Some (VNum (remembered p a ops)).
Proof.
  intros Hp Hk Ho. destruct (requested_bytes k p a Hk) as [Hbp Hba]. split; [|apply read_back; auto].
  unfold answers. cbn [vd_step]. rewrite (ask_answer _ p a now _ (inv_after date ops Hp) Ho Hbp Hba (memory date ops p a Hp Ho)). reflexivity.
Qed.
Lemma told_proper k p a v m d : k_request (kemper k) = TOne (ask p a) -> ordinary p a -> 0 <= v < 16384 -> told k v = Some m -> proper (VRecv m d).
Proof.
  intros H Ho Hv. destruct k; try destruct s; try destruct r; cbn in H; try discriminate H; inv H; try (exfalso; apply Ho; cbn; tauto).
  all: intros Ht; first
    [ match type of Ht with told ?k ?w = _ => rewrite (told_nrpn k _ _ w eq_refl eq_refl eq_refl eq_refl Hv) in Ht; inv Ht;
        split; [repeat (constructor; [unfold data_byte; lia|]); constructor|intros _; cbn; lia] end
    | cbn in Ht; inv Ht; exact Logic.I | discriminate Ht ].
Qed.
Lemma set_read date ops k p a v m d now : Forall proper ops -> k_request (kemper k) = TOne (ask p a) -> ordinary p a -> 0 <= v < 16384 -> told k v = Some m ->
  heard k (answers date (ops ++ [VRecv m d]) (ask p a) now) = Some (VNum v).
Proof.
  intros Hp Hk Ho Hv Hm.
  assert (Forall proper (ops ++ [VRecv m d])) as Hp2 by (apply Forall_app; split; auto; constructor; [eapply told_proper; eauto|constructor]).
  rewrite (proj2 (read_once date _ k p a now Hp2 Hk Ho)), (set_remembered ops k p a v m d Hk Ho Hv Hm). reflexivity.
Qed.

(* texts which are not parameters of the virtual device *)
Lemma no_text date ops a now : Forall proper ops -> ordinary 0 a -> data_byte a ->
  exists n, answers date ops (ask_text a) now = [answer_msg 0 a n].
Proof.
  intros Hp Ho Ha. pose proof (inv_after date ops Hp) as I. pose proof (memory date ops 0 a Hp Ho) as Hm. exists (remembered 0 a ops).
  unfold answers. cbn [vd_step]. unfold receive_msg. set (s := vd_after date ops) in *.
  assert (Forall data_byte [2; 127; f_request_string; 0; 0; a]) as Hd by (unfold data_byte in *; repeat (constructor; [unfold f_request_string; lia|]); constructor).
  destruct (parse_store (vd_params s) (ask_text a)) as [[i ac]|] eqn:E.
  - exfalso. destruct (store_inv _ _ _ _ I E) as (q & Hq & Hid & Hf & Hac).
    destruct (accept_sysex s q _ _ ac I Hq Hd Hac) as (_ & x & y & t & Hi & Hsd & [[-> E2]|[-> E2]]); destruct (p_str q) eqn:Es; inv E2.
    rewrite Hi in Hf. destruct (ordinary_num s 0 y q I Ho Hf). congruence.
  - cbn [parse_default ask_text nrpn negb]. change (negb (bytes_eqb [0; 32; 51] [0; 32; 51])) with false. cbv iota. cbv zeta.
    change (starts_with [2; 127; code_request false; 0] [2; 127; f_request_string; 0; 0; a]) with false.
    change (starts_with [2; 127; code_set false; 0] [2; 127; f_request_string; 0; 0; a]) with false.
    change (starts_with [2; 127; code_request true; 0] [2; 127; f_request_string; 0; 0; a]) with true. cbv iota.
    change (KNrpn (firstn 2 (skipn 4 ([2; 127; f_request_string; 0; 0; a] ++ [247])))) with (nkey 0 a).
    destruct (find_get (nkey 0 a) s) as (q & Hq). change [key_id (nkey 0 a)] with (addr 0 a) in *. cbn [snd]. rewrite Hq.
    apply (send_ordinary (get_param (nkey 0 a) s)); auto; [apply inv_get; [left; reflexivity|exact I]|]. rewrite value_get. exact Hm.
Qed.
Lemma text_refuted date ops now k a : Forall proper ops -> In (k, a) [(CabName, 32); (RigComment, 4)] ->
  k_request (kemper k) = TOne (ask_text a) /\ length (answers date ops (ask_text a) now) = 1%nat /\ heard k (answers date ops (ask_text a) now) = None.
Proof.
  intros Hp Hk. assert (ordinary 0 a /\ data_byte a) as [Ho Ha] by (cbn in Hk; unfold ordinary, data_byte; destruct Hk as [E|[E|[]]]; inv E; split; try lia; cbn; intuition congruence).
  destruct (no_text date ops a now Hp Ho Ha) as (n & ->). split; [|split; [reflexivity|]]; cbn in Hk; destruct Hk as [E|[E|[]]]; inv E; reflexivity.
Qed.
