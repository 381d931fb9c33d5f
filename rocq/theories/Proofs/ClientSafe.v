(* C58: no operation of the client raises *)
From Verif.Lib Require Import Base.
From Verif.Model Require Import Midi Period Mapping Client.
From Verif.Spec Require Import Mapping Client ClientSafe.
From Verif.Proofs Require Import Mapping Client ClientTotal ClientHist ClientDep ClientOps ClientPerm ClientProps.
Open Scope Z_scope.

(* ---- templates and set messages ---- *)

Definition bytes_ok (d : list Z) : Prop := Forall (fun b => 0 <= b <= 255) d.
Definition msg_sim (x0 x : msg) : Prop :=
  match x0, x with
  | SysEx _ d0, SysEx _ d => bytes_ok d0 -> bytes_ok d
  | SysEx _ _, _ => False
  | _, SysEx _ _ => False
  | _, _ => True
  end.
Definition omsg_sim (x0 x : option msg) : Prop :=
  match x0, x with Some a, Some b => msg_sim a b | None, None => True | _, _ => False end.
Definition tmpl_sim (t0 t : tmpl) : Prop :=
  match t0, t with
  | TNone, TNone => True
  | TOne a, TOne b => msg_sim a b
  | TMany a, TMany b => Forall2 omsg_sim a b
  | _, _ => False
  end.
Lemma msg_sim_refl x : msg_sim x x. Proof. destruct x; cbn; auto. Qed.
Lemma omsg_sim_refl x : omsg_sim x x. Proof. destruct x; cbn; auto. apply msg_sim_refl. Qed.
Lemma tmpl_sim_refl t : tmpl_sim t t.
Proof. destruct t; cbn; auto; [apply msg_sim_refl|]. induction l; constructor; auto. apply omsg_sim_refl. Qed.

Lemma bytes_forallb d : forallb is_byte d = true <-> bytes_ok d.
Proof.
  unfold bytes_ok. rewrite forallb_forall, Forall_forall. split; intros H x Hx; specialize (H x Hx); unfold is_byte in *; lia.
Qed.
Lemma set_nth_bytes n b d : 0 <= b <= 255 -> bytes_ok d -> bytes_ok (set_nth n b d).
Proof. intros Hb. revert n. induction d as [|y d IH]; intros [|n] H; cbn; auto; inv H; constructor; auto. apply IH; auto. Qed.
Lemma pad8_bytes d : bytes_ok d -> bytes_ok (pad8 d).
Proof. intros H. apply Forall_app. split; auto. apply Forall_forall. intros x Hx. apply repeat_spec in Hx. lia. Qed.

Lemma set_one_ok x0 x v : msg_sim x0 x -> fits_msg x0 v -> exists x', set_value_one Numeric x v = Ok x'.
Proof.
  intros Hs Hf. destruct x as [c w|p|man d|st|st]; unfold set_value_one; eauto. destruct x0 as [c w|p|man0 d0|st|st]; cbn in Hs; try contradiction.
  destruct Hf as [Hb Hv]. assert (E : bytes_ok (set_nth 7 (v mod 128) (set_nth 6 (v / 128) (pad8 d)))).
  { apply set_nth_bytes; [pose proof (Z.mod_pos_bound v 128); lia|]. apply set_nth_bytes; [|apply pad8_bytes; auto].
    split; [apply Z.div_pos; lia|]. assert (v / 128 < 256); [apply Z.div_lt_upper_bound; lia|lia]. }
  apply bytes_forallb in E. rewrite E. eauto.
Qed.
Lemma set_one_sim t x0 x v x' : msg_sim x0 x -> set_value_one t x v = Ok x' -> msg_sim x0 x'.
Proof.
  intros Hs H. destruct t; [|discriminate]. unfold set_value_one in H. destruct x as [c w|p|man d|st|st].
  - injection H as <-. destruct x0; cbn in *; auto.
  - injection H as <-. destruct x0; cbn in *; auto.
  - destruct (forallb is_byte _) eqn:E; [|discriminate]. injection H as <-. destruct x0; cbn in Hs; try contradiction.
    intros _. apply bytes_forallb. exact E.
  - injection H as <-. exact Hs.
  - injection H as <-. exact Hs.
Qed.
Lemma set_list_ok xs0 : forall xs vs, Forall2 omsg_sim xs0 xs -> (length xs0 <= length vs)%nat ->
  (forall i x v, nth_error xs0 i = Some (Some x) -> nth_error vs i = Some v -> fits_msg x v) -> snd (set_value_list Numeric xs vs) = true.
Proof.
  induction xs0 as [|x0 xs0 IH]; intros xs vs Hs Hl Hf; inv Hs; [reflexivity|]. destruct vs as [|v vs]; [cbn in Hl; lia|].
  rename y into x. cbn in Hl. assert (E : snd (set_value_list Numeric l' vs) = true).
  { apply IH; auto; [lia|]. intros i. exact (Hf (S i)). }
  destruct x as [x|]; cbn [set_value_list].
  - destruct x0 as [x0|]; cbn in H1; [|contradiction]. destruct (set_one_ok x0 x v H1 (Hf 0%nat x0 v eq_refl eq_refl)) as (x' & ->).
    destruct (set_value_list Numeric l' vs). exact E.
  - destruct (set_value_list Numeric l' vs). exact E.
Qed.
Lemma set_list_sim t xs0 : forall xs vs, Forall2 omsg_sim xs0 xs -> Forall2 omsg_sim xs0 (fst (set_value_list t xs vs)).
Proof.
  induction xs0 as [|x0 xs0 IH]; intros xs vs Hs; inv Hs; [constructor|]. destruct vs as [|v vs]; cbn; [constructor; auto|].
  destruct y as [x|].
  - destruct (set_value_one t x v) as [x'|] eqn:E; [|constructor; auto]. specialize (IH l' vs H3).
    destruct (set_value_list t l' vs). cbn in *. constructor; auto. destruct x0; cbn in *; auto. eapply set_one_sim; eauto.
  - destruct t; [|constructor; auto]. specialize (IH l' vs H3). destruct (set_value_list Numeric l' vs). constructor; auto.
Qed.

Lemma set_value_sim m0 m a m' ok : tmpl_sim (set_t m0) (set_t m) -> set_value m a = (m', ok) ->
  tmpl_sim (set_t m0) (set_t m') /\ response_t m' = response_t m /\ typ m' = typ m /\ two_part m' = two_part m /\ value_1 m' = value_1 m /\
  request_t m' = request_t m /\ depends m' = depends m /\ val m' = val m.
Proof.
  intros Hs H. unfold set_value in H. destruct (set_t m) as [|x|xs] eqn:Et.
  - destruct (typ m) eqn:Ety; inv H; rewrite Et, ?Ety; auto 10.
  - destruct a as [v|vs]; [|inv H; rewrite Et; auto 10]. destruct (set_value_one (typ m) x v) as [x'|] eqn:E; inv H; [|rewrite Et; auto 10].
    cbn. split; [|auto 10]. destruct (set_t m0); cbn in *; auto. eapply set_one_sim; eauto.
  - destruct a as [v|vs].
    + destruct xs; inv H; rewrite Et; auto 10.
    + destruct (set_value_list (typ m) xs vs) as [xs' ok'] eqn:E. inv H. cbn. split; [|auto 10].
      destruct (set_t m0); cbn in *; auto. change xs' with (fst (xs', ok)). rewrite <- E. apply set_list_sim. auto.
Qed.
Lemma set_value_fits m0 m a : tmpl_sim (set_t m0) (set_t m) -> typ m = typ m0 -> fits m0 a -> truthy (set_t m) = true -> snd (set_value m a) = true.
Proof.
  intros Hs Ht Hf Hn. unfold set_value, fits in *. rewrite Ht. destruct (set_t m) as [|x|xs]; [discriminate| |];
    destruct (set_t m0) as [|x0|xs0]; cbn in Hs; try contradiction; destruct a as [v|vs]; try contradiction; destruct Hf as [-> Hf].
  - destruct (set_one_ok _ _ _ Hs Hf) as (x' & ->). reflexivity.
  - destruct Hf as [Hl Hf]. pose proof (set_list_ok _ _ _ Hs Hl Hf). destruct (set_value_list Numeric xs vs). exact H.
Qed.

(* ---- parsing ---- *)

Definition num_or_none (v : option value) : Prop := match v with Some (VStr _) => False | _ => True end.
Definition map_ok (m0 m : mapping) : Prop :=
  response_t m = response_t m0 /\ typ m = typ m0 /\ two_part m = two_part m0 /\ num_or_none (value_1 m) /\ tmpl_sim (set_t m0) (set_t m).

Lemma against_ok t x r : match r with Some r => proper_template r | None => True end -> exists o, parse_against t x r = Ok o.
Proof.
  intros H. destruct (parse_against t x r) as [o|] eqn:E; [eauto|]. exfalso. apply parse_against_raise in E.
  destruct E as (man & d & rd & _ & _ & -> & _ & Hl). cbn in H. lia.
Qed.
Lemma numeric_value x r v : parse_against Numeric x (Some r) = Ok (Some v) -> exists n, v = VNum n.
Proof. intros H. apply parse_against_some in H. destruct H as [_ Hc]. inv Hc; eauto. Qed.

Lemma parse_total m0 m x : sound m0 -> map_ok m0 m -> exists m' b, parse m x = Ok (m', b) /\ map_ok m0 m' /\ (b = true -> hears x m0).
Proof.
  intros Hs HM. destruct HM as (Hr & Ht & H2 & Hn & Hset). unfold parse. rewrite H2. destruct Hs as [m0 Ha Hb Hc|m0 r0 r1 Ha Hb Hc Hd He]; rewrite Ha.
  - unfold parse_plain. rewrite Ht.
    assert (exists o, parse_against (typ m0) x (match response_t m with TOne r => Some r | _ => None end) = Ok o) as (o & Eo).
    { apply against_ok. rewrite Hr. unfold templates in Hb. destruct (response_t m0); auto. inv Hb. auto. }
    rewrite Eo. destruct o as [v|].
    + exists (with_val m (Some v)), true. split; [reflexivity|]. split; [repeat split; cbn; auto; congruence|]. intros _. unfold hears, templates.
      rewrite Hr in Eo. destruct (response_t m0) as [|r|l]; try (destruct x; discriminate Eo).
      apply parse_against_some in Eo. exists r. cbn. tauto.
    + exists m, false. split; [reflexivity|]. split; [repeat split; auto; congruence|discriminate].
  - unfold parse_two. rewrite Hr, Hb, Ht, Hc. unfold hears, templates in *. rewrite Hb in *. cbn in Hd.
    apply Forall_cons_iff in Hd. destruct Hd as [P0 Hd]. apply Forall_cons_iff in Hd. destruct Hd as [P1 _].
    destruct (against_ok Numeric x (Some r0) P0) as (o0 & E0). rewrite E0. destruct o0 as [v0|].
    + exists (with_value_1 m (Some v0)), true. split; [reflexivity|]. split; [|intros _; apply parse_against_some in E0; exists r0; cbn; tauto].
      destruct (numeric_value _ _ _ E0) as (n & ->). repeat split; cbn; auto; congruence.
    + destruct (against_ok Numeric x (Some r1) P1) as (o1 & E1). rewrite E1. destruct o1 as [v1|].
      * destruct (value_1 m) as [w|] eqn:Ev.
        -- destruct w as [w|w]; [|contradiction]. destruct (numeric_value _ _ _ E1) as (n & ->). cbn.
           eexists _, true. split; [reflexivity|]. split; [repeat split; cbn; auto; congruence|]. intros _. apply parse_against_some in E1. exists r1. cbn. tauto.
        -- exists m, false. split; [reflexivity|]. split; [repeat split; auto; try congruence; rewrite Ev; auto|discriminate].
      * exists m, false. split; [reflexivity|]. split; [repeat split; auto; congruence|discriminate].
Qed.

(* ---- the state ---- *)
Section Safe.
Variable bi : mid -> bool.
Variable maps0 : mid -> mapping.
Variable lt : Z.
Hypothesis Hself : no_self_dependency maps0.
Hypothesis Hsound : forall m, sound (maps0 m).
Hypothesis Happart : told_apart maps0.
Notation I0 := (Inv0 bi maps0 lt).

Definition MI (c : client) : Prop := forall m, map_ok (maps0 m) (maps c m).
Definition wd (r : request) : Prop := forall ls d, r_listeners r = Some ls -> In (LDep d) ls -> depends (maps0 d) = Some (r_map r).
Definition WI (c : client) : Prop := Forall wd (reqs c).
Definition FI (P : mid -> Prop) (c : client) : Prop := Forall (fun r => finished r = true -> P (r_map r)) (reqs c).

Lemma MI_upd c m x : MI c -> map_ok (maps0 m) x -> MI (with_maps c (upd (maps c) m x)).
Proof. intros H Hx k. cbn. unfold upd. destruct (k =? m)%nat eqn:E; auto. apply Nat.eqb_eq in E. subst. auto. Qed.

Lemma register_total P c now m l send : MI c -> WI c -> FI P c -> (l <> None -> ~ P m) ->
  (forall d, l = Some (LDep d) -> depends (maps0 d) = Some m) ->
  exists c' ev, register_mapping c now m l send = Ok (c', ev) /\ MI c' /\ WI c' /\ FI P c'.
Proof.
  intros HM HW HF Hl Hd. unfold register_mapping. destruct (find_req m (reqs c)) as [r|] eqn:Ef.
  - destruct (find_req_some _ _ _ Ef) as [Hin Hm]. destruct l as [l|]; [|eauto 10].
    destruct (r_listeners r) as [ls|] eqn:El.
    + destruct (existsb (listener_eqb l) ls); [eauto 10|]. eexists _, _. split; [reflexivity|]. split; [exact HM|].
      unfold WI, FI in *. cbn. rewrite Forall_forall in HW, HF. split; apply upd_req_Forall; try (apply Forall_forall; auto).
      * intros r0 _ _ _ ls' d Hs Hi. inv Hs. apply in_app_or in Hi. cbn. destruct Hi as [Hi|[->|[]]]; [exact (HW r Hin ls d El Hi)|auto].
      * intros r0 _ _ _ H. discriminate.
    + exfalso. unfold FI in HF. rewrite Forall_forall in HF. apply Hl; [discriminate|]. rewrite <- Hm. apply HF; auto.
      unfold finished. rewrite El. reflexivity.
  - eexists _, _. split; [reflexivity|]. split; [exact HM|]. unfold WI, FI in *. cbn. split; apply Forall_app; (split; [auto|]); constructor; auto.
    + destruct l as [l|]; intros ls d Hs Hi; cbn in Hs; inv Hs; [|destruct Hi]. destruct Hi as [->|[]]. cbn. auto.
    + destruct l; discriminate.
Qed.

Lemma notify_all_total P ls : forall c now m, MI c -> WI c -> FI P c -> (forall d, In (LDep d) ls -> ~ P d) ->
  exists c' ev, notify_all c now m ls = Ok (c', ev) /\ MI c' /\ WI c' /\ FI P c'.
Proof.
  induction ls as [|l ls IH]; intros c now m HM HW HF Hd; [cbn; eauto 10|]. cbn.
  assert (exists c1 e1, notify c now m l = Ok (c1, e1) /\ MI c1 /\ WI c1 /\ FI P c1) as (c1 & e1 & -> & HM1 & HW1 & HF1).
  { unfold notify. destruct l as [x|d]; [eauto 10|]. destruct (find_dep d (deps c)) as [[last inner]|]; [|eauto 10].
    destruct (value_eqb _ _); [eauto 10|].
    destruct (register_total P (with_deps c (set_dep_last d (val (maps c m)) (deps c))) now d (option_map LExt inner) true)
      as (c1 & e1 & -> & H1); auto.
    - intros _. apply Hd. left. auto.
    - intros k Hk. destruct inner; discriminate.
    - eauto 10. }
  destruct (IH c1 now m HM1 HW1 HF1) as (c2 & e2 & -> & H2); [intros d Hi; apply Hd; right; auto|eauto 10].
Qed.

Lemma parse_request_total c now i x : MI c -> WI c -> FI (fun m => hears x (maps0 m)) c ->
  exists c' ev b, parse_request c now i x = Ok (c', ev, b) /\ MI c' /\ WI c' /\ FI (fun m => hears x (maps0 m)) c'.
Proof.
  intros HM HW HF. unfold parse_request. destruct (nth_error (reqs c) i) as [r|] eqn:En; [|eauto 10].
  destruct (negb _); [eauto 10|]. destruct (r_listeners r) as [ls|] eqn:El; [|eauto 10].
  destruct (parse_total (maps0 (r_map r)) (maps c (r_map r)) x (Hsound _) (HM _)) as (m' & b & -> & Hm' & Hh).
  destruct b; [|eauto 10]. specialize (Hh eq_refl). pose proof (MI_upd c (r_map r) m' HM Hm') as HM1.
  destruct (negb _); [eauto 10|]. assert (Hin := nth_error_In _ _ En).
  destruct (notify_all_total (fun m => hears x (maps0 m)) ls (with_maps c (upd (maps c) (r_map r) m')) now (r_map r) HM1 HW HF) as (c2 & ev & -> & HM2 & HW2 & HF2).
  { intros d Hd Hx. unfold WI in HW. rewrite Forall_forall in HW. exact (Happart d (r_map r) x (HW r Hin ls d El Hd) Hx Hh). }
  destruct (r_life r); [|eauto 10]. eexists _, _, _. split; [reflexivity|]. split; [exact HM2|].
  unfold WI, FI in *. cbn. split; apply upd_req_Forall; auto. intros r0 _ _ _ ls' d Hs. discriminate.
Qed.

Lemma loop_total fuel : forall c now i x, MI c -> WI c -> FI (fun m => hears x (maps0 m)) c ->
  match receive_loop fuel c now i x with
  | None => True
  | Some Raise => False
  | Some (Ok (c', _, _, _)) => MI c' /\ WI c'
  end.
Proof.
  induction fuel as [|fuel IH]; intros c now i x HM HW HF; cbn; auto. destruct (length (reqs c) <=? i)%nat; auto.
  destruct (parse_request_total c now i x HM HW HF) as (c1 & e1 & b & -> & HM1 & HW1 & HF1).
  specialize (IH c1 now (S i) x HM1 HW1 HF1). destruct (receive_loop fuel c1 now (S i) x) as [[[[[c2 e2] p2] f2]|]|]; auto.
Qed.

Lemma unfinished_FI P c : Forall (fun r => finished r = false) (reqs c) -> FI P c.
Proof. unfold FI. apply Forall_impl. intros r H1 H2. congruence. Qed.

Lemma map_ok_val m0 m v : map_ok m0 m -> map_ok m0 (with_val m v).
Proof. intros (A & B & C & D & E). repeat split; auto. Qed.

Lemma expire_wd l : forall f now f' l' ev, expire f now l = (f', l', ev) -> Forall wd l -> Forall wd l'.
Proof.
  induction l as [|r l IH]; intros f now f' l' ev H Hw; [inv H; auto|].
  rewrite expire_cons in H. destruct (expire1 f now r) as [[f1 r1] e1] eqn:E1.
  destruct (expire f1 now l) as [[f2 rs] e2] eqn:E2. inv H. inv Hw. constructor; [|eapply IH; eauto].
  unfold expire1 in E1. destruct (r_life r) as [p|]; [|inv E1; auto]. destruct (p_exceeded p now) as [ex p'].
  destruct ex; [destruct (r_listeners r)|]; inv E1; try (intros ls d Hs; discriminate). exact H1.
Qed.

Lemma timeouts_safe c now c' ev : timeouts c now = (c', ev) -> MI c -> WI c -> MI c' /\ WI c'.
Proof.
  intros H HM HW. destruct (timeouts_facts _ _ _ _ H) as (_ & _ & V & _). split.
  - intros m. destruct (V m) as (v & ->). apply map_ok_val. auto.
  - unfold timeouts in H. destruct (p_exceeded (clean c) now) as [ex p]. destruct ex; [|inv H; exact HW].
    cbn [maps reqs with_clean] in H. destruct (expire (maps c) now (reqs c)) as [[f rs] e] eqn:E. inv H.
    unfold WI. cbn. apply Forall_filter. eapply expire_wd; eauto.
Qed.

Lemma lost_safe l : forall f f' ev, connection_lost bi f l = Ok (f', ev) -> (forall m, map_ok (maps0 m) (f m)) -> forall m, map_ok (maps0 m) (f' m).
Proof.
  induction l as [|r l IH]; intros f f' ev H HM; cbn in H; [inv H; auto|].
  destruct (bi (r_map r)); [|eapply IH; eauto]. destruct (r_listeners r) as [ls|]; [|discriminate].
  destruct (connection_lost bi _ l) as [[f2 e2]|] eqn:E; [|discriminate]. inv H. eapply IH; [exact E|].
  intros m. destruct (notify_terminated_val f (r_map r) ls m) as (v & Ev). cbn in Ev. rewrite Ev. apply map_ok_val. auto.
Qed.

Definition allowed' (c : client) (o : op) : Prop :=
  match o with
  | Set_ _ m a => (truthy (set_t (maps c m)) = true -> snd (set_value (maps c m) a) = true) /\
                  (bi m = true -> has_request c m /\ exists z, a = One z)
  | _ => True
  end.
Lemma allowed_allowed' c o : MI c -> allowed bi maps0 c o -> allowed' c o.
Proof.
  intros HM. destruct o; cbn; auto. intros [Hf Hb]. split; auto. intros Ht. destruct (HM m) as (A & B & C & D & E).
  exact (set_value_fits _ _ a E B Hf Ht).
Qed.
Lemma ok_allowed' c o c' ev : cstep bi c o = Ok (c', ev) -> allowed' c o.
Proof.
  intros H. destruct o as [| | |now m a| |]; cbn; auto. destruct (set_param_shape _ _ _ _ _ _ _ H) as (c1 & e1 & H1 & H2). split.
  - intros Ht. destruct H1 as [(H1 & _)|(m' & _ & -> & _)]; [congruence|reflexivity].
  - intros Hb. destruct H2 as [(H2 & _)|(_ & r & ls & z & e2 & Hf & _ & -> & _)]; [congruence|].
    apply find_req_some in Hf. unfold has_request. eauto.
Qed.

Lemma cstep_safe c o : Inv bi maps0 lt c -> MI c -> WI c -> allowed' c o ->
  exists c' ev, cstep bi c o = Ok (c', ev) /\ MI c' /\ WI c'.
Proof.
  intros HI HM HW Ha. assert (HF : forall P, FI P c) by (intros P; apply unfinished_FI; apply HI).
  destruct o as [now m l|now m l|now x|now m a| |m v]; cbn [cstep].
  - unfold register. set (c1 := if bi m then _ else c).
    assert (MI c1 /\ WI c1 /\ FI (fun _ => False) c1) as (HM1 & HW1 & HF1).
    { unfold c1. destruct (bi m); [|auto]. split; [|split; [exact HW|exact (HF _)]]. apply MI_upd; auto. destruct (HM m) as (A & B & C & D & E). repeat split; auto. }
    clearbody c1. destruct (negb _ && _); [|eauto].
    destruct (register_total (fun _ => False) c1 now m (option_map LExt l) false HM1 HW1 HF1) as (c' & ev & -> & X & Y & _); eauto.
    intros d Hd. destruct l; discriminate.
  - unfold request_param. destruct (negb _ || negb _); [eauto|]. destruct (depends (maps c m)) as [p|] eqn:Ed.
    + set (c1 := match find_dep m (deps c) with Some _ => c | None => _ end).
      assert (MI c1 /\ WI c1 /\ FI (fun _ => False) c1) as (HM1 & HW1 & HF1) by (unfold c1; destruct (find_dep m (deps c)); auto using (HF (fun _ => False))).
      clearbody c1. destruct (register_total (fun _ => False) c1 now p (Some (LDep m)) true HM1 HW1 HF1) as (c' & ev & -> & X & Y & _); eauto.
      intros d Hd. injection Hd as <-. destruct HI as (((_ & _ & _ & Hdep) & _) & _). destruct (Hdep m) as [E|E]; rewrite Ed in E; [auto|discriminate].
    + destruct (register_total (fun _ => False) c now m (option_map LExt l) true HM HW (HF _)) as (c' & ev & -> & X & Y & _); eauto.
      intros d Hd. destruct l; discriminate.
  - pose proof (receive_total c now x) as Ht. unfold receive in *. destruct (timeouts c now) as [c1 e1] eqn:Et.
    destruct (timeouts_safe _ _ _ _ Et HM HW) as [HM1 HW1]. destruct x as [x|]; [|eauto].
    destruct (timeouts_ok _ _ _ _ _ _ _ HI Et) as (HI1 & _).
    pose proof (loop_total (S (length (reqs c1) + length (deps c1))) c1 now 0 x HM1 HW1 (unfinished_FI _ _ (proj2 HI1))) as Hl.
    destruct (receive_loop _ c1 now 0 x) as [[[[[c2 e2] p2] f2]|]|]; [|contradiction|contradiction].
    destruct Hl as [HM2 HW2]. eexists _, _. split; [reflexivity|]. destruct f2; auto. split; [exact HM2|].
    unfold WI. cbn. apply Forall_filter. exact HW2.
  - destruct Ha as [Hf Hb]. unfold set_param.
    set (step1 := if negb (truthy (set_t (maps c m))) then _ else _).
    assert (exists c1 e1, step1 = Ok (c1, e1) /\ MI c1 /\ reqs c1 = reqs c) as (c1 & e1 & -> & HM1 & Er).
    { unfold step1. destruct (truthy (set_t (maps c m))) eqn:Et; cbn [negb]; [|eauto]. destruct (HM m) as (A & B & C & D & E).
      pose proof (Hf eq_refl) as Hok. destruct (set_value (maps c m) a) as [m' ok] eqn:Es. cbn in Hok. subst ok.
      eexists _, _. split; [reflexivity|]. split; [|reflexivity]. apply MI_upd; auto.
      destruct (set_value_sim _ _ _ _ _ E Es) as (S1 & S2 & S3 & S4 & S5 & _). repeat split; auto; congruence. }
    assert (HW1 : WI c1) by (unfold WI; rewrite Er; exact HW).
    destruct (bi m); [|eauto]. destruct (Hb eq_refl) as ((r & Hin & Hm) & z & ->). rewrite Er.
    rewrite (find_req_in m (reqs c) r); auto; [|apply HI].
    assert (finished r = false) as Hfin by (destruct HI as [_ Hx]; rewrite Forall_forall in Hx; auto).
    unfold finished in Hfin. destruct (r_listeners r) as [ls|] eqn:El; [|discriminate].
    destruct (notify_all_total (fun _ => False) ls (with_maps c1 (upd (maps c1) m (with_val (maps c1 m) (Some (VNum z))))) now m) as (c3 & e3 & -> & X & Y & _); eauto.
    + apply MI_upd; auto. apply map_ok_val. auto.
    + unfold FI. cbn. rewrite Er. apply (HF (fun _ => False)).
  - pose proof (lost_total bi (reqs c) (proj2 HI) (maps c)) as Hl. destruct (connection_lost bi (maps c) (reqs c)) as [[f e]|] eqn:E; [|congruence].
    eexists _, _. split; [reflexivity|]. split; [|exact HW]. exact (lost_safe _ _ _ _ E HM).
  - eexists _, _. split; [reflexivity|]. split; [|exact HW]. apply MI_upd; auto. apply map_ok_val. auto.
Qed.

(* The state invariants hold whenever the state has been reached, allowed calls or not. *)
Lemma init_MI : MI (init_client maps0 lt).
Proof. intros m. repeat split; auto; [|apply tmpl_sim_refl]. cbn. destruct (Hsound m) as [? ? ? E|? ? ? ? ? ? ? E]; rewrite E; exact I. Qed.
Lemma crun_safe ops : forall c c' evs, Inv bi maps0 lt c -> MI c -> WI c -> crun bi c ops = Ok (c', evs) -> Inv bi maps0 lt c' /\ MI c' /\ WI c'.
Proof.
  induction ops as [|o ops IH]; intros c c' evs HI HM HW H; cbn in H; [inv H; auto|].
  destruct (cstep bi c o) as [[c1 e1]|] eqn:Es; [|discriminate].
  destruct (crun bi c1 ops) as [[c2 es]|] eqn:Er; [|discriminate]. inv H.
  destruct (cstep_ok bi maps0 lt Hself _ _ _ _ HI Es) as [HI1 _].
  destruct (cstep_safe c o HI HM HW (ok_allowed' _ _ _ _ Es)) as (c1' & e1' & E & HM1 & HW1). rewrite Es in E. inv E. eapply IH; eauto.
Qed.
Lemma reached_safe ops c evs : reached bi maps0 lt ops c evs -> Inv bi maps0 lt c /\ MI c /\ WI c.
Proof. intros (_ & H). eapply crun_safe; [apply init_inv|apply init_MI|constructor|exact H]. Qed.

Lemma c58_step ops c evs o : reached bi maps0 lt ops c evs -> allowed bi maps0 c o -> exists c' ev, cstep bi c o = Ok (c', ev).
Proof.
  intros H Ha. destruct (reached_safe _ _ _ H) as (HI & HM & HW).
  destruct (cstep_safe c o HI HM HW (allowed_allowed' c o HM Ha)) as (c' & ev & E & _). eauto.
Qed.

(* ---- whole histories ---- *)

Definition never_req (c : client) (m : mid) : Prop := find_req m (reqs c) = None.

Lemma crun_snoc ops o : forall c, crun bi c (ops ++ [o]) =
  match crun bi c ops with Raise => Raise | Ok (c1, es) => match cstep bi c1 o with Raise => Raise | Ok (c2, e) => Ok (c2, es ++ [e]) end end.
Proof.
  induction ops as [|o' ops IH]; intros c; cbn; [destruct (cstep bi c o) as [[? ?]|]; auto|].
  destruct (cstep bi c o') as [[c1 e1]|]; auto. rewrite IH. destruct (crun bi c1 ops) as [[c2 es]|]; auto.
  destruct (cstep bi c2 o) as [[c3 e3]|]; auto.
Qed.

Lemma request_t_step c o c' ev : Inv bi maps0 lt c -> MI c -> WI c -> cstep bi c o = Ok (c', ev) -> forall m,
  request_t (maps c' m) = request_t (maps c m) \/ (bi m = true /\ request_t (maps c' m) = TNone).
Proof.
  intros HI HM HW H m. assert (Hv : forall (f : mid -> mapping) k v, request_t (upd f k (with_val (f k) v) m) = request_t (f m)).
  { intros f k v. unfold upd. destruct (m =? k)%nat eqn:E; auto. apply Nat.eqb_eq in E. subst. reflexivity. }
  destruct o as [now k l|now k l|now x|now k a| |k v]; cbn in H.
  - unfold register in H. set (c1 := if bi k then _ else c) in *.
    assert (request_t (maps c1 m) = request_t (maps c m) \/ (bi m = true /\ request_t (maps c1 m) = TNone)) as H1.
    { unfold c1. destruct (bi k) eqn:Eb; auto. cbn. unfold upd. destruct (m =? k)%nat eqn:E; auto. apply Nat.eqb_eq in E. subst. auto. }
    destruct (negb _ && _); [|inv H; auto]. destruct (register_deps _ _ _ _ _ _ _ H) as [_ ->]. auto.
  - unfold request_param in H. destruct (negb _ || negb _); [inv H; auto|].
    destruct (depends (maps c k)); destruct (register_deps _ _ _ _ _ _ _ H) as [_ ->]; [|auto]. destruct (find_dep k (deps c)); auto.
  - destruct (receive c now x) as [[[c1 e1]|]|] eqn:E; try discriminate. inv H.
    left. unfold receive in E. destruct (timeouts c now) as [c1 e1] eqn:Et. destruct (timeouts_facts _ _ _ _ Et) as (_ & _ & V & _).
    destruct (V m) as (v & Ev). assert (request_t (maps c1 m) = request_t (maps c m)) as E1 by (rewrite Ev; reflexivity).
    destruct x as [x|]; [|inv E; exact E1].
    destruct (receive_loop _ c1 now 0 x) as [[[[[c2 e2] p2] f2]|]|] eqn:El; try discriminate. inv E.
    assert (request_t (maps c2 m) = request_t (maps c1 m)) as E2.
    { clear - El. revert El. generalize (S (length (reqs c1) + length (deps c1))) at 1. generalize 0%nat. intros i n.
      revert c1 i c2 e2 p2 f2. induction n as [|n IH]; intros c1 i c2 e2 p2 f2 H; cbn in H; [discriminate|].
      destruct (length (reqs c1) <=? i)%nat; [inv H; auto|].
      destruct (parse_request c1 now i x) as [[[c3 e3] p3]|] eqn:Ep; [|discriminate].
      destruct (receive_loop n c3 now (S i) x) as [[[[[c4 e4] p4] f4]|]|] eqn:El; try discriminate. inv H.
      rewrite (IH _ _ _ _ _ _ El). unfold parse_request in Ep. destruct (nth_error (reqs c1) i) as [r|]; [|inv Ep; auto].
      destruct (negb _); [inv Ep; auto|]. destruct (r_listeners r) as [ls|]; [|inv Ep; auto].
      destruct (parse _ x) as [[m' b]|] eqn:Epp; [|discriminate]. destruct (parse_fields _ _ _ _ Epp) as (Fr & _).
      assert (request_t (upd (maps c1) (r_map r) m' m) = request_t (maps c1 m)) as Hu.
      { unfold upd. destruct (m =? r_map r)%nat eqn:E; auto. apply Nat.eqb_eq in E. subst. auto. }
      destruct b; [|inv Ep; auto]. destruct (negb _); [inv Ep; exact Hu|].
      destruct (notify_all _ now _ ls) as [[c5 ev5]|] eqn:Ea; [|discriminate]. destruct (notify_all_events _ _ _ _ _ _ Ea) as (_ & M & _).
      destruct (r_life r); inv Ep; cbn [maps with_reqs]; rewrite M; exact Hu. }
    destruct f2; cbn [maps with_reqs]; congruence.
  - left. destruct (set_param_shape _ _ _ _ _ _ _ H) as (c1 & e1 & H1 & H2).
    assert (request_t (maps c1 m) = request_t (maps c m)) as E1.
    { destruct H1 as [(_ & -> & _)|(m' & _ & Es & -> & _)]; auto. cbn. unfold upd. destruct (m =? k)%nat eqn:E; auto.
      apply Nat.eqb_eq in E. subst. destruct (HM k) as (_ & _ & _ & _ & Hs). destruct (set_value_sim _ _ _ _ _ Hs Es) as (_ & _ & _ & _ & _ & R & _). exact R. }
    destruct H2 as [(_ & -> & _)|(_ & r & ls & z & e2 & _ & _ & _ & _ & Hn)]; [auto|].
    destruct (notify_all_events _ _ _ _ _ _ Hn) as (_ & M & _). rewrite M. cbn [maps with_maps]. rewrite Hv. exact E1.
  - destruct (connection_lost bi (maps c) (reqs c)) as [[f e]|] eqn:E; [|discriminate]. injection H as <- _. left. cbn.
    revert E. generalize (maps c). generalize (reqs c). clear. intros l. revert e f. induction l as [|r l IH]; intros e f f0 H; cbn in H; [inv H; auto|].
    destruct (bi (r_map r)); [|eapply IH; eauto]. destruct (r_listeners r) as [ls|]; [|discriminate].
    destruct (connection_lost bi _ l) as [[f2 e2]|] eqn:E; [|discriminate]. inv H. rewrite (IH _ _ _ E).
    destruct (notify_terminated_val f0 (r_map r) ls m) as (v & Ev). cbn in Ev. rewrite Ev. reflexivity.
  - inv H. left. cbn. apply Hv.
Qed.

(* Before its registration there is no request for a parameter that is used by nobody. *)
Lemma find_filter_none m (q : request -> bool) l : find_req m l = None -> find_req m (filter q l) = None.
Proof.
  rewrite !find_req_none. intros H Hi. apply H. apply in_map_iff in Hi. destruct Hi as (r & <- & Hr). apply filter_In in Hr. apply in_map. tauto.
Qed.
Lemma loop_frame m fuel : forall c now i x c' evs q f, I0 c -> find_dep m (deps c) = None -> find_req m (reqs c) = None ->
  receive_loop fuel c now i x = Some (Ok (c', evs, q, f)) -> find_dep m (deps c') = None /\ find_req m (reqs c') = None.
Proof.
  induction fuel as [|fuel IH]; intros c now i x c' evs q f HI Hd Hn H; cbn in H; [discriminate|].
  destruct (length (reqs c) <=? i)%nat; [inv H; auto|].
  destruct (parse_request c now i x) as [[[c1 e1] p1]|] eqn:Ep; [|discriminate].
  destruct (receive_loop fuel c1 now (S i) x) as [[[[[c2 e2] p2] f2]|]|] eqn:El; try discriminate. inv H.
  assert (Hne : forall r, nth_error (reqs c) i = Some r -> r_map r <> m).
  { intros r Hr E. apply nth_error_In in Hr. apply find_req_none in Hn. apply Hn. rewrite <- E. apply in_map. auto. }
  destruct (parse_request_frame bi maps0 lt m _ _ _ _ _ _ _ HI Hd Hne Ep) as (A & _ & D & _).
  destruct (parse_request_ok bi maps0 lt _ _ _ _ _ _ _ HI Ep) as (HI1 & _). eapply IH; [exact HI1|exact D| |exact El]. congruence.
Qed.
Lemma timeouts_frame m c now c' ev : Inv bi maps0 lt c -> timeouts c now = (c', ev) -> find_req m (reqs c) = None -> find_req m (reqs c') = None.
Proof.
  intros ((Hcfg & Hnd & Hok) & _) H Hn. unfold timeouts, p_exceeded in H. destruct (_ <? now); cbn in H; [|inv H; auto].
  destruct (expire (maps c) now (reqs c)) as [[f rs] e] eqn:E. inv H.
  assert (Hmaps : map r_map rs = map r_map (reqs c)) by (eapply (expire_ok bi maps0 lt); eauto).
  cbn. apply find_filter_none. apply find_req_none. rewrite Hmaps. apply find_req_none. auto.
Qed.

Lemma find_dep_snoc j k x l : find_dep j (l ++ [(k, x)]) = match find_dep j l with Some y => Some y | None => if (k =? j)%nat then Some x else None end.
Proof. induction l as [|[k' y] l IH]; cbn; auto. destruct (k' =? j)%nat; auto. Qed.

(* What is known about a parameter that the history registers before doing anything else with it. *)
Definition untouched (c : client) (m : mid) : Prop := find_req m (reqs c) = None /\ find_dep m (deps c) = None.
Definition settled (c : client) (m : mid) : Prop :=
  perm_l (reqs c) m <> None /\ find_dep m (deps c) = None /\ request_t (maps c m) = TNone.

Lemma deps_step c o c' ev m : Inv bi maps0 lt c -> cstep bi c o = Ok (c', ev) -> find_dep m (deps c) = None ->
  (match o with Request _ k _ => k = m -> truthy (request_t (maps c m)) = false | _ => True end) -> find_dep m (deps c') = None.
Proof.
  intros HI H Hd Hu. assert (Hna : forall ls c now k c' evs, notify_all c now k ls = Ok (c', evs) -> find_dep m (deps c) = None -> find_dep m (deps c') = None).
  { intros ls c0 now k c0' evs Hx Hy. exact (proj2 (notify_all_frame lt m ls c0 now k c0' evs Hy Hx)). }
  destruct o as [now k l|now k l|now x|now k a| |k v]; cbn in H.
  - unfold register in H. destruct (negb _ && _); [|inv H; destruct (bi k); auto].
    destruct (register_deps _ _ _ _ _ _ _ H) as [-> _]. destruct (bi k); auto.
  - unfold request_param in H. destruct (negb _ || negb _) eqn:En; [inv H; auto|].
    destruct (depends (maps c k)); destruct (register_deps _ _ _ _ _ _ _ H) as [-> _]; [|auto].
    destruct (find_dep k (deps c)) eqn:Ek; auto. cbn. rewrite find_dep_snoc, Hd. destruct (k =? m)%nat eqn:E; auto.
    apply Nat.eqb_eq in E. subst. rewrite (Hu eq_refl) in En. discriminate.
  - destruct (receive c now x) as [[[c1 e1]|]|] eqn:E; try discriminate. inv H. unfold receive in E.
    destruct (timeouts c now) as [c1 e1] eqn:Et. destruct (timeouts_facts _ _ _ _ Et) as (_ & _ & _ & Ed).
    destruct x as [x|]; [|inv E; congruence].
    destruct (receive_loop _ c1 now 0 x) as [[[[[c2 e2] p2] f2]|]|] eqn:El; try discriminate. inv E.
    assert (find_dep m (deps c2) = None) as H2.
    { rewrite <- Ed in Hd. clear - El Hd Hna. revert El. generalize (S (length (reqs c1) + length (deps c1))) at 1. generalize 0%nat. intros i n.
      revert c1 i c2 e2 p2 f2 Hd. induction n as [|n IH]; intros c1 i c2 e2 p2 f2 Hd H; cbn in H; [discriminate|].
      destruct (length (reqs c1) <=? i)%nat; [inv H; auto|].
      destruct (parse_request c1 now i x) as [[[c3 e3] p3]|] eqn:Ep; [|discriminate].
      destruct (receive_loop n c3 now (S i) x) as [[[[[c4 e4] p4] f4]|]|] eqn:El; try discriminate. inv H.
      eapply IH; [|exact El]. unfold parse_request in Ep. destruct (nth_error (reqs c1) i) as [r|]; [|inv Ep; auto].
      destruct (negb _); [inv Ep; auto|]. destruct (r_listeners r) as [ls|]; [|inv Ep; auto].
      destruct (parse _ x) as [[m' b]|] eqn:Epp; [|discriminate]. destruct b; [|inv Ep; auto]. destruct (negb _); [inv Ep; auto|].
      destruct (notify_all _ now _ ls) as [[c5 ev5]|] eqn:Ea; [|discriminate]. apply Hna in Ea; auto. destruct (r_life r); inv Ep; auto. }
    destruct f2; exact H2.
  - destruct (set_param_shape _ _ _ _ _ _ _ H) as (c1 & e1 & H1 & H2).
    assert (deps c1 = deps c) as E1 by (destruct H1 as [(_ & -> & _)|(m' & _ & Es & -> & _)]; auto).
    destruct H2 as [(_ & -> & _)|(_ & r & ls & z & e2 & _ & _ & _ & _ & Hn)]; [congruence|]. apply Hna in Hn; auto. cbn. congruence.
  - destruct (connection_lost bi (maps c) (reqs c)) as [[f e]|] eqn:E; [|discriminate]. inv H. exact Hd.
  - inv H. exact Hd.
Qed.

Lemma reqs_step c o c' ev m : Inv bi maps0 lt c -> cstep bi c o = Ok (c', ev) -> untouched c m ->
  (forall now l, o <> Register now m l) -> ~ uses maps0 o m -> find_req m (reqs c') = None.
Proof.
  intros HI H [Hn Hd] Hr Hu.
  assert (Hreg : forall c now k l send c' evs, k <> m -> register_mapping c now k l send = Ok (c', evs) -> find_req m (reqs c) = None -> find_req m (reqs c') = None).
  { intros c0 now k l send c0' evs Hk Hx Hy. destruct (register_frame lt _ _ _ _ _ _ _ m Hk Hx) as [-> _]. auto. }
  destruct o as [now k l|now k l|now x|now k a| |k v]; cbn in H.
  - unfold register in H. destruct (negb _ && _); [|inv H; destruct (bi k); auto]. eapply Hreg; [|exact H|destruct (bi k); auto].
    intros ->. apply (Hr now l). reflexivity.
  - unfold request_param in H. destruct (negb _ || negb _) eqn:En; [inv H; auto|]. cbn in Hu.
    destruct (depends (maps c k)) as [p|] eqn:Ed; (eapply Hreg; [|exact H|]); auto.
    + intros ->. apply Hu. right. destruct HI as (((_ & _ & _ & Hdep) & _) & _). destruct (Hdep k) as [E|E]; rewrite Ed in E; [auto|discriminate].
    + destruct (find_dep k (deps c)); auto.
  - destruct (receive c now x) as [[[c1 e1]|]|] eqn:E; try discriminate. inv H. unfold receive in E.
    destruct (timeouts c now) as [c1 e1] eqn:Et. destruct (timeouts_facts _ _ _ _ Et) as (_ & _ & _ & Ed).
    destruct (timeouts_ok _ _ _ _ _ _ _ HI Et) as (HI1 & _). pose proof (timeouts_frame m _ _ _ _ HI Et Hn) as Hn1.
    destruct x as [x|]; [|inv E; congruence].
    destruct (receive_loop _ c1 now 0 x) as [[[[[c2 e2] p2] f2]|]|] eqn:El; try discriminate. inv E.
    rewrite <- Ed in Hd. destruct (loop_frame m _ _ _ _ _ _ _ _ _ (proj1 HI1) Hd Hn1 El) as [_ H2].
    destruct f2; [|exact H2]. apply find_filter_none. exact H2.
  - destruct (set_param_shape _ _ _ _ _ _ _ H) as (c1 & e1 & H1 & H2).
    assert (deps c1 = deps c /\ reqs c1 = reqs c) as [E1 E2] by (destruct H1 as [(_ & -> & _)|(m' & _ & Es & -> & _)]; auto).
    destruct H2 as [(_ & -> & _)|(_ & r & ls & z & e2 & _ & _ & _ & _ & Hx)]; [congruence|].
    apply (notify_all_frame lt m) in Hx; cbn [deps with_maps reqs] in *; [|congruence]. destruct Hx as [-> _]. congruence.
  - destruct (connection_lost bi (maps c) (reqs c)) as [[f e]|] eqn:E; [|discriminate]. inv H. exact Hn.
  - inv H. exact Hn.
Qed.

Lemma register_settles c now m l c' ev : bi m = true -> truthy (response_t (maps0 m)) = true -> MI c ->
  untouched c m -> cstep bi c (Register now m l) = Ok (c', ev) -> settled c' m.
Proof.
  intros Hb Hr HM [Hn Hd] H. cbn in H. unfold register in H. rewrite Hb in H. cbn [maps with_maps] in H. unfold upd in H.
  rewrite Nat.eqb_refl in H. cbn [request_t response_t without_request] in H. destruct (HM m) as (E & _). rewrite E, Hr in H. cbn [truthy negb andb] in H.
  unfold register_mapping in H. cbn [reqs with_maps] in H. rewrite Hn in H. unfold create_request in H. cbn [maps with_maps] in H. rewrite Nat.eqb_refl in H.
  cbn [request_t without_request truthy] in H. injection H as <- _. unfold settled, perm_l. cbn [reqs with_reqs deps with_maps maps].
  rewrite Nat.eqb_refl, find_req_app, Hn. split; [|split; auto]. destruct l; cbn; rewrite Nat.eqb_refl; discriminate.
Qed.
Lemma settled_step c o c' ev m : Inv bi maps0 lt c -> MI c -> WI c -> cstep bi c o = Ok (c', ev) -> settled c m -> settled c' m.
Proof.
  intros HI HM HW H (Hp & Hd & Hq). split; [|split].
  - destruct (perm_l (reqs c) m) as [ls|] eqn:E; [|congruence]. destruct (cstep_pext bi maps0 lt m _ _ _ _ HI H ls E) as (more & ->). discriminate.
  - eapply deps_step; eauto. destruct o; auto. rewrite Hq. reflexivity.
  - destruct (request_t_step _ _ _ _ HI HM HW H m) as [E|[_ E]]; congruence.
Qed.

Lemma c58_history ops : orderly bi maps0 ops -> exists c evs, crun bi (init_client maps0 lt) ops = Ok (c, evs).
Proof.
  intros (Hfit & Hord).
  assert (Hgen : forall pre post, ops = pre ++ post -> exists c evs, crun bi (init_client maps0 lt) pre = Ok (c, evs) /\
    forall m, bi m = true -> set_somewhere ops m -> settled c m \/ (untouched c m /\ forall now l, ~ In (Register now m l) pre)).
  { intros pre. induction pre as [|o pre IH] using rev_ind; intros post E.
    - exists (init_client maps0 lt), []. split; [reflexivity|]. intros m _ _. right. split; [split; reflexivity|auto].
    - rewrite <- app_assoc in E. cbn in E. destruct (IH _ E) as (c & evs & Hr & Hm).
      assert (reached bi maps0 lt pre c evs) as Hreach by (split; auto). destruct (reached_safe _ _ _ Hreach) as (HI & HM & HW).
      assert (Hin : In o ops) by (rewrite E; apply in_or_app; right; left; auto).
      assert (allowed bi maps0 c o) as Ha.
      { destruct o as [| | |now m a| |]; cbn; auto. destruct (Hfit _ _ _ Hin) as [F1 F2]. split; auto. intros Hb.
        destruct (F2 Hb) as [_ Hz]. split; auto.
        assert (Hss : set_somewhere ops m) by (exists now, a; auto).
        destruct (Hm m Hb Hss) as [(Hp & _)|[_ Hnr]].
        - unfold perm_l in Hp. destruct (find_req m (reqs c)) as [r|] eqn:Ef; [|congruence]. apply find_req_some in Ef. exists r. auto.
        - exfalso. destruct (Hord pre _ post m E Hb Hss eq_refl) as (t & l & Hi). exact (Hnr t l Hi). }
      destruct (cstep_safe c o HI HM HW (allowed_allowed' c o HM Ha)) as (c' & ev & Es & _).
      exists c', (evs ++ [ev]). rewrite crun_snoc, Hr, Es. split; [reflexivity|]. intros m Hb Hss.
      destruct (Hm m Hb Hss) as [Hs|[Hu Hnr]]; [left; eapply settled_step; eauto|].
      assert (Hresp : truthy (response_t (maps0 m)) = true) by (destruct Hss as (t & a & Hi); destruct (Hfit _ _ _ Hi) as [_ F]; apply F; auto).
      assert (~ uses maps0 o m) as Hnu.
      { intros Hx. destruct (Hord pre o post m E Hb Hss Hx) as (t & l & Hi). exact (Hnr t l Hi). }
      destruct o as [now k l|now k l|now x|now k a| |k v].
      + destruct (Nat.eq_dec k m) as [->|Hne]; [left; eapply register_settles; eauto|].
        right. split; [split|].
        * eapply reqs_step; eauto. congruence.
        * eapply deps_step; [exact HI|exact Es|apply Hu|exact I].
        * intros t l' Hi. apply in_app_or in Hi. destruct Hi as [Hi|[Hi|[]]]; [exact (Hnr _ _ Hi)|]. congruence.
      + right. split; [split|].
        * eapply reqs_step; eauto. congruence.
        * eapply deps_step; [exact HI|exact Es|apply Hu|]. cbn in Hnu |- *. intros ->. tauto.
        * intros t l' Hi. apply in_app_or in Hi. destruct Hi as [Hi|[Hi|[]]]; [exact (Hnr _ _ Hi)|discriminate].
      + right. split; [split|].
        * eapply reqs_step; eauto. congruence.
        * eapply deps_step; [exact HI|exact Es|apply Hu|exact I].
        * intros t l' Hi. apply in_app_or in Hi. destruct Hi as [Hi|[Hi|[]]]; [exact (Hnr _ _ Hi)|discriminate].
      + right. split; [split|].
        * eapply reqs_step; eauto. congruence.
        * eapply deps_step; [exact HI|exact Es|apply Hu|exact I].
        * intros t l' Hi. apply in_app_or in Hi. destruct Hi as [Hi|[Hi|[]]]; [exact (Hnr _ _ Hi)|discriminate].
      + right. split; [split|].
        * eapply reqs_step; eauto. congruence.
        * eapply deps_step; [exact HI|exact Es|apply Hu|exact I].
        * intros t l' Hi. apply in_app_or in Hi. destruct Hi as [Hi|[Hi|[]]]; [exact (Hnr _ _ Hi)|discriminate].
      + right. split; [split|].
        * eapply reqs_step; eauto. congruence.
        * eapply deps_step; [exact HI|exact Es|apply Hu|exact I].
        * intros t l' Hi. apply in_app_or in Hi. destruct Hi as [Hi|[Hi|[]]]; [exact (Hnr _ _ Hi)|discriminate]. }
  destruct (Hgen ops []) as (c & evs & H & _); [rewrite app_nil_r; auto|eauto].
Qed.
End Safe.
