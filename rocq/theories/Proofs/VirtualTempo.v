(* The tempo of the virtual device: it is kept in whole beats per minute. *)
From Coq Require Import String.
From Verif.Lib Require Import Base.
From Verif.Model Require Import Midi Mapping KemperMappings VirtualParams.
From Verif.Spec Require Import VirtualParams.
From Verif.Proofs Require Import Codec VirtualParams.
Local Open Scope list_scope.

Lemma tempo_cases v : v = 16383 /\ tempo_value v = 16383 \/ v <> 16383 /\ 256 <= (v + 32) / 64 /\ tempo_value v = 16383 \/ v <> 16383 /\ (v + 32) / 64 < 256 /\ tempo_value v = (v + 32) / 64 * 64.
Proof.
  unfold tempo_value. destruct (Z.eqb_spec v 16383) as [->|H]; [left; split; reflexivity|right]. cbv zeta. generalize ((v + 32) / 64) as b. intros b. destruct (Z.leb_spec 256 b); auto.
Qed.
Lemma tempo_fixed v : tempo_value (tempo_value v) = tempo_value v.
Proof.
  destruct (tempo_cases v) as [[_ ->]|[[_ [_ ->]]|[_ [H ->]]]]; try reflexivity. revert H. generalize ((v + 32) / 64) as b. intros b H.
  destruct (tempo_cases (b * 64)) as [[E ->]|[[_ [E _]]|[_ [_ ->]]]]; lia.
Qed.
Lemma tempo_near v : 0 <= v < 16384 -> Z.abs (tempo_value v - v) <= 32 /\ (tempo_value v mod 64 = 0 \/ tempo_value v = 16383).
Proof. intros H. destruct (tempo_cases v) as [[E ->]|[[E [F ->]]|[E [F ->]]]]; lia. Qed.

Definition whole (s : vdev) : Prop := forall n, value_of (addr 4 0) s = JNum n -> tempo_value n = n.
Lemma tempo_param s : Inv s -> exists q, find_param (addr 4 0) (vd_params s) = Some q /\ p_cb q = CbTempo /\ p_str q = false /\ p_nobuf q = false /\ p_send q = Some (KNrpn [4; 0]) /\ p_id q = addr 4 0.
Proof.
  intros [[ks [Hs _]] _]. assert (find_param (addr 4 0) (map blank (vd_params s)) = Some (blank (new_param (Some (nkey 4 0)) [] (JNum 7680) [] false CbTempo))) as H by (rewrite Hs, find_app; reflexivity).
  rewrite find_blank in H. destruct (find_param (addr 4 0) (vd_params s)) as [q|]; [|discriminate]. cbn in H. exists q. split; [reflexivity|].
  assert (blank q = blank (new_param (Some (nkey 4 0)) [] (JNum 7680) [] false CbTempo)) as Hb by congruence. clear H.
  destruct q as [a b c d e g h]. cbn in Hb. inversion Hb. subst. repeat split; reflexivity.
Qed.
Lemma not_internal : ~ In (addr 4 0) internal. Proof. unfold internal, addr. cbn. intros C. repeat destruct C as [C|C]; try contradiction; discriminate C. Qed.
Lemma tempo_other date i v s : Inv s -> i <> addr 4 0 -> value_of (addr 4 0) (fst (set_val date i v s)) = value_of (addr 4 0) s.
Proof.
  intros I Hne. unfold set_val. destruct (find_param i (vd_params s)) as [p|] eqn:E; auto. destruct (find_id _ _ _ E) as [Hid Hin]. repeat case_if; auto.
  assert (value_of (addr 4 0) (mkD (write i v (vd_params s)) (vd_set s) (vd_last s)) = value_of (addr 4 0) s) as H.
  { unfold value_of. cbn. rewrite find_write, ids_eqb_neq by congruence. destruct (find_param (addr 4 0) (vd_params s)); reflexivity. }
  pose proof (value_run_cb (addr 4 0) date p v (mkD (write i v (vd_params s)) (vd_set s) (vd_last s)) not_internal) as Hc.
  destruct (run_cb date p v _) as [s1 o]. cbn [fst] in *. rewrite Hc; auto. intros Ec C. congruence.
Qed.
Lemma tempo_same date v s : Inv s -> whole s -> value_of (addr 4 0) (fst (set_val date (addr 4 0) (JNum v) s)) = JNum (tempo_value v).
Proof.
  intros I W. destruct (tempo_param s I) as (q & Hq & Hc & Hstr & Hb & Hsd & Hid). unfold set_val. rewrite Hq, Hb. cbn [negb andb]. destruct (jval_eqb (p_val q) (JNum v)) eqn:E.
  - apply jval_eqb_eq in E. cbn [fst]. rewrite (value_find _ _ _ Hq), E. rewrite (W v); [reflexivity|]. rewrite (value_find _ _ _ Hq). exact E.
  - unfold well_typed. rewrite Hstr. cbn [negb]. set (s1 := mkD (write (addr 4 0) (JNum v) (vd_params s)) (vd_set s) (vd_last s)).
    assert (find_param (addr 4 0) (vd_params s1) = Some (with_pval q (JNum v))) as Hq1. { unfold s1. cbn [vd_params]. rewrite find_write, ids_eqb_refl, Hq. reflexivity. }
    unfold run_cb. rewrite Hc, Hid. destruct (Z.eqb_spec (tempo_value v) v) as [Et|Et]; [|rewrite (surjective_pairing (set_raw _ _ _))]; cbn [fst].
    + rewrite (value_find _ _ _ Hq1), Et. reflexivity.
    + apply (value_raw_same _ _ _ _ Hq1). cbn. rewrite Hstr. reflexivity.
Qed.
Lemma whole_val date i v s : Inv s -> whole s -> whole (fst (set_val date i v s)).
Proof.
  intros I W n. assert (i = addr 4 0 \/ i <> addr 4 0) as [->|Hne] by (destruct (ids_eqb i (addr 4 0)) eqn:Ei; [left; apply ids_eqb_eq, Ei|right; intros ->; rewrite ids_eqb_refl in Ei; discriminate]); [|rewrite tempo_other by assumption; apply W].
  destruct v as [|m|t].
  - destruct (tempo_param s I) as (q & Hq & Hc & Hstr & Hb & Hsd & Hid). unfold set_val. rewrite Hq. repeat case_if; try apply W. unfold run_cb. rewrite Hc. cbn [fst]. unfold value_of. cbn [vd_params]. rewrite find_write, ids_eqb_refl, Hq. cbn. discriminate.
  - rewrite tempo_same by assumption. intros E. inversion E. apply tempo_fixed.
  - destruct (tempo_param s I) as (q & Hq & Hc & Hstr & Hb & Hsd & Hid). unfold set_val. rewrite Hq. unfold well_typed. rewrite Hstr. cbn [negb]. repeat case_if; apply W.
Qed.
Lemma whole_get k s : whole s -> whole (get_param k s). Proof. intros W n. rewrite value_get. apply W. Qed.
Lemma whole_act date i a s : Inv s -> whole s -> whole (fst (act date i a s)).
Proof. intros I W. destruct a; cbn [act fst]; [exact W|apply whole_val; assumption]. Qed.
Lemma whole_get_and_parse date k m s : okkey k -> Inv s -> whole s -> whole (fst (get_and_parse date k m s)).
Proof.
  intros Hk I W. unfold get_and_parse. destruct (find_param _ _); [|apply whole_get, W]. destruct (parse_param _ _); [|apply whole_get, W]. apply whole_act; [apply inv_get; assumption|apply whole_get, W].
Qed.
Lemma whole_default date str m s r : Inv s -> whole s -> parse_default date str m s = Some r -> whole (fst r).
Proof.
  intros I W H. unfold parse_default in H. destruct m as [c v|v|man data| |]; try discriminate.
  - inversion H. apply whole_get_and_parse; auto. reflexivity.
  - inversion H. apply whole_get_and_parse; auto. exact Logic.I.
  - destruct (negb (bytes_eqb man [0; 32; 51])); [discriminate|]. cbv zeta in H. case_if_in H.
    + inversion H. cbn [fst]. apply whole_get, W.
    + case_if_in H; [|discriminate]. inversion H. apply whole_get_and_parse; auto. eapply okkey_default; [|exact Heqb0]; reflexivity.
Qed.
Lemma whole_step s o : Inv s -> proper o -> whole s -> whole (fst (vd_step s o)).
Proof.
  intros I Hp W. destruct o as [m date|k v date|id date|k|x init|]; cbn [vd_step].
  - unfold receive_msg. destruct (parse_store (vd_params s) m) as [[i a]|]; [apply whole_act; auto|].
    destruct (parse_default date false m s) eqn:E1; [apply (whole_default _ _ _ _ _ I W E1)|].
    destruct (parse_default date true m s) eqn:E2; [apply (whole_default _ _ _ _ _ I W E2)|]. exact W.
  - apply whole_val; [apply inv_get; [apply okkey_proper, Hp|exact I]|apply whole_get, W].
  - intros n. rewrite value_set_rig by apply not_internal. apply W.
  - apply whole_get, W.
  - exact W.
  - exact W.
Qed.
Lemma whole_after date ops : Forall proper ops -> whole (vd_after date ops).
Proof.
  unfold vd_after. induction ops as [|o ops IH] using rev_ind_snoc; intros H.
  - intros n E. vm_compute in E. inversion E. reflexivity.
  - apply Forall_app in H. destruct H as [H1 H2]. rewrite run_snoc. cbn [fst]. apply whole_step; [apply inv_after, H1|apply (Forall_inv H2)|auto].
Qed.

Lemma tempo_store s data : Inv s -> Forall data_byte data -> forall c t, data = [2; 127; c; 0; 4; 0] ++ t -> (c = 65 \/ c = 1) ->
  parse_store (vd_params s) (SysEx [0; 32; 51] data) = Some (addr 4 0, if c =? 65 then ASend else ASet (eval_nrpn false t)).
Proof.
  intros I Hd c t Ed Hc. destruct (tempo_param s I) as (q & Hq & _ & Hstr & _ & Hsd & Hid). destruct (find_id _ _ _ Hq) as [_ Hin].
  destruct (parse_store (vd_params s) (SysEx [0; 32; 51] data)) as [[i a]|] eqn:E.
  - destruct (store_inv _ _ _ _ I E) as (q' & Hq' & Hi & Hf & Ha). destruct (accept_sysex s q' _ _ a I Hq' Hd Ha) as (_ & x & y & t' & Hid' & Hsd' & D).
    assert (x = 4 /\ y = 0) as [-> ->] by (destruct D as [[_ D]|[_ D]]; rewrite Ed in D; inversion D; auto).
    assert (q' = q) as -> by (rewrite Hi in Hid'; rewrite Hid' in Hf; unfold addr in Hq; congruence). rewrite Hstr in D.
    destruct D as [[-> D]|[-> D]]; rewrite Ed in D; inversion D; subst; rewrite Hid; reflexivity.
  - exfalso. assert (In (KNrpn [4; 0]) (p_recv q)) as Hr by (apply (find_num s 4 0 q I Hq)). apply store_none with (p := q) in E; [|exact Hin].
    unfold parse_param in E. apply (keys_none _ _ _ _ E) in Hr. rewrite Hstr, Ed in Hr. destruct Hc as [-> | ->]; discriminate Hr.
Qed.

Lemma tempo_read date ops v m d now : Forall proper ops -> 0 <= v < 16384 -> told TempoBpm v = Some m ->
  heard TempoBpm (answers date (ops ++ [VRecv m d]) (ask 4 0) now) = Some (VNum (tempo_value v)).
Proof.
  intros Hp Hv Hm. rewrite (told_nrpn TempoBpm 4 0 v eq_refl eq_refl eq_refl eq_refl Hv) in Hm. assert (m = SysEx [0; 32; 51] [2; 127; 1; 0; 4; 0; v / 128; v mod 128]) as -> by congruence. clear Hm.
  assert (Forall data_byte [2; 127; 1; 0; 4; 0; v / 128; v mod 128]) as Hd by (repeat constructor; unfold data_byte; lia).
  pose proof (inv_after date ops Hp) as I. pose proof (whole_after date ops Hp) as W.
  assert (vd_after date (ops ++ [VRecv (SysEx [0; 32; 51] [2; 127; 1; 0; 4; 0; v / 128; v mod 128]) d]) = fst (set_val d (addr 4 0) (JNum v) (vd_after date ops))) as Es.
  { unfold vd_after. rewrite run_snoc. cbn [fst vd_step]. unfold receive_msg. fold (vd_after date ops). rewrite (tempo_store _ _ I Hd 1 [v / 128; v mod 128] eq_refl (or_intror eq_refl)).
    cbn [Z.eqb act eval_nrpn]. replace (v / 128 * 128 + v mod 128) with v by lia. reflexivity. }
  unfold heard, answers. rewrite hear_plain by reflexivity. rewrite Es. set (s := fst (set_val d (addr 4 0) (JNum v) (vd_after date ops))).
  assert (Inv s) as Is by (apply (inv_same _ _ (same_set_val d _ _ _) I)). assert (value_of (addr 4 0) s = JNum (tempo_value v)) as Vs by (apply tempo_same; assumption).
  cbn [vd_step]. unfold receive_msg. assert (Forall data_byte [2; 127; 65; 0; 4; 0]) as Hd2 by (repeat constructor; unfold data_byte; lia).
  change (ask 4 0) with (SysEx [0; 32; 51] [2; 127; 65; 0; 4; 0]). rewrite (tempo_store s _ Is Hd2 65 [] eq_refl (or_introl eq_refl)). change (65 =? 65) with true. cbv iota. cbn [act snd].
  destruct (tempo_param s Is) as (q & Hq & _ & Hstr & _ & Hsd & _). rewrite Hq. rewrite (value_find _ _ _ Hq) in Vs. unfold send_msg. rewrite Hsd, Vs, Hstr. cbn [opt_list].
  apply (listen_answer 4 0). eexists. split; reflexivity.
Qed.
Lemma tempo_rounded date ops v m d now : Forall proper ops -> 0 <= v < 16384 -> told TempoBpm v = Some m ->
  exists w, heard TempoBpm (answers date (ops ++ [VRecv m d]) (ask 4 0) now) = Some (VNum w) /\ Z.abs (w - v) <= 32 /\ (w mod 64 = 0 \/ w = 16383).
Proof. intros Hp Hv Hm. exists (tempo_value v). split; [apply tempo_read; assumption|apply tempo_near, Hv]. Qed.

(* names of rigs *)
Lemma name_period id : rig_name id = rig_name (id mod 25).
Proof. unfold rig_name. replace (((id mod 25) / 5) mod 5) with ((id / 5) mod 5) by lia. replace ((id mod 25) mod 5) with (id mod 5) by lia. reflexivity. Qed.
Definition names : list (list Z) := map (fun k => rig_name (Z.of_nat k)) (seq 0 25).
Lemma names_distinct : NoDup names.
Proof. assert (nodup (list_eq_dec Z.eq_dec) names = names) as <- by (vm_compute; reflexivity). apply NoDup_nodup. Qed.
Lemma name_distinct a b : rig_name a = rig_name b -> a mod 25 = b mod 25.
Proof.
  rewrite (name_period a), (name_period b). intros E. assert (0 <= a mod 25 < 25 /\ 0 <= b mod 25 < 25) as [Ha Hb] by lia. revert E Ha Hb. generalize (a mod 25) as x. generalize (b mod 25) as y. intros y x E Ha Hb.
  assert (forall z, 0 <= z < 25 -> nth_error names (Z.to_nat z) = Some (rig_name z)) as N.
  { intros z Hz. unfold names. rewrite nth_error_map. rewrite (nth_error_nth' _ O) by (rewrite seq_length; lia). rewrite seq_nth by lia. cbn [option_map]. f_equal. f_equal. lia. }
  pose proof (N x Ha) as Nx. pose proof (N y Hb) as Ny. rewrite E, <- Ny in Nx. pose proof (proj1 (NoDup_nth_error names) names_distinct) as D. specialize (D (Z.to_nat x) (Z.to_nat y)).
  assert (Z.to_nat x = Z.to_nat y) by (apply D; [unfold names; rewrite map_length, seq_length; lia|exact Nx]). lia.
Qed.
