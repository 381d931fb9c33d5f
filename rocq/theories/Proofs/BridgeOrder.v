(* Lemmas for C85: if each transmission is started after all parts of the earlier ones have been sent, they are completed in the order of their starts. *)
From Verif.Lib Require Import Base.
From Verif.Model Require Import Midi Bridge.
From Verif.Spec Require Import Bridge.
From Verif.Proofs Require Import Protocol BridgeCodec BridgeNet BridgeFifo.
Local Open Scope list_scope.

Section Order.
Variable files : side -> Z -> list Z -> option (list Z).
Variable throws : side -> Z -> bool.
Variable seed : side -> Z.
Hypothesis seed_ok : forall s, 0 <= seed s < 16777216.
Hypothesis files_full : forall s now path, files s now path <> Some [].
Notation FInv := (FInv files seed).

Definition isfwd (m : list Z) : bool := bytes_eqb (firstn 1 m) [2] || bytes_eqb (firstn 1 m) [3].
Definition is_closing (e : bev) : bool := match e with RecvFinish _ _ _ _ | RecvError _ => true | _ => false end.
Definition closings (s : side) (log : list (side * bev)) : list bev := flat_map (fun e => if side_eqb s (fst e) && is_closing (snd e) then [snd e] else []) log.
(* messages of a transmission so far *)
Definition cn (f : fnet) (s : side) (g : tx) : Z := Z.of_nat (sent s (t_id g) (n_log (f_net f))).
Definition allsent (f : fnet) (s : side) (g : tx) : Prop := 2 * t_amount g <= cn f s g.
Definition closed (f : fnet) (s : side) (g : tx) : bool := cn f s g =? 2 * t_amount g + 1.
Definition block (f : fnet) (s : side) (g : tx) : list (list Z) := filter (fwd (t_id g)) (pending f s).

Record Ord (G : ghosts) (f : fnet) : Prop := mkOrd {
  o_sent s pre g post : G s = pre ++ g :: post -> post <> [] -> allsent f s g;
  o_order s : filter isfwd (pending f s) = flat_map (block f s) (G s);
  o_close s : closings (other s) (n_log (f_net f)) = map closing (filter (closed f s) (G s));
  o_mono s pre g post h : G s = pre ++ g :: post -> In h post -> closed f s h = true -> closed f s g = true }.

(* ---- facts about one transmission ---- *)
Lemma isfwd_smsg g : isfwd (smsg g) = true. Proof. unfold isfwd, smsg. rewrite first_framed. reflexivity. Qed.
Lemma isfwd_dmsg g k : isfwd (dmsg g k) = true. Proof. unfold isfwd, dmsg. rewrite first_framed. reflexivity. Qed.
Lemma isfwd_amsg i k : isfwd (amsg i k) = false. Proof. unfold isfwd, amsg. rewrite first_framed. reflexivity. Qed.
Lemma isfwd_rmsg z p : isfwd (rmsg z p) = false. Proof. unfold isfwd, rmsg. rewrite first_framed. reflexivity. Qed.

Section Facts.
Variable ops : list fop.
Variable G : ghosts.
Variable f : fnet.
Hypothesis H : FInv ops G f.

Lemma cn_facts s g : In g (G s) -> (block f s g = [] -> allsent f s g -> closed f s g = true) /\ (closed f s g = true -> block f s g = []) /\ 2 <= cn f s g <= 2 * t_amount g + 1.
Proof.
  intros Hg. destruct (f_phase _ _ _ _ _ H _ _ Hg) as [c [x [z [P [Pc _]]]]]. unfold allsent, closed, cn. rewrite <- Pc. fold (block f s g) in P. pose proof (f_pos _ _ _ _ _ H _ _ Hg). clear Pc.
  inversion P; subst; split; try (split; [|lia]); intros; try discriminate; try reflexivity; try lia.
Qed.
Lemma head_data s g k rest : In g (G s) -> index_ok g k -> pending f s = dmsg g k :: rest -> cn f s g = 2 * k + 2 /\ filter (fwd (t_id g)) rest = [].
Proof.
  intros Hg [K1 K2] Hp. pose proof (phase_len _ _ _ _ _ _ _ (f_inv _ _ _ _ _ H) Hg) as L. destruct (good_type files throws seed seed_ok files_full _ _ _ _ _ H Hg) as [_ Ab]. pose proof (f_pos _ _ _ _ _ H _ _ Hg) as Pos. specialize (K2 Pos).
  destruct (f_phase _ _ _ _ _ H _ _ Hg) as [c [x [z [P [Pc _]]]]]. unfold cn. rewrite <- Pc. rewrite Hp in P. cbn [filter] in P. rewrite fwd_dmsg, eqb_refl in P by exact L. clear Pc.
  remember (dmsg g k :: filter (fwd (t_id g)) rest) as l eqn:El. inversion P as [t Hn Q1 Q2 Q3 Q4 Q5 Q6 Q7|t r k0 Hn Hk Hr Q1 Q2 Q3 Q4 Q5 Q6 Q7| | |]; subst l; try discriminate.
  assert (k0 = k) as ->; [|apply (f_equal (@tl _)) in Q2; cbn [tl] in Q2; auto]. apply (f_equal (hd [])) in Q2. cbn [hd] in Q2. unfold dmsg in Q2. apply (f_equal (skipn 4)) in Q2.
    pose proof (framed_parts 3 (t_id g ++ number2bytes k0 3 ++ string2bytes (part g k0))) as [_ [_ F1]]. pose proof (framed_parts 3 (t_id g ++ number2bytes k 3 ++ string2bytes (part g k))) as [_ [_ F2]].
    rewrite F1, F2 in Q2. apply app_inv_head in Q2. apply (f_equal (firstn 4)) in Q2. rewrite !(firstn_id _ _ 4) in Q2 by apply number3_length. apply (f_equal bytes2number) in Q2. rewrite !number_small in Q2 by lia. exact Q2.
Qed.
Lemma head_ack s g k rest : In g (G s) -> index_ok g k -> pending f (other s) = amsg (t_id g) k :: rest -> if k =? t_amount g - 1 then cn f s g = 2 * t_amount g + 1 else cn f s g = 2 * k + 3 /\ k < t_amount g - 1.
Proof.
  intros Hg [K1 K2] Hp. pose proof (phase_len _ _ _ _ _ _ _ (f_inv _ _ _ _ _ H) Hg) as L. destruct (good_type files throws seed seed_ok files_full _ _ _ _ _ H Hg) as [_ Ab]. pose proof (f_pos _ _ _ _ _ H _ _ Hg) as Pos. specialize (K2 Pos).
  destruct (f_phase _ _ _ _ _ H _ _ Hg) as [c [x [z [P [Pc _]]]]]. unfold cn. rewrite <- Pc. rewrite Hp in P. cbn [filter] in P. rewrite bwd_amsg, eqb_refl in P by exact L. clear Pc.
  assert (forall k0, amsg (t_id g) k = amsg (t_id g) k0 -> 0 <= k0 < 16777216 -> k = k0) as Same.
  { intros k0 Q Hk0. unfold amsg in Q. apply (f_equal (skipn 4)) in Q. destruct (framed_parts 4 (t_id g ++ number2bytes k0 3)) as [_ [_ F1]]. destruct (framed_parts 4 (t_id g ++ number2bytes k 3)) as [_ [_ F2]].
    rewrite F1, F2 in Q. apply app_inv_head in Q. apply (f_equal bytes2number) in Q. rewrite !number_small in Q by lia. exact Q. }
  apply (ph_bwd files throws files_full) in P. destruct P as [t0 [_ [_ [_ [_ [[r [k0 [_ [Em [_ [Hk0 [_ [Hc _]]]]]]]]|[_ [Em [_ [Hc _]]]]]]]]]]; apply Same in Em; try lia; subst k.
  - assert ((k0 =? t_amount g - 1) = false) as -> by lia. lia.
  - rewrite Z.eqb_refl. lia.
Qed.
End Facts.

(* ---- one step ---- *)
Lemma closings_app s a b : closings s (a ++ b) = closings s a ++ closings s b. Proof. apply flat_map_app. Qed.
Lemma closings_same s ev : closings s (map (pair s) ev) = filter is_closing ev.
Proof. unfold closings. induction ev as [|e ev IH]; [reflexivity|]. cbn [map flat_map filter fst snd]. rewrite IH, side_eqb_refl. destruct (is_closing e); reflexivity. Qed.
Lemma closings_other s ev : closings (other s) (map (pair s) ev) = [].
Proof. unfold closings. induction ev as [|e ev IH]; [reflexivity|]. cbn [map flat_map fst snd]. rewrite IH. destruct s; reflexivity. Qed.
Lemma cn_same f s b ev k g : cn (facted f s b ev k) s g = cn f s g + Z.of_nat (cnt (fwd (t_id g)) (news s ev)).
Proof. unfold cn. cbn [facted f_net acted n_log]. rewrite (sent_app files throws seed seed_ok files_full), (sent_same files throws seed seed_ok files_full). lia. Qed.
Lemma cn_other f s b ev k g : cn (facted f s b ev k) (other s) g = cn f (other s) g + Z.of_nat (cnt (bwd (t_id g)) (news s ev)).
Proof. unfold cn. cbn [facted f_net acted n_log]. rewrite (sent_app files throws seed seed_ok files_full), sent_other. lia. Qed.
Lemma split_in {A} (x : A) l : In x l -> exists a b, l = a ++ x :: b. Proof. apply in_split. Qed.
Lemma filter_ext_in' {A} (p q : A -> bool) l : (forall x, In x l -> p x = q x) -> filter p l = filter q l. Proof. apply filter_ext_in. Qed.
Lemma flat_map_in {A B} (p q : A -> list B) l : (forall x, In x l -> p x = q x) -> flat_map p l = flat_map q l.
Proof. induction l as [|x l IH]; intros E; [reflexivity|]. cbn. rewrite (E x (or_introl eq_refl)), IH; [reflexivity|]. intros y Hy. apply E. right. exact Hy. Qed.
Lemma flat_map_empty {A B} (p : A -> list B) l : (forall x, In x l -> p x = []) -> flat_map p l = [].
Proof. induction l as [|x l IH]; intros E; [reflexivity|]. cbn. rewrite (E x (or_introl eq_refl)), IH; [reflexivity|]. intros y Hy. apply E. right. exact Hy. Qed.

(* Nothing but requests and acknowledgements is sent and taken, and they are not counted *)
Lemma ord_keep G f f' : Ord G f -> (forall s, filter isfwd (pending f' s) = filter isfwd (pending f s)) -> (forall s g, In g (G s) -> block f' s g = block f s g) ->
  (forall s g, In g (G s) -> cn f s g <= cn f' s g /\ closed f' s g = closed f s g) -> (forall s, closings s (n_log (f_net f')) = closings s (n_log (f_net f))) -> Ord G f'.
Proof.
  intros O P B C Cl. constructor.
  - intros s pre g post E Hp. assert (In g (G s)) as Hg by (rewrite E; apply in_elt). pose proof (o_sent _ _ O _ _ _ _ E Hp) as A. unfold allsent in *. destruct (C s g Hg). lia.
  - intros s. rewrite P, (o_order _ _ O). apply flat_map_in. intros g Hg. symmetry. apply B, Hg.
  - intros s. rewrite Cl, (o_close _ _ O). f_equal. apply filter_ext_in'. intros g Hg. symmetry. apply C, Hg.
  - intros s pre g post h E Hh. assert (In g (G s)) as Hg by (rewrite E; apply in_elt). assert (In h (G s)) as Hh' by (rewrite E; apply in_or_app; right; right; exact Hh).
    rewrite (proj2 (C s h Hh')), (proj2 (C s g Hg)). apply (o_mono _ _ O _ _ _ _ _ E Hh).
Qed.

Lemma fwd_isfwd i m : fwd i m = true -> isfwd m = true. Proof. unfold fwd, isfwd. rewrite andb_true_iff. tauto. Qed.
Lemma not_isfwd i m : isfwd m = false -> fwd i m = false. Proof. unfold fwd, isfwd. intros ->. reflexivity. Qed.
Lemma req_isfwd m : req m = true -> isfwd m = false.
Proof. unfold req, isfwd. intros E. apply bytes_eqb_spec in E. rewrite E. reflexivity. Qed.

Lemma ord_quiet ops G f s b ev k : FInv ops G f -> Ord G f -> (forall m, In m (news s ev) -> req m = true) ->
  (forall m, In m (firstn k (pending f (other s))) -> isfwd m = false) -> filter is_closing ev = [] -> Ord G (facted f s b ev k).
Proof.
  intros H O Hn Hk Hc. assert (forall t, filter isfwd (pending (facted f s b ev k) t) = filter isfwd (pending f t) /\ forall i, filter (fwd i) (pending (facted f s b ev k) t) = filter (fwd i) (pending f t)) as A.
  { intros t. destruct (side_cases s t) as [->| ->].
    - rewrite (pending_same files throws seed files_full ops G) by exact H. split; [|intros i]; rewrite filter_app, (filter_none _ (news s ev)), app_nil_r; auto; intros m Hm.
      + apply req_isfwd, Hn, Hm.
      + apply not_isfwd, req_isfwd, Hn, Hm.
    - rewrite pending_other. split; [|intros i]; apply filter_pop; intros m Hm; [apply Hk, Hm|apply not_isfwd, Hk, Hm]. }
  apply (ord_keep G f); [exact O|apply A|intros t g _; apply A| |].
  - intros t g _. assert (cn (facted f s b ev k) t g = cn f t g) as E.
    { destruct (side_cases s t) as [->| ->]; [rewrite cn_same|rewrite cn_other]; unfold cnt; rewrite filter_none; cbn; try lia; intros m Hm; apply (req_not m (t_id g)), Hn, Hm. }
    unfold closed. rewrite E. split; [lia|reflexivity].
  - intros t. cbn [facted f_net acted n_log]. rewrite closings_app. destruct (side_cases s t) as [->| ->]; [rewrite closings_same, Hc|rewrite closings_other]; apply app_nil_r.
Qed.

Lemma ids_nodup ops G f s : FInv ops G f -> Z.of_nat (started s (n_log (f_net f))) <= 16777216 -> NoDup (map t_id (G s)).
Proof.
  intros H Hst. pose proof (f_inv _ _ _ _ _ H) as I. apply NoDup_nth_error. intros i j Hi E. rewrite map_length in Hi. rewrite !nth_error_map in E.
  destruct (nth_error (G s) i) as [g|] eqn:Ei; [|apply nth_error_None in Ei; lia]. destruct (nth_error (G s) j) as [h|] eqn:Ej; [|discriminate].
  assert (j < length (G s))%nat as Hj by (apply nth_error_Some; congruence). cbn in E. injection E as E. rewrite (i_id _ _ _ _ _ I _ _ _ Ei), (i_id _ _ _ _ _ I _ _ _ Ej) in E.
  apply (f_equal bytes2number) in E. rewrite !number_small in E by (apply Z.mod_pos_bound; lia). rewrite (i_count _ _ _ _ _ I) in Hi, Hj. specialize (seed_ok s).
  assert ((Z.of_nat i - Z.of_nat j) mod 16777216 = 0) as M. { replace (Z.of_nat i - Z.of_nat j) with ((seed s + Z.of_nat i) - (seed s + Z.of_nat j)) by lia. rewrite Zminus_mod, E, Z.sub_diag. reflexivity. }
  apply Z.mod_divide in M; [|lia]. destruct M as [q M]. nia.
Qed.
Lemma id_unique (G : ghosts) s g h : NoDup (map t_id (G s)) -> In g (G s) -> In h (G s) -> t_id g = t_id h -> g = h.
Proof.
  intros N Hg Hh E. apply In_nth_error in Hg. apply In_nth_error in Hh. destruct Hg as [i Hi], Hh as [j Hj]. assert (i = j) as ->; [|congruence].
  apply (proj1 (NoDup_nth_error _) N); [apply nth_error_Some; rewrite nth_error_map, Hi; discriminate|]. rewrite !nth_error_map, Hi, Hj. cbn. congruence.
Qed.
Lemma nodup_split {A B} (k : A -> B) l pre g post : NoDup (map k l) -> l = pre ++ g :: post -> forall h, In h pre \/ In h post -> k h <> k g.
Proof. intros N -> h Hh E. rewrite map_app in N. cbn in N. apply NoDup_remove_2 in N. apply N. rewrite <- E. apply in_or_app. destruct Hh; [left|right]; apply in_map; assumption. Qed.

(* a new transmission *)
Lemma ord_start ops ops' G f s b g ev k : FInv ops G f -> Ord G f -> FInv ops' (grow s [g] G) (facted f s b ev k) -> Z.of_nat (started s (n_log (f_net (facted f s b ev k)))) <= 16777216 ->
  (forall h, In h (G s) -> allsent f s h) -> ev = [Sysex (smsg g); SendProgress (t_path g) 0 (t_amount g) (t_type g =? 0); Sysex (dmsg g 0)] ->
  (forall m, In m (firstn k (pending f (other s))) -> isfwd m = false) ->
  Ord (grow s [g] G) (facted f s b ev k) /\ cn (facted f s b ev k) s g = 2 /\ (forall t h, In h (G t) -> cn (facted f s b ev k) t h = cn f t h).
Proof.
  intros H O H' Hst Ha Ev Hk. pose proof (ids_nodup _ _ _ _ H' Hst) as N. rewrite grow_same in N.
  assert (forall h, In h (G s) -> t_id h <> t_id g) as Fresh by (intros h Hh; apply (nodup_split t_id (G s ++ [g]) (G s) g []); auto).
  assert (In g (grow s [g] G s)) as Hg by (rewrite grow_same; apply in_elt).
  pose proof (phase_len _ _ _ _ _ _ _ (f_inv _ _ _ _ _ H') Hg) as L. pose proof (f_pos _ _ _ _ _ H' _ _ Hg) as Pos.
  assert (news s ev = [smsg g; dmsg g 0]) as Nw by (rewrite Ev; unfold news, wire; cbn; rewrite side_eqb_refl; reflexivity).
  destruct (unused _ _ _ _ _ _ _ (f_inv _ _ _ _ _ H) Fresh) as [_ [_ [U3 [U4 _]]]].
  assert (forall h, In h (G s) -> block (facted f s b ev k) s h = block f s h /\ cn (facted f s b ev k) s h = cn f s h) as Old.
  { intros h Hh. unfold block. rewrite cn_same, (pending_same files throws seed files_full ops G) by exact H. rewrite filter_app, Nw. unfold cnt. cbn [filter]. rewrite fwd_smsg, fwd_dmsg, (eqb_neq (t_id g) (t_id h)) by (auto; intros Q; apply (Fresh h Hh); auto).
    rewrite app_nil_r. cbn. split; [reflexivity|lia]. }
  assert (cn (facted f s b ev k) s g = 2) as Cg.
  { rewrite cn_same, Nw. unfold cn, sent, cnt. rewrite U3, U4. cbn [filter]. rewrite fwd_smsg, fwd_dmsg, eqb_refl by exact L. reflexivity. }
  assert (forall h, cn (facted f s b ev k) (other s) h = cn f (other s) h) as Oth.
  { intros h. rewrite cn_other, Nw. unfold cnt. cbn [filter]. rewrite bwd_smsg, bwd_dmsg. cbn. lia. }
  assert (forall h, In h (G s) -> closed (facted f s b ev k) s h = closed f s h) as Cl by (intros h Hh; unfold closed; rewrite (proj2 (Old h Hh)); reflexivity).
  assert (closed (facted f s b ev k) s g = false) as Cn by (unfold closed; lia).
  split; [|split; [exact Cg|intros t h Hh; destruct (side_cases s t) as [->| ->]; [apply Old, Hh|apply Oth]]]. constructor.
  - intros t pre h post E Hp. destruct (side_cases s t) as [->| ->].
    + rewrite grow_same in E. assert (In h (G s)) as Hh.
      { destruct (exists_last Hp) as [post' [x ->]]. change (pre ++ h :: post' ++ [x]) with (pre ++ (h :: post') ++ [x]) in E. rewrite app_assoc in E. apply app_inj_tail in E. destruct E as [-> _]. apply in_elt. }
      unfold allsent. rewrite (proj2 (Old h Hh)). apply Ha, Hh.
    + rewrite grow_other in E. unfold allsent. rewrite Oth. eapply o_sent; eauto.
  - intros t. destruct (side_cases s t) as [->| ->].
    + rewrite grow_same, flat_map_app, (flat_map_in _ (block f s) (G s)) by (intros h Hh; apply Old, Hh). rewrite <- (o_order _ _ O).
      rewrite (pending_same files throws seed files_full ops G) by exact H. rewrite filter_app, Nw. f_equal. cbn [filter flat_map]. rewrite isfwd_smsg, isfwd_dmsg, app_nil_r.
      unfold block. rewrite (pending_same files throws seed files_full ops G) by exact H. rewrite filter_app, Nw. unfold pending. rewrite (filter_skipn _ _ _ U3). cbn [filter app]. rewrite fwd_smsg, fwd_dmsg, eqb_refl by exact L. reflexivity.
    + rewrite grow_other, pending_other, filter_pop by exact Hk. rewrite (o_order _ _ O). apply flat_map_in. intros h _. unfold block. rewrite pending_other, filter_pop; [reflexivity|]. intros m Hm. apply not_isfwd, Hk, Hm.
  - intros t. cbn [facted f_net acted n_log]. rewrite closings_app, (o_close _ _ O). destruct (side_cases s t) as [->| ->].
    + rewrite closings_other, app_nil_r, grow_same, filter_app. cbn [filter]. rewrite Cn, app_nil_r. f_equal. apply filter_ext_in'. intros h Hh. symmetry. apply Cl, Hh.
    + rewrite other_other, closings_same, Ev, grow_other. cbn [filter is_closing]. rewrite app_nil_r. f_equal. apply filter_ext_in'. intros h _. unfold closed. rewrite <- Ev, Oth. reflexivity.
  - intros t pre h post x E Hx. destruct (side_cases s t) as [->| ->].
    + rewrite grow_same in E. assert (post <> []) as Hp by (intros ->; destruct Hx). destruct (exists_last Hp) as [post' [y ->]].
      change (pre ++ h :: post' ++ [y]) with (pre ++ (h :: post') ++ [y]) in E. rewrite app_assoc in E. apply app_inj_tail in E. destruct E as [E <-].
      assert (In h (G s)) as Hh by (rewrite E; apply in_elt). rewrite (Cl h Hh). apply in_app_or in Hx. destruct Hx as [Hx|[<-|[]]]; [|congruence].
      rewrite (Cl x) by (rewrite E; apply in_or_app; right; right; exact Hx). eapply o_mono; eauto.
    + rewrite grow_other in E. unfold closed. rewrite !Oth. fold (closed f (other s) x) (closed f (other s) h). eapply o_mono; eauto.
Qed.

(* a start or a part arrives *)
Lemma ord_taken ops G f s b ev m rest g : FInv ops G f -> Ord G f -> FInv ops G (facted f s b ev 1) -> NoDup (map t_id (G (other s))) -> pending f (other s) = m :: rest -> In g (G (other s)) -> fwd (t_id g) m = true ->
  (forall x, In x (news s ev) -> exists k, x = amsg (t_id g) k) ->
  (filter is_closing ev = [] /\ closed (facted f s b ev 1) (other s) g = closed f (other s) g \/
   filter is_closing ev = [closing g] /\ closed f (other s) g = false /\ closed (facted f s b ev 1) (other s) g = true) -> Ord G (facted f s b ev 1) /\ (forall t h, In h (G t) -> (t = other s -> h <> g) -> cn (facted f s b ev 1) t h = cn f t h).
Proof.
  intros H O H' N Hp Hg Hm Hn Hc. destruct (pending_head _ _ _ _ Hp) as [P1 [P2 P3]]. pose proof (phase_len _ _ _ _ _ _ _ (f_inv _ _ _ _ _ H) Hg) as L.
  assert (forall i, fwd i m = true -> i = t_id g) as Own. { intros i Hi. unfold fwd in *. apply andb_prop in Hi. apply andb_prop in Hm. destruct Hi as [_ Hi], Hm as [_ Hm]. apply bytes_eqb_spec in Hi, Hm. congruence. }
  assert (forall t h, In h (G t) -> (t = other s -> h <> g) -> cn (facted f s b ev 1) t h = cn f t h) as Others.
  { intros t h Hh Hne. destruct (side_cases s t) as [->| ->]; [rewrite cn_same|rewrite cn_other]; unfold cnt; rewrite filter_none; cbn; try lia; intros x Hx; destruct (Hn x Hx) as [k ->]; [apply fwd_amsg|].
    rewrite bwd_amsg by exact L. apply eqb_neq. intros E. apply (Hne eq_refl). symmetry. eapply id_unique; eauto. }
  assert (forall t h, In h (G t) -> cn f t h <= cn (facted f s b ev 1) t h) as Mono. { intros t h _. destruct (side_cases s t) as [->| ->]; [rewrite cn_same|rewrite cn_other]; lia. }
  pose proof (o_order _ _ O (other s)) as Or. rewrite Hp in Or. cbn [filter] in Or. rewrite (fwd_isfwd _ _ Hm) in Or.
  destruct (in_split _ _ Hg) as [pre [post Eg]]. assert (forall h, In h pre \/ In h post -> h <> g) as Hne by (intros h Hh ->; apply (nodup_split t_id _ _ _ _ N Eg g Hh); reflexivity).
  assert (forall h, In h (G (other s)) -> h <> g -> fwd (t_id h) m = false) as Not.
  { intros h Hh Hx. destruct (fwd (t_id h) m) eqn:F; [|reflexivity]. exfalso. apply Hx. eapply id_unique; eauto. }
  assert (forall h, In h pre -> block f (other s) h = []) as Pre.
  { intros h Hh. destruct (block f (other s) h) as [|x l] eqn:B; [reflexivity|exfalso]. rewrite Eg, flat_map_app in Or.
    assert (exists y r, flat_map (block f (other s)) pre = y :: r) as [y [r Ey]].
    { destruct (flat_map (block f (other s)) pre) as [|y r] eqn:F; [|eauto]. assert (In x (flat_map (block f (other s)) pre)) as Q by (apply in_flat_map; exists h; split; [exact Hh|rewrite B; left; reflexivity]). rewrite F in Q. destruct Q. }
    rewrite Ey in Or. apply (f_equal (hd [])) in Or. cbn [hd app] in Or. subst y. assert (In m (flat_map (block f (other s)) pre)) as Q by (rewrite Ey; left; reflexivity).
    apply in_flat_map in Q. destruct Q as [h' [Hh' Q]]. unfold block in Q. apply filter_In in Q. destruct Q as [_ Q]. rewrite (Not h') in Q; [discriminate|rewrite Eg; apply in_or_app; left; exact Hh'|apply Hne; left; exact Hh']. }
  assert (forall h, In h (G (other s)) -> h <> g -> block (facted f s b ev 1) (other s) h = block f (other s) h) as BOld.
  { intros h Hh Hx. unfold block. rewrite pending_other, Hp. cbn [skipn filter]. rewrite (Not h Hh Hx). reflexivity. }
  assert (block f (other s) g = m :: block (facted f s b ev 1) (other s) g) as Bg. { unfold block. rewrite pending_other, Hp. cbn [skipn filter]. rewrite Hm. reflexivity. }
  split; [|exact Others]. constructor.
  - intros t p h q E Hq. assert (In h (G t)) as Hh by (rewrite E; apply in_elt). pose proof (o_sent _ _ O _ _ _ _ E Hq) as A. pose proof (Mono t h Hh). unfold allsent in *. lia.
  - intros t. destruct (side_cases s t) as [->| ->].
    + rewrite (pending_same files throws seed files_full ops G) by exact H. rewrite filter_app, (filter_none _ (news s ev)), app_nil_r, (o_order _ _ O) by (intros x Hx; destruct (Hn x Hx) as [k ->]; apply isfwd_amsg).
      apply flat_map_in. intros h _. unfold block. rewrite (pending_same files throws seed files_full ops G) by exact H. rewrite filter_app, (filter_none _ (news s ev)), app_nil_r by (intros x Hx; destruct (Hn x Hx) as [k ->]; apply fwd_amsg). reflexivity.
    + rewrite pending_other, Hp. cbn [skipn]. apply (f_equal (@tl _)) in Or. cbn [tl] in Or. rewrite Or, Eg, !flat_map_app, (flat_map_empty _ pre Pre), (flat_map_empty _ pre).
      * cbn [flat_map app]. rewrite Bg. cbn [app tl]. f_equal. apply flat_map_in. intros h Hh. symmetry. apply BOld; [rewrite Eg; apply in_or_app; right; right; exact Hh|apply Hne; right; exact Hh].
      * intros h Hh. rewrite BOld; [apply Pre, Hh|rewrite Eg; apply in_or_app; left; exact Hh|apply Hne; left; exact Hh].
  - intros t. cbn [facted f_net acted n_log]. rewrite closings_app, (o_close _ _ O). destruct (side_cases s t) as [->| ->].
    + rewrite closings_other, app_nil_r. f_equal. apply filter_ext_in'. intros h Hh. unfold closed. rewrite (Others s h Hh); [reflexivity|]. intros Q. exfalso. apply (other_neq s). auto.
    + rewrite other_other, closings_same. rewrite Eg, !filter_app. cbn [filter].
      assert (forall l, (forall h, In h l -> In h pre \/ In h post) -> filter (closed (facted f s b ev 1) (other s)) l = filter (closed f (other s)) l) as Same.
      { intros l Hl. apply filter_ext_in'. intros h Hh. unfold closed. rewrite (Others (other s) h); [reflexivity| |intros _; apply Hne, Hl, Hh]. rewrite Eg. apply in_or_app. destruct (Hl h Hh); [left|right; right]; assumption. }
      rewrite !Same by auto. destruct Hc as [[-> ->]|[-> [Q1 ->]]].
      * rewrite app_nil_r. reflexivity.
      * rewrite Q1. assert (filter (closed f (other s)) post = []) as ->; [|rewrite app_nil_r, map_app; reflexivity]. apply filter_none. intros h Hh. destruct (closed f (other s) h) eqn:C; [|reflexivity].
        pose proof (o_mono _ _ O _ _ _ _ _ Eg Hh C) as Q. congruence.
  - intros t p h q x E Hx Hcx. assert (In h (G t)) as Hh by (rewrite E; apply in_elt). assert (In x (G t)) as Hxt by (rewrite E; apply in_or_app; right; right; exact Hx).
    destruct (side_cases s t) as [->| ->].
    + unfold closed in *. rewrite (Others s h Hh), (Others s x Hxt) in * by (intros Q; exfalso; apply (other_neq s); auto). eapply (o_mono _ _ O); eauto.
    + assert (closed f (other s) h = true -> closed (facted f s b ev 1) (other s) h = true) as Up.
      { intros C. destruct (cn_facts _ _ _ H (other s) h Hh) as [_ [_ B1]]. destruct (cn_facts _ _ _ H' (other s) h Hh) as [_ [_ B2]]. pose proof (Mono _ _ Hh). unfold closed in *. lia. }
      destruct (bytes_eqb (t_id x) (t_id g)) eqn:Ex.
      * apply bytes_eqb_spec in Ex. assert (x = g) as -> by (eapply id_unique; eauto). destruct Hc as [[_ Q]|[_ [Q1 Q2]]]; [apply Up; eapply (o_mono _ _ O); [exact E|exact Hx|congruence]|].
        assert (In h pre) as Hpre. { clear -E Eg Hx N. rewrite Eg in E. revert p h q E Hx. rewrite Eg in N. clear Eg. induction pre as [|a pre IH]; intros p h q E Hx.
          - exfalso. destruct p as [|y p]; cbn in E; injection E as -> E; cbn in N; apply NoDup_cons_iff in N; destruct N as [N _]; apply N.
            + rewrite E. apply in_map, Hx.
            + rewrite E, map_app. apply in_or_app. right. right. apply in_map, Hx.
          - destruct p as [|y p]; cbn in E; injection E as -> E; [left; reflexivity|right]. cbn in N. apply NoDup_cons_iff in N. eapply IH; [apply N|exact E|exact Hx]. }
        apply Up. apply (cn_facts _ _ _ H (other s) h Hh); [apply Pre, Hpre|].
        destruct (in_split _ _ Hpre) as [p1 [p2 E1]]. apply (o_sent _ _ O (other s) p1 h (p2 ++ g :: post)); [rewrite Eg, E1, <- app_assoc; reflexivity|destruct p2; discriminate].
      * apply Up. eapply (o_mono _ _ O); [exact E|exact Hx|]. unfold closed in *. rewrite (Others (other s) x Hxt) in Hcx; [exact Hcx|]. intros _ ->. rewrite eqb_refl in Ex. discriminate.
Qed.

(* the next part is sent *)
Lemma ord_next ops G f s b ev g k : FInv ops G f -> Ord G f -> FInv ops G (facted f s b ev 1) -> NoDup (map t_id (G s)) -> In g (G s) -> ~ allsent f s g ->
  (forall m, In m (firstn 1 (pending f (other s))) -> isfwd m = false) -> ev = [SendProgress (t_path g) k (t_amount g) (t_type g =? 0); Sysex (dmsg g k)] ->
  Ord G (facted f s b ev 1) /\ cn (facted f s b ev 1) s g = cn f s g + 1 /\ (forall t h, In h (G t) -> (t = s -> h <> g) -> cn (facted f s b ev 1) t h = cn f t h).
Proof.
  intros H O H' N Hg Hna Hk Ev. pose proof (phase_len _ _ _ _ _ _ _ (f_inv _ _ _ _ _ H) Hg) as L.
  assert (exists pre, G s = pre ++ [g]) as [pre Eg]. { destruct (in_split _ _ Hg) as [pre [post E]]. destruct post as [|x post]; [eauto|]. exfalso. apply Hna. eapply o_sent; eauto. discriminate. }
  assert (news s ev = [dmsg g k]) as Nw by (rewrite Ev; unfold news, wire; cbn; rewrite side_eqb_refl; reflexivity).
  assert (forall h, In h pre -> t_id h <> t_id g) as Hne by (intros h Hh; apply (nodup_split t_id _ _ _ _ N Eg h); auto).
  assert (forall h, In h pre -> block (facted f s b ev 1) s h = block f s h /\ cn (facted f s b ev 1) s h = cn f s h) as Old.
  { intros h Hh. unfold block. rewrite cn_same, (pending_same files throws seed files_full ops G) by exact H. rewrite filter_app, Nw. unfold cnt. cbn [filter]. rewrite fwd_dmsg, (eqb_neq (t_id g) (t_id h)) by (auto; intros Q; apply (Hne h Hh); auto). rewrite app_nil_r. cbn. split; [reflexivity|lia]. }
  assert (cn (facted f s b ev 1) s g = cn f s g + 1) as Cg. { rewrite cn_same, Nw. unfold cnt. cbn [filter]. rewrite fwd_dmsg, eqb_refl by exact L. reflexivity. }
  assert (forall h, cn (facted f s b ev 1) (other s) h = cn f (other s) h) as Oth. { intros h. rewrite cn_other, Nw. unfold cnt. cbn [filter]. rewrite bwd_dmsg. cbn. lia. }
  assert (forall t h, In h (G t) -> closed (facted f s b ev 1) t h = closed f t h) as Cl.
  { intros t h Hh. unfold closed. destruct (side_cases s t) as [->| ->]; [|rewrite Oth; reflexivity]. rewrite Eg in Hh. apply in_app_or in Hh. destruct Hh as [Hh|[<-|[]]]; [rewrite (proj2 (Old h Hh)); reflexivity|].
    rewrite Cg. unfold allsent in Hna. lia. }
  split; [|split; [exact Cg|]].
  2:{ intros t h Hh Hx. destruct (side_cases s t) as [->| ->]; [|apply Oth]. rewrite Eg in Hh. apply in_app_or in Hh. destruct Hh as [Hh|[<-|[]]]; [apply Old, Hh|destruct (Hx eq_refl eq_refl)]. }
  constructor.
  - intros t p h q E Hq. destruct (side_cases s t) as [->| ->]; [|unfold allsent; rewrite Oth; eapply o_sent; eauto].
    pose proof (o_sent _ _ O _ _ _ _ E Hq) as A. unfold allsent in *. rewrite cn_same. lia.
  - intros t. destruct (side_cases s t) as [->| ->].
    + rewrite (pending_same files throws seed files_full ops G) by exact H. rewrite filter_app, Nw, (o_order _ _ O), Eg, !flat_map_app, (flat_map_in (block (facted f s b ev 1) s) (block f s) pre) by (intros h Hh; apply Old, Hh).
      rewrite <- app_assoc. f_equal. cbn [flat_map filter]. rewrite isfwd_dmsg, !app_nil_r. unfold block. rewrite (pending_same files throws seed files_full ops G) by exact H. rewrite filter_app, Nw. cbn [filter]. rewrite fwd_dmsg, eqb_refl by exact L. reflexivity.
    + rewrite pending_other, filter_pop by exact Hk. rewrite (o_order _ _ O). apply flat_map_in. intros h _. unfold block. rewrite pending_other, filter_pop; [reflexivity|]. intros m Hm. apply not_isfwd, Hk, Hm.
  - intros t. cbn [facted f_net acted n_log]. rewrite closings_app, (o_close _ _ O).
    rewrite (filter_ext_in' (closed (facted f s b ev 1) t) (closed f t)) by (intros h Hh; apply Cl, Hh).
    destruct (side_cases s t) as [->| ->]; [rewrite closings_other|rewrite other_other, closings_same, Ev]; cbn [filter is_closing]; apply app_nil_r.
  - intros t p h q x E Hx. rewrite !Cl by (rewrite E; first [apply in_elt|apply in_or_app; right; right; exact Hx]). eapply (o_mono _ _ O); eauto.
Qed.
End Order.
