(* Two bridges with a reliable connection: every transmission is completed, with a bounded number of messages. *)
From Verif.Lib Require Import Base.
From Verif.Model Require Import Midi Bridge.
From Verif.Spec Require Import Bridge.
From Verif.Proofs Require Import Protocol BridgeCodec BridgeNet.
Local Open Scope list_scope.

(* ---- kinds of messages ---- *)
Definition ident (m : list Z) : list Z := firstn 4 (skipn 4 m).
Definition fwd (i m : list Z) : bool := (bytes_eqb (firstn 1 m) [2] || bytes_eqb (firstn 1 m) [3]) && bytes_eqb (ident m) i.
Definition bwd (i m : list Z) : bool := bytes_eqb (firstn 1 m) [4] && bytes_eqb (ident m) i.
Definition req (m : list Z) : bool := bytes_eqb (firstn 1 m) [1].

Lemma ident_framed c i p : length i = 4%nat -> ident (framed c (i ++ p)) = i.
Proof. intros L. unfold ident. destruct (framed_parts c (i ++ p)) as [_ [_ ->]]. apply firstn_id, L. Qed.
Lemma first_framed c p : firstn 1 (framed c p) = [c]. Proof. apply framed_parts. Qed.
Lemma fwd_smsg i g : length (t_id g) = 4%nat -> fwd i (smsg g) = bytes_eqb (t_id g) i.
Proof. intros L. unfold fwd, smsg. rewrite ident_framed, first_framed by exact L. reflexivity. Qed.
Lemma fwd_dmsg i g k : length (t_id g) = 4%nat -> fwd i (dmsg g k) = bytes_eqb (t_id g) i.
Proof. intros L. unfold fwd, dmsg. rewrite ident_framed, first_framed by exact L. reflexivity. Qed.
Lemma fwd_amsg i j k : fwd i (amsg j k) = false. Proof. unfold fwd, amsg. rewrite first_framed. reflexivity. Qed.
Lemma fwd_rmsg i z p : fwd i (rmsg z p) = false. Proof. unfold fwd, rmsg. rewrite first_framed. reflexivity. Qed.
Lemma bwd_smsg i g : bwd i (smsg g) = false. Proof. unfold bwd, smsg. rewrite first_framed. reflexivity. Qed.
Lemma bwd_dmsg i g k : bwd i (dmsg g k) = false. Proof. unfold bwd, dmsg. rewrite first_framed. reflexivity. Qed.
Lemma bwd_amsg i j k : length j = 4%nat -> bwd i (amsg j k) = bytes_eqb j i.
Proof. intros L. unfold bwd, amsg. rewrite ident_framed, first_framed by exact L. reflexivity. Qed.
Lemma bwd_rmsg i z p : bwd i (rmsg z p) = false. Proof. unfold bwd, rmsg. rewrite first_framed. reflexivity. Qed.
Lemma req_smsg g : req (smsg g) = false. Proof. unfold req, smsg. rewrite first_framed. reflexivity. Qed.
Lemma req_dmsg g k : req (dmsg g k) = false. Proof. unfold req, dmsg. rewrite first_framed. reflexivity. Qed.
Lemma req_amsg i k : req (amsg i k) = false. Proof. unfold req, amsg. rewrite first_framed. reflexivity. Qed.
Lemma req_rmsg z p : req (rmsg z p) = true. Proof. unfold req, rmsg. rewrite first_framed. reflexivity. Qed.
Lemma smsg_dmsg g h k : smsg g <> dmsg h k.
Proof. intros E. assert (firstn 1 (smsg g) = firstn 1 (dmsg h k)) as F by (rewrite E; reflexivity). unfold smsg, dmsg in F. rewrite !first_framed in F. discriminate. Qed.

Lemma eqb_refl i : bytes_eqb i i = true. Proof. apply bytes_eqb_spec. reflexivity. Qed.
Lemma eqb_neq i j : i <> j -> bytes_eqb i j = false. Proof. intros H. destruct (bytes_eqb i j) eqn:E; [apply bytes_eqb_spec in E; contradiction|reflexivity]. Qed.

(* ---- the maps ---- *)
Lemma find_filter {A} (p q : A -> bool) l : (forall x, p x = true -> q x = true) -> find p (filter q l) = find p l.
Proof. intros H. induction l as [|x l IH]; [reflexivity|]. cbn. destruct (q x) eqn:Q; cbn; destruct (p x) eqn:P; auto. apply H in P. congruence. Qed.
Lemma find_app {A} (p : A -> bool) l l' : find p (l ++ l') = match find p l with Some x => Some x | None => find p l' end.
Proof. induction l as [|x l IH]; [reflexivity|]. cbn. destruct (p x); auto. Qed.
Lemma find_none_filter {A} (p : A -> bool) l : find p (filter (fun x => negb (p x)) l) = None.
Proof. induction l as [|x l IH]; [reflexivity|]. cbn. destruct (p x) eqn:P; cbn; [exact IH|rewrite P; exact IH]. Qed.
Lemma tx_put_same t l : tx_get (t_id t) (tx_put t l) = Some t.
Proof. unfold tx_get, tx_put, tx_del. rewrite find_app, find_none_filter. cbn. rewrite eqb_refl. reflexivity. Qed.
Lemma tx_put_other t l i : i <> t_id t -> tx_get i (tx_put t l) = tx_get i l.
Proof.
  intros H. unfold tx_get, tx_put, tx_del. rewrite find_app, find_filter; [|intros x Hx; apply bytes_eqb_spec in Hx; rewrite eqb_neq; [reflexivity|congruence]].
  cbn. rewrite (eqb_neq (t_id t) i) by congruence. destruct (find _ l); reflexivity.
Qed.
Lemma tx_del_same i l : tx_get i (tx_del i l) = None. Proof. apply find_none_filter. Qed.
Lemma tx_del_other i j l : j <> i -> tx_get j (tx_del i l) = tx_get j l.
Proof. intros H. apply find_filter. intros x Hx. apply bytes_eqb_spec in Hx. rewrite eqb_neq; [reflexivity|congruence]. Qed.
Lemma tx_map_same i l t t1 : tx_get i l = Some t -> t_id t1 = i -> tx_get i (map (fun x => if bytes_eqb (t_id x) i then t1 else x) l) = Some t1.
Proof.
  intros H H1. unfold tx_get in *. induction l as [|x l IH]; [discriminate|]. cbn in *. destruct (bytes_eqb (t_id x) i) eqn:E; [rewrite H1, eqb_refl; reflexivity|]. rewrite E. apply IH, H.
Qed.
Lemma tx_map_other i j l t1 : t_id t1 = i -> j <> i -> tx_get j (map (fun x => if bytes_eqb (t_id x) i then t1 else x) l) = tx_get j l.
Proof.
  intros H1 H. unfold tx_get. induction l as [|x l IH]; [reflexivity|]. cbn. destruct (bytes_eqb (t_id x) i) eqn:E.
  - apply bytes_eqb_spec in E. rewrite H1, E, (eqb_neq i j) by congruence. exact IH.
  - destruct (bytes_eqb (t_id x) j); [reflexivity|exact IH].
Qed.
Lemma rx_put_same t l : rx_get (r_id t) (rx_put t l) = Some t.
Proof. unfold rx_get, rx_put, rx_del. rewrite find_app, find_none_filter. cbn. rewrite eqb_refl. reflexivity. Qed.
Lemma rx_put_other t l i : i <> r_id t -> rx_get i (rx_put t l) = rx_get i l.
Proof.
  intros H. unfold rx_get, rx_put, rx_del. rewrite find_app, find_filter; [|intros x Hx; apply bytes_eqb_spec in Hx; rewrite eqb_neq; [reflexivity|congruence]].
  cbn. rewrite (eqb_neq (r_id t) i) by congruence. destruct (find _ l); reflexivity.
Qed.
Lemma rx_del_same i l : rx_get i (rx_del i l) = None. Proof. apply find_none_filter. Qed.
Lemma rx_del_other i j l : j <> i -> rx_get j (rx_del i l) = rx_get j l.
Proof. intros H. apply find_filter. intros x Hx. apply bytes_eqb_spec in Hx. rewrite eqb_neq; [reflexivity|congruence]. Qed.
Lemma rx_map_same i l t t1 : rx_get i l = Some t -> r_id t1 = i -> rx_get i (map (fun x => if bytes_eqb (r_id x) i then t1 else x) l) = Some t1.
Proof.
  intros H H1. unfold rx_get in *. induction l as [|x l IH]; [discriminate|]. cbn in *. destruct (bytes_eqb (r_id x) i) eqn:E; [rewrite H1, eqb_refl; reflexivity|]. rewrite E. apply IH, H.
Qed.
Lemma rx_map_other i j l t1 : r_id t1 = i -> j <> i -> rx_get j (map (fun x => if bytes_eqb (r_id x) i then t1 else x) l) = rx_get j l.
Proof.
  intros H1 H. unfold rx_get. induction l as [|x l IH]; [reflexivity|]. cbn. destruct (bytes_eqb (r_id x) i) eqn:E.
  - apply bytes_eqb_spec in E. rewrite H1, E, (eqb_neq i j) by congruence. exact IH.
  - destruct (bytes_eqb (r_id x) j); [reflexivity|exact IH].
Qed.
Lemma filter_id {A} (p : A -> bool) l : Forall (fun x => p x = true) l -> filter p l = l.
Proof. induction 1 as [|x l H _ IH]; [reflexivity|]. cbn. rewrite H, IH. reflexivity. Qed.
Lemma cleanup_awake now b : awake now b -> cleanup now b = b.
Proof.
  intros [A B]. unfold cleanup. destruct b as [t r n]. cbn in *. f_equal; apply filter_id; eapply Forall_impl; try eassumption; cbn; intros x Hx; rewrite Hx; reflexivity.
Qed.

(* ---- views of a transmission ---- *)
Section Fifo.
Variable files : side -> Z -> list Z -> option (list Z).
Variable throws : side -> Z -> bool.
Variable seed : side -> Z.
Hypothesis seed_ok : forall s, 0 <= seed s < 16777216.
Hypothesis files_ok : short_files files.
Hypothesis files_full : forall s now path, files s now path <> Some [].

Definition pending (f : fnet) (s : side) : list (list Z) := skipn (f_taken f (other s)) (wire s (n_log (f_net f))).
Definition cnt (p : list Z -> bool) (l : list (list Z)) : nat := length (filter p l).
Definition sent (s : side) (i : list Z) (log : list (side * bev)) : nat := (cnt (fwd i) (wire s log) + cnt (bwd i) (wire (other s) log))%nat.

(* tx at the sender, messages under way, rx at the receiver, acknowledgements under way; messages sent, reports, final acknowledgements *)
Inductive ph (g : tx) : option tx -> list (list Z) -> option rx -> list (list Z) -> Z -> nat -> nat -> Prop :=
  | phA t : t_next t = 1 -> ph g (Some t) [smsg g; dmsg g 0] None [] 2 0 0
  | phB t r k : t_next t = k + 1 -> 0 <= k < t_amount g -> r_last r = k - 1 -> ph g (Some t) [dmsg g k] (Some r) [] (2 * k + 2) 0 0
  | phC t r k : t_next t = k + 1 -> 0 <= k < t_amount g - 1 -> r_last r = k -> ph g (Some t) [] (Some r) [amsg (t_id g) k] (2 * k + 3) 0 0
  | phD t : t_next t = t_amount g -> ph g (Some t) [] None [amsg (t_id g) (t_amount g - 1)] (2 * t_amount g + 1) 1 0
  | phE : ph g None [] None [] (2 * t_amount g + 1) 1 1.
Definition phase (f : fnet) (s : side) (g : tx) : Prop :=
  exists c e a, ph g (tx_get (t_id g) (b_tx (n_br (f_net f) s))) (filter (fwd (t_id g)) (pending f s)) (rx_get (t_id g) (b_rx (n_br (f_net f) (other s))))
    (filter (bwd (t_id g)) (pending f (other s))) c e a /\
  c = Z.of_nat (sent s (t_id g) (n_log (f_net f))) /\
  finishes (other s) (t_id g) (n_log (f_net f)) = (if t_type g =? 0 then e else O) /\ acknowledgements s (t_id g) (n_log (f_net f)) = a /\
  (e = 1%nat -> done (other s) g (n_log (f_net f))).

Definition nop_of (o : fop) : nop :=
  match o with FSend s now path msg size => NSend s now path msg size | FFile s now path size => NFile s now path size | FRequest s path size => NRequest s path size | FNext s now => NDeliver s now 0 end.

Definition amounts (s : side) (log : list (side * bev)) : list Z :=
  flat_map (fun e => match e with (t, SendProgress _ k a _) => if side_eqb s t && (k =? 0) then [a] else [] | _ => [] end) log.

Record FInv (ops : list fop) (G : ghosts) (f : fnet) : Prop := mkFInv {
  f_inv : Inv files seed (map nop_of ops) G (f_net f);
  f_phase s g : In g (G s) -> phase f s g;
  f_le s : (f_taken f s <= length (wire (other s) (n_log (f_net f))))%nat;
  f_amount s : amounts s (n_log (f_net f)) = map t_amount (G s);
  f_pos s g : In g (G s) -> 1 <= t_amount g }.

Lemma phase_len ops G n s g : Inv files seed ops G n -> In g (G s) -> length (t_id g) = 4%nat.
Proof. intros H Hg. eapply id_length; eauto. Qed.

(* one side acts, having taken k messages (0 or 1) *)
Definition facted (f : fnet) (s : side) (b : bridge) (ev : list bev) (k : nat) : fnet := mkF (acted (f_net f) s b ev) (set s (f_taken f s + k)%nat (f_taken f)).
Definition news (s : side) (ev : list bev) : list (list Z) := wire s (map (pair s) ev).
Lemma news_other s ev : wire (other s) (map (pair s) ev) = [].
Proof. unfold wire. induction ev as [|e ev IH]; [reflexivity|]. cbn [map flat_map]. rewrite IH. destruct e, s; reflexivity. Qed.
Lemma skipn_app_le {A} k (a b : list A) : (k <= length a)%nat -> skipn k (a ++ b) = skipn k a ++ b.
Proof. intros H. rewrite skipn_app. replace (k - length a)%nat with O by lia. reflexivity. Qed.
Lemma pending_same ops G f s b ev k : FInv ops G f -> pending (facted f s b ev k) s = pending f s ++ news s ev.
Proof.
  intros H. unfold pending. cbn [facted f_taken f_net acted n_log]. rewrite set_other, wire_app. apply skipn_app_le. pose proof (f_le _ _ _ H (other s)) as L. rewrite other_other in L. exact L.
Qed.
Lemma pending_other f s b ev k : pending (facted f s b ev k) (other s) = skipn k (pending f (other s)).
Proof.
  unfold pending. cbn [facted f_taken f_net acted n_log]. rewrite other_other, set_same, wire_app, news_other, app_nil_r, skipn_skipn. reflexivity.
Qed.
Lemma filter_pop {A} (p : A -> bool) k l : (forall m, In m (firstn k l) -> p m = false) -> filter p (skipn k l) = filter p l.
Proof.
  intros H. rewrite <- (firstn_skipn k l) at 2. rewrite filter_app. assert (filter p (firstn k l) = []) as ->; [|reflexivity].
  induction (firstn k l) as [|x r IH]; [reflexivity|]. cbn. rewrite (H x) by (left; reflexivity). apply IH. intros m Hm. apply H. right. exact Hm.
Qed.
Lemma filter_none {A} (p : A -> bool) l : (forall m, In m l -> p m = false) -> filter p l = [].
Proof. induction l as [|x l IH]; intros H; [reflexivity|]. cbn. rewrite (H x) by (left; reflexivity). apply IH. intros m Hm. apply H. right. exact Hm. Qed.
Lemma finishes_app s i a b : finishes s i (a ++ b) = (finishes s i a + finishes s i b)%nat. Proof. unfold finishes. rewrite filter_app, app_length. reflexivity. Qed.
Lemma acks_app s i a b : acknowledgements s i (a ++ b) = (acknowledgements s i a + acknowledgements s i b)%nat. Proof. unfold acknowledgements. rewrite filter_app, app_length. reflexivity. Qed.
Lemma sent_app s i a b : sent s i (a ++ b) = (sent s i a + sent s i b)%nat.
Proof. unfold sent, cnt. rewrite !wire_app, !filter_app, !app_length. lia. Qed.
Lemma finishes_none s t i ev : (forall p d a, In (RecvFinish i p d a) ev -> s <> t) -> finishes s i (map (pair t) ev) = O.
Proof.
  intros H. unfold finishes. rewrite filter_none; [reflexivity|]. intros [t' e] Hm. apply in_map_iff in Hm. destruct Hm as [x [E Hx]]. inversion E. subst. destruct e; try reflexivity.
  destruct (side_eqb s t') eqn:S; [|reflexivity]. apply side_eqb_spec in S. subst. destruct (bytes_eqb i i0) eqn:B; [|reflexivity]. apply bytes_eqb_spec in B. subst. exfalso. eapply H; eauto.
Qed.
Lemma acks_none s t i ev : (In (AckAll i) ev -> s <> t) -> acknowledgements s i (map (pair t) ev) = O.
Proof.
  intros H. unfold acknowledgements. rewrite filter_none; [reflexivity|]. intros [t' e] Hm. apply in_map_iff in Hm. destruct Hm as [x [E Hx]]. inversion E. subst. destruct e; try reflexivity.
  destruct (side_eqb s t') eqn:S; [|reflexivity]. apply side_eqb_spec in S. subst. destruct (bytes_eqb i i0) eqn:B; [|reflexivity]. apply bytes_eqb_spec in B. subst. exfalso. eapply H; eauto.
Qed.

Lemma sent_same s i ev : sent s i (map (pair s) ev) = cnt (fwd i) (news s ev).
Proof. unfold sent, news. rewrite news_other. cbn. lia. Qed.
Lemma sent_other s i ev : sent (other s) i (map (pair s) ev) = cnt (bwd i) (news s ev).
Proof. unfold sent, news. rewrite news_other, other_other. reflexivity. Qed.

(* transmissions which are not touched are not affected *)
Lemma frame ops G f s b ev k (T : side -> list Z -> Prop) a g : FInv ops G f ->
  (forall i, ~ T s i -> tx_get i (b_tx b) = tx_get i (b_tx (n_br (f_net f) s))) ->
  (forall i, ~ T (other s) i -> rx_get i (b_rx b) = rx_get i (b_rx (n_br (f_net f) s))) ->
  (forall m i, In m (news s ev) -> fwd i m = true -> T s i) -> (forall m i, In m (news s ev) -> bwd i m = true -> T (other s) i) ->
  (forall m i, In m (firstn k (pending f (other s))) -> fwd i m = true -> T (other s) i) ->
  (forall m i, In m (firstn k (pending f (other s))) -> bwd i m = true -> T s i) ->
  (forall i p d z, In (RecvFinish i p d z) ev -> T (other s) i) -> (forall i, In (AckAll i) ev -> T s i) ->
  ~ T a (t_id g) -> phase f a g -> phase (facted f s b ev k) a g.
Proof.
  intros H Ht Hr Nf Nb Pf Pb Ef Ea Hne [c [e [z [P [Pc [P1 [P2 P3]]]]]]]. exists c, e, z.
  assert (forall p, (forall m, In m (news s ev) -> p m = false) -> filter p (pending (facted f s b ev k) s) = filter p (pending f s)) as Qs.
  { intros p Hp. rewrite (pending_same ops G) by exact H. rewrite filter_app, (filter_none p (news s ev) Hp), app_nil_r. reflexivity. }
  assert (forall p, (forall m, In m (firstn k (pending f (other s))) -> p m = false) -> filter p (pending (facted f s b ev k) (other s)) = filter p (pending f (other s))) as Qo.
  { intros p Hp. rewrite pending_other. apply filter_pop, Hp. }
  assert (forall x, incl (n_log (f_net f)) (n_log (f_net (facted f s b ev x)))) as Inc by (intros x; cbn; apply incl_appl, incl_refl).
  cbn [facted f_net acted n_log n_br] in *. destruct (side_cases s a) as [->| ->].
  - rewrite set_same, set_other, (Ht _ Hne), Qs, Qo.
    + split; [exact P|]. split; [|split; [|split]].
      * rewrite Pc, sent_app, sent_same. unfold cnt. rewrite (filter_none (fwd (t_id g)) (news s ev)); [cbn [length]; lia|].
        intros m Hm. destruct (fwd (t_id g) m) eqn:F; [|reflexivity]. exfalso. apply Hne, (Nf m), F. exact Hm.
      * rewrite finishes_app, (finishes_none (other s) s), Nat.add_0_r; [exact P1|]. intros p d y Hy E. apply (other_neq s E).
      * rewrite acks_app, acks_none, Nat.add_0_r; [exact P2|]. intros Hy _. apply Hne, Ea, Hy.
      * intros E1. eapply done_mono; [|apply P3, E1]. apply incl_appl, incl_refl.
    + intros m Hm. destruct (bwd (t_id g) m) eqn:F; [|reflexivity]. exfalso. apply Hne, (Pb m), F. exact Hm.
    + intros m Hm. destruct (fwd (t_id g) m) eqn:F; [|reflexivity]. exfalso. apply Hne, (Nf m), F. exact Hm.
  - rewrite other_other in *. rewrite set_same, set_other, (Hr _ Hne), Qs, Qo.
    + split; [exact P|]. split; [|split; [|split]].
      * rewrite Pc, sent_app, sent_other. unfold cnt. rewrite (filter_none (bwd (t_id g)) (news s ev)); [cbn [length]; lia|].
        intros m Hm. destruct (bwd (t_id g) m) eqn:F; [|reflexivity]. exfalso. apply Hne, (Nb m), F. exact Hm.
      * rewrite finishes_app, finishes_none, Nat.add_0_r; [exact P1|]. intros p d y Hy _. apply Hne, (Ef _ _ _ _ Hy).
      * rewrite acks_app, acks_none, Nat.add_0_r; [exact P2|]. intros Hy E. apply (other_neq s E).
      * intros E1. eapply done_mono; [|apply P3, E1]. apply incl_appl, incl_refl.
    + intros m Hm. destruct (fwd (t_id g) m) eqn:F; [|reflexivity]. exfalso. apply Hne, (Pf m), F. exact Hm.
    + intros m Hm. destruct (bwd (t_id g) m) eqn:F; [|reflexivity]. exfalso. apply Hne, (Nb m), F. exact Hm.
Qed.

(* ---- one step: the common part ---- *)
Lemma amounts_app s a b : amounts s (a ++ b) = amounts s a ++ amounts s b. Proof. apply flat_map_app. Qed.
Lemma amounts_other s ev : amounts (other s) (map (pair s) ev) = [].
Proof. unfold amounts. induction ev as [|e ev IH]; [reflexivity|]. cbn [map flat_map]. rewrite IH. destruct e, s; reflexivity. Qed.
Lemma le_facted ops G f s b ev k : FInv ops G f -> (k <= length (pending f (other s)))%nat ->
  forall t, (f_taken (facted f s b ev k) t <= length (wire (other t) (n_log (f_net (facted f s b ev k)))))%nat.
Proof.
  intros H Hk t. cbn [facted f_taken f_net acted n_log]. rewrite wire_app, app_length. destruct (side_cases s t) as [->| ->].
  - rewrite set_same. unfold pending in Hk. rewrite other_other, skipn_length in Hk. pose proof (f_le _ _ _ H s). lia.
  - rewrite set_other. pose proof (f_le _ _ _ H (other s)). lia.
Qed.
Lemma amount_facted G f s b ev k : (forall t, amounts t (n_log (f_net f)) = map t_amount (G t)) -> amounts s (map (pair s) ev) = [] ->
  forall t, amounts t (n_log (f_net (facted f s b ev k))) = map t_amount (G t).
Proof.
  intros H E t. cbn [facted f_net acted n_log]. rewrite amounts_app. destruct (side_cases s t) as [->| ->]; [rewrite E|rewrite amounts_other]; rewrite app_nil_r; apply H.
Qed.

Lemma fi_touch ops G f s b ev k a0 g0 : FInv ops G f -> (forall t, Z.of_nat (started t (n_log (f_net f))) <= 16777216) -> In g0 (G a0) ->
  Inv files seed (map nop_of ops) G (acted (f_net f) s b ev) ->
  (forall i, ~ (s = a0 /\ i = t_id g0) -> tx_get i (b_tx b) = tx_get i (b_tx (n_br (f_net f) s))) ->
  (forall i, ~ (other s = a0 /\ i = t_id g0) -> rx_get i (b_rx b) = rx_get i (b_rx (n_br (f_net f) s))) ->
  (forall m i, In m (news s ev) -> fwd i m = true -> s = a0 /\ i = t_id g0) -> (forall m i, In m (news s ev) -> bwd i m = true -> other s = a0 /\ i = t_id g0) ->
  (forall m i, In m (firstn k (pending f (other s))) -> fwd i m = true -> other s = a0 /\ i = t_id g0) ->
  (forall m i, In m (firstn k (pending f (other s))) -> bwd i m = true -> s = a0 /\ i = t_id g0) ->
  (forall i p d z, In (RecvFinish i p d z) ev -> other s = a0 /\ i = t_id g0) -> (forall i, In (AckAll i) ev -> s = a0 /\ i = t_id g0) ->
  amounts s (map (pair s) ev) = [] -> (k <= length (pending f (other s)))%nat -> phase (facted f s b ev k) a0 g0 -> FInv ops G (facted f s b ev k).
Proof.
  intros H Hst Hg HI F1 F2 F3 F4 F5 F6 F7 F8 Ha Hk Hp. constructor.
  - exact HI.
  - intros a g Hga. destruct (side_cases a0 a) as [->| ->].
    + destruct (list_eq_dec Z.eq_dec (t_id g) (t_id g0)) as [E|E].
      * assert (g = g0) as -> by (eapply id_inj; [exact seed_ok|exact (f_inv _ _ _ H)|apply Hst|exact Hga|exact Hg|exact E]). exact Hp.
      * eapply (frame ops G f s b ev k (fun t i => t = a0 /\ i = t_id g0)); eauto; [tauto|apply (f_phase _ _ _ H _ _ Hga)].
    + eapply (frame ops G f s b ev k (fun t i => t = a0 /\ i = t_id g0)); eauto; [|apply (f_phase _ _ _ H _ _ Hga)]. intros [E _]. apply (other_neq a0 E).
  - eapply le_facted; eauto.
  - apply amount_facted; [apply (f_amount _ _ _ H)|exact Ha].
  - apply (f_pos _ _ _ H).
Qed.

Lemma req_not m i : req m = true -> fwd i m = false /\ bwd i m = false.
Proof. unfold req, fwd, bwd. intros H. apply bytes_eqb_spec in H. rewrite H. split; reflexivity. Qed.

(* nothing happens, except that requests are taken *)
Lemma fi_idle ops G f s k ev : FInv ops G f -> (k <= length (pending f (other s)))%nat -> (forall m, In m (firstn k (pending f (other s))) -> req m = true) ->
  (forall e, In e ev -> exists z p, e = Sysex (rmsg z p)) -> FInv ops G (facted f s (n_br (f_net f) s) ev k).
Proof.
  intros H Hk Hr He. assert (forall m, In m (news s ev) -> req m = true) as Hn.
  { intros m Hm. unfold news in Hm. apply wire_in in Hm. apply in_map_iff in Hm. destruct Hm as [e [E Hin]]. inversion E. subst. destruct (He _ Hin) as [z [p Ep]]. inversion Ep. apply req_rmsg. }
  assert (started s (map (pair s) ev) = O) as St.
  { unfold started. rewrite filter_none; [reflexivity|]. intros [t e] Hm. apply in_map_iff in Hm. destruct Hm as [e' [E Hin]]. inversion E. subst. destruct (He _ Hin) as [z [p ->]]. reflexivity. }
  assert (forall e, In e ev -> justified G (n_log (f_net f)) s e) as J.
  { intros e Hin. destruct (He e Hin) as [z [p ->]]. right. right. right. exists z, p. reflexivity. }
  constructor.
  - cbn [facted f_net]. eapply same_inv; eauto; exact (f_inv _ _ _ H).
  - intros a g Hg. eapply (frame ops G f s _ ev k (fun _ _ => False)); eauto; try (apply (f_phase _ _ _ H _ _ Hg)).
    + intros m i Hm Hf. apply Hn, (req_not m i) in Hm. destruct Hm. congruence.
    + intros m i Hm Hf. apply Hn, (req_not m i) in Hm. destruct Hm. congruence.
    + intros m i Hm Hf. apply Hr, (req_not m i) in Hm. destruct Hm. congruence.
    + intros m i Hm Hf. apply Hr, (req_not m i) in Hm. destruct Hm. congruence.
    + intros i p d z Hin. destruct (He _ Hin) as [z0 [p0 E]]. discriminate E.
    + intros i Hin. destruct (He _ Hin) as [z0 [p0 E]]. discriminate E.
  - eapply le_facted; eauto.
  - apply amount_facted; [apply (f_amount _ _ _ H)|]. unfold amounts. clear -He. induction ev as [|e ev IH]; [reflexivity|]. cbn [map flat_map]. rewrite IH by (intros x Hx; apply He; right; exact Hx).
    destruct (He e (or_introl eq_refl)) as [z [p ->]]. reflexivity.
  - apply (f_pos _ _ _ H).
Qed.

(* ids which are not in use *)
Lemma fresh_id ops G n s g : Inv files seed ops G n -> Z.of_nat (started s (n_log n)) < 16777216 -> In g (G s) -> t_id g <> number2bytes (b_next (n_br n s)) 3.
Proof.
  intros H Hst Hg E. apply In_nth_error in Hg. destruct Hg as [k Hk]. rewrite (i_id _ _ _ _ _ H _ _ _ Hk), (i_next _ _ _ _ _ H s) in E.
  assert (k < length (G s))%nat as L by (apply nth_error_Some; congruence). rewrite (i_count _ _ _ _ _ H s) in *.
  apply number_inj in E; [|lia|change (2 ^ (8 * Z.of_nat 3)) with 16777216; lia|change (2 ^ (8 * Z.of_nat 3)) with 16777216; lia]. specialize (seed_ok s). lia.
Qed.
Lemma unused ops G n s i : Inv files seed ops G n -> (forall g, In g (G s) -> t_id g <> i) ->
  tx_get i (b_tx (n_br n s)) = None /\ rx_get i (b_rx (n_br n (other s))) = None /\
  filter (fwd i) (wire s (n_log n)) = [] /\ filter (bwd i) (wire (other s) (n_log n)) = [] /\ finishes (other s) i (n_log n) = O /\ acknowledgements s i (n_log n) = O.
Proof.
  intros H Hi. assert (forall t m, In m (wire t (n_log n)) -> genuine G (n_log n) t m) as Gen by (intros t m Hm; apply wire_in in Hm; apply (i_ev _ _ _ _ _ H _ _ Hm)).
  split; [|split; [|split; [|split; [|split]]]].
  - destruct (tx_get i _) as [t|] eqn:E; [|reflexivity]. apply tx_get_in in E. destruct E as [E1 E2]. destruct (i_tx _ _ _ _ _ H _ _ E1) as [g [Hg [S _]]]. exfalso. apply (Hi g Hg). congruence.
  - destruct (rx_get i _) as [t|] eqn:E; [|reflexivity]. apply rx_get_in in E. destruct E as [E1 E2]. destruct (i_rx _ _ _ _ _ H _ _ E1) as [g [Hg [S _]]]. rewrite other_other in Hg. exfalso. apply (Hi g Hg). congruence.
  - apply filter_none. intros m Hm. destruct (fwd i m) eqn:F; [|reflexivity]. exfalso. destruct (Gen _ _ Hm) as [[g [Hg ->]]|[[g [k [Hg [_ ->]]]]|[[g [k [Hg [_ [_ [-> _]]]]]]|[z [p ->]]]]].
    + rewrite fwd_smsg in F by (eapply phase_len; eauto). apply bytes_eqb_spec in F. apply (Hi g Hg F).
    + rewrite fwd_dmsg in F by (eapply phase_len; eauto). apply bytes_eqb_spec in F. apply (Hi g Hg F).
    + rewrite fwd_amsg in F. discriminate.
    + rewrite fwd_rmsg in F. discriminate.
  - apply filter_none. intros m Hm. destruct (bwd i m) eqn:F; [|reflexivity]. exfalso. destruct (Gen _ _ Hm) as [[g [Hg ->]]|[[g [k [Hg [_ ->]]]]|[[g [k [Hg [_ [_ [-> _]]]]]]|[z [p ->]]]]].
    + rewrite bwd_smsg in F. discriminate.
    + rewrite bwd_dmsg in F. discriminate.
    + rewrite other_other in Hg. rewrite bwd_amsg in F by (eapply phase_len; eauto). apply bytes_eqb_spec in F. apply (Hi g Hg F).
    + rewrite bwd_rmsg in F. discriminate.
  - unfold finishes. rewrite filter_none; [reflexivity|]. intros [t e] Hm. destruct e; try reflexivity. destruct (side_eqb (other s) t) eqn:S; [|reflexivity]. apply side_eqb_spec in S. subst t.
    destruct (bytes_eqb i i0) eqn:B; [|reflexivity]. apply bytes_eqb_spec in B. subst i0. exfalso. apply (i_ev _ _ _ _ _ H) in Hm. destruct Hm as [g [Hg [_ [_ [E _]]]]]. rewrite other_other in Hg. apply (Hi g Hg). congruence.
  - unfold acknowledgements. rewrite filter_none; [reflexivity|]. intros [t e] Hm. destruct e; try reflexivity. destruct (side_eqb s t) eqn:S; [|reflexivity]. apply side_eqb_spec in S. subst t.
    destruct (bytes_eqb i i0) eqn:B; [|reflexivity]. apply bytes_eqb_spec in B. subst i0. exfalso. apply (i_ev _ _ _ _ _ H) in Hm. destruct Hm as [g [Hg [E _]]]. apply (Hi g Hg). congruence.
Qed.
Lemma filter_skipn {A} (p : A -> bool) k l : filter p l = [] -> filter p (skipn k l) = [].
Proof. intros H. rewrite <- (firstn_skipn k l), filter_app in H. apply app_eq_nil in H. apply H. Qed.

(* a transmission is started *)
Lemma fi_start ops G f s now path msg size type b' ev k : FInv ops G f -> Z.of_nat (started s (n_log (f_net f))) < 16777216 -> awake now (n_br (f_net f) s) ->
  good files (map nop_of ops) s (mkTx [] type path (amount_of size msg) size msg 0 None) -> 1 <= size -> msg <> [] ->
  start_send now path msg size type (n_br (f_net f) s) = (b', ev) ->
  (k <= length (pending f (other s)))%nat -> (forall m, In m (firstn k (pending f (other s))) -> req m = true) ->
  FInv ops (grow s [mkTx (number2bytes (b_next (n_br (f_net f) s)) 3) type path (amount_of size msg) size msg 0 None] G) (facted f s b' ev k).
Proof.
  intros H Hst Haw Hg Hs Hm E Hk Hr. set (n := f_net f) in *. set (g := mkTx (number2bytes (b_next (n_br n s)) 3) type path (amount_of size msg) size msg 0 None).
  pose proof (start_inv files seed seed_ok (map nop_of ops) G n s now path msg size type b' ev (f_inv _ _ _ H) Hg E) as HI. fold g in HI.
  assert (length (t_id g) = 4%nat) as L by apply number3_length.
  assert (forall g0, In g0 (G s) -> t_id g0 <> t_id g) as Hf by (intros g0 Hg0; eapply fresh_id; [apply (f_inv _ _ _ H)|exact Hst|exact Hg0]).
  destruct (unused _ _ _ _ _ (f_inv _ _ _ H) Hf) as [U1 [U2 [U3 [U4 [U5 U6]]]]]. fold n in U1, U2, U3, U4, U5, U6.
  unfold start_send in E. rewrite (cleanup_awake now _ Haw) in E. destruct (chunk_first g now eq_refl Hs (fun x => x)) as [t1 [E1 Ht1]]. fold n in E.
  change (send_chunk now (mkTx (number2bytes (b_next (n_br n s)) 3) type path ((Z.of_nat (length msg) + size - 1) / size) size msg 0 None)) with (send_chunk now g) in E. rewrite E1 in E.
  assert (b' = mkB (tx_put t1 (b_tx (n_br n s))) (b_rx (n_br n s)) (if 16777216 <=? b_next (n_br n s) + 1 then 0 else b_next (n_br n s) + 1) /\
    ev = [Sysex (smsg g); SendProgress (t_path g) 0 (t_amount g) (t_type g =? 0); Sysex (dmsg g 0)]) as [-> ->] by (split; inversion E; reflexivity). clear E.
  set (ev := [Sysex (smsg g); SendProgress (t_path g) 0 (t_amount g) (t_type g =? 0); Sysex (dmsg g 0)]) in *. set (b' := mkB _ _ _) in *.
  assert (news s ev = [smsg g; dmsg g 0]) as Nw by (unfold news, wire, ev; cbn; rewrite side_eqb_refl; reflexivity).
  assert (t_id t1 = t_id g) as Ti by (apply Ht1).
  assert (t_next t1 = 1) as Tn by (unfold send_chunk in E1; inversion E1; reflexivity).
  assert (1 <= t_amount g) as Pos by (apply amount_pos; assumption).
  constructor.
  - exact HI.
  - intros a g0 Hg0. destruct (side_cases s a) as [->| ->].
    + rewrite grow_same in Hg0. apply in_app_or in Hg0. destruct Hg0 as [Hg0|[<-|[]]].
      * eapply (frame ops G f s b' ev k (fun t i => t = s /\ i = t_id g)); eauto.
        -- intros i Hi. apply tx_put_other. rewrite Ti. intros ->. apply Hi. auto.
        -- intros m i. rewrite Nw. intros [<-|[<-|[]]] F; [rewrite fwd_smsg in F by exact L|rewrite fwd_dmsg in F by exact L]; apply bytes_eqb_spec in F; auto.
        -- intros m i. rewrite Nw. intros [<-|[<-|[]]] F; [rewrite bwd_smsg in F|rewrite bwd_dmsg in F]; discriminate F.
        -- intros m i Hin F. apply Hr, (req_not m i) in Hin. destruct Hin. congruence.
        -- intros m i Hin F. apply Hr, (req_not m i) in Hin. destruct Hin. congruence.
        -- intros i p d z [Q|[Q|[Q|[]]]]; discriminate Q.
        -- intros i [Q|[Q|[Q|[]]]]; discriminate Q.
        -- intros [_ Q]. apply (Hf g0 Hg0 Q).
        -- apply (f_phase _ _ _ H _ _ Hg0).
      * exists 2, O, O. split; [|split; [|split; [|split]]].
        -- rewrite (pending_same ops G) by exact H. rewrite pending_other, filter_app. cbn [facted f_net acted n_br]. rewrite set_same, set_other. unfold b'. cbn [b_tx]. rewrite <- Ti, tx_put_same, Ti.
           fold n. rewrite U2, Nw. unfold pending. fold n. rewrite (filter_skipn _ _ _ U3), (filter_skipn _ _ _ (filter_skipn _ _ _ U4)). cbn [app filter].
           rewrite fwd_smsg, fwd_dmsg, eqb_refl by exact L. apply phA, Tn.
        -- cbn [facted f_net acted n_log]. rewrite sent_app, sent_same. unfold sent, cnt. fold n. rewrite U3, U4, Nw. cbn [filter]. rewrite fwd_smsg, fwd_dmsg, eqb_refl by exact L. reflexivity.
        -- cbn [facted f_net acted n_log]. fold n. rewrite finishes_app, U5, finishes_none; [destruct (t_type g =? 0); reflexivity|]. intros p d z [Q|[Q|[Q|[]]]]; discriminate Q.
        -- cbn [facted f_net acted n_log]. fold n. rewrite acks_app, U6, acks_none; [reflexivity|]. intros [Q|[Q|[Q|[]]]]; discriminate Q.
        -- discriminate.
    + rewrite grow_other in Hg0. eapply (frame ops G f s b' ev k (fun t i => t = s /\ i = t_id g)); eauto.
      * intros i Hi. apply tx_put_other. rewrite Ti. intros ->. apply Hi. auto.
      * intros m i. rewrite Nw. intros [<-|[<-|[]]] F; [rewrite fwd_smsg in F by exact L|rewrite fwd_dmsg in F by exact L]; apply bytes_eqb_spec in F; auto.
      * intros m i. rewrite Nw. intros [<-|[<-|[]]] F; [rewrite bwd_smsg in F|rewrite bwd_dmsg in F]; discriminate F.
      * intros m i Hin F. apply Hr, (req_not m i) in Hin. destruct Hin. congruence.
      * intros m i Hin F. apply Hr, (req_not m i) in Hin. destruct Hin. congruence.
      * intros i p d z [Q|[Q|[Q|[]]]]; discriminate Q.
      * intros i [Q|[Q|[Q|[]]]]; discriminate Q.
      * intros [Q _]. apply (other_neq s Q).
      * apply (f_phase _ _ _ H _ _ Hg0).
  - eapply le_facted; eauto.
  - intros t. cbn [facted f_net acted n_log]. rewrite amounts_app, (f_amount _ _ _ H t). destruct (side_cases s t) as [->| ->].
    + rewrite grow_same, map_app. f_equal. unfold amounts, ev. cbn. rewrite side_eqb_refl. reflexivity.
    + rewrite grow_other, amounts_other, app_nil_r. reflexivity.
  - intros t g0 Hg0. destruct (side_cases s t) as [->| ->].
    + rewrite grow_same in Hg0. apply in_app_or in Hg0. destruct Hg0 as [Hg0|[<-|[]]]; [apply (f_pos _ _ _ H _ _ Hg0)|exact Pos].
    + rewrite grow_other in Hg0. apply (f_pos _ _ _ H _ _ Hg0).
Qed.

(* ---- a message arrives ---- *)
Lemma ph_bwd g t fw r m bw c e a : ph g t fw r (m :: bw) c e a -> exists t0, t = Some t0 /\ fw = [] /\ bw = [] /\ a = O /\
  ((exists r0 k, r = Some r0 /\ m = amsg (t_id g) k /\ t_next t0 = k + 1 /\ 0 <= k < t_amount g - 1 /\ r_last r0 = k /\ c = 2 * k + 3 /\ e = O) \/
   (r = None /\ m = amsg (t_id g) (t_amount g - 1) /\ t_next t0 = t_amount g /\ c = 2 * t_amount g + 1 /\ e = 1%nat)).
Proof.
  remember (m :: bw) as l eqn:El. intros P. destruct P as [t0 Hn|t0 r0 k0 Hn Hk Hr|t0 r0 k0 Hn Hk Hr|t0 Hn|]; try discriminate; injection El as <- <-; exists t0; repeat split; auto; [left|right]; auto.
  exists r0, k0. repeat split; auto; lia.
Qed.
Lemma pending_head f s m rest : pending f (other s) = m :: rest -> firstn 1 (pending f (other s)) = [m] /\ skipn 1 (pending f (other s)) = rest /\ (1 <= length (pending f (other s)))%nat.
Proof. intros ->. cbn. auto with arith. Qed.

Lemma fi_recv_start ops G f s now g rest b ev e : FInv ops G f -> (forall t, Z.of_nat (started t (n_log (f_net f))) <= 16777216) -> awake now (n_br (f_net f) s) ->
  In g (G (other s)) -> pending f (other s) = smsg g :: rest -> receive_start now (t_id g) ([t_type g] ++ number2bytes (t_amount g) 3 ++ string2bytes (t_path g)) (n_br (f_net f) s) = (b, ev, e) ->
  e = None /\ FInv ops G (facted f s b ev 1) /\ exists p a, ev = [RecvStart (t_id g) p a].
Proof.
  intros H Hst Haw Hg Hp E. pose proof (phase_len _ _ _ _ _ (f_inv _ _ _ H) Hg) as L. destruct (pending_head _ _ _ _ Hp) as [P1 [P2 P3]].
  pose proof (rx_start_inv files seed seed_ok _ _ _ _ _ _ _ (f_inv _ _ _ H) Hg E) as HI. cbn [act] in HI. fold (acted (f_net f) s b ev) in HI.
  destruct (f_phase _ _ _ H _ _ Hg) as [c [x [z [P [Pc [Pf [Pa Pd]]]]]]]. rewrite other_other in *. rewrite Hp in P. cbn [filter] in P. rewrite fwd_smsg, eqb_refl in P by exact L.
  unfold receive_start in E. rewrite (cleanup_awake _ _ Haw) in E. set (r := mkRx _ _ _ _ _ _ _) in E. assert (r_id r = t_id g) as Ri by reflexivity. assert (r_last r = -1) as Rl by reflexivity. clearbody r.
  injection E as <- <- <-. split; [reflexivity|]. split; [|eauto].
  assert (news s [RecvStart (t_id g) (r_path r) (r_amount r)] = []) as Nw by reflexivity.
  eapply fi_touch with (a0 := other s) (g0 := g); eauto.
  - intros i Hi. cbn [b_rx]. apply rx_put_other. rewrite Ri. intros ->. apply Hi. auto.
  - rewrite Nw. intros m i [].
  - rewrite Nw. intros m i [].
  - rewrite P1. intros m i [<-|[]] F. rewrite fwd_smsg in F by exact L. apply bytes_eqb_spec in F. auto.
  - rewrite P1. intros m i [<-|[]] F. rewrite bwd_smsg in F. discriminate F.
  - intros i p d y [Q|[]]. discriminate Q.
  - intros i [Q|[]]. discriminate Q.
  - exists c, x, z. rewrite other_other. rewrite pending_other, P2, (pending_same ops G) by exact H. rewrite Nw, app_nil_r. cbn [facted f_net acted n_br n_log]. rewrite set_same, set_other. cbn [b_rx]. rewrite <- Ri at 3. rewrite rx_put_same.
    rewrite sent_app, sent_other, finishes_app, acks_app, Nw. cbn [cnt filter length]. rewrite (finishes_none s s), (acks_none (other s) s), !Nat.add_0_r.
    + split; [|split; [exact Pc|split; [exact Pf|split; [exact Pa|]]]].
      * remember (smsg g :: filter (fwd (t_id g)) rest) as l eqn:El. inversion P; subst; try discriminate.
        match goal with Q : [smsg g; dmsg g 0] = _ |- _ => apply (f_equal (@tl _)) in Q; cbn [tl] in Q; rewrite <- Q end. apply (phB g t r 0); [lia| |lia]. pose proof (f_pos _ _ _ H _ _ Hg). lia.
      * intros E1. eapply done_mono; [|apply Pd, E1]. apply incl_appl, incl_refl.
    + intros [Q|[]]; discriminate Q.
    + intros p d y [Q|[]]; discriminate Q.
Qed.

(* the report at the receiver *)
Definition closing (g : tx) : bev := if t_type g =? 0 then RecvFinish (t_id g) (normal (t_path g)) (content g (t_amount g)) (t_amount g) else RecvError (content g (t_amount g)).
Lemma good_type ops G f s g : FInv ops G f -> In g (G s) -> (t_type g = 0 \/ t_type g = 1) /\ t_amount g < 16777216.
Proof.
  intros H Hg. pose proof (i_good _ _ _ _ _ (f_inv _ _ _ H) _ _ Hg) as Gd. split; [destruct Gd as [[[T _]|[T _]] _]; auto|]. apply (amount_bound files seed seed_ok) in Gd. lia.
Qed.

Lemma fi_recv_data ops G f s now g k rest b ev e : FInv ops G f -> (forall t, Z.of_nat (started t (n_log (f_net f))) <= 16777216) ->
  In g (G (other s)) -> pending f (other s) = dmsg g k :: rest -> index_ok g k -> receive_data now (t_id g) (number2bytes k 3 ++ string2bytes (part g k)) (n_br (f_net f) s) = (b, ev, e) ->
  e = None /\ FInv ops G (facted f s b ev 1) /\ ev = [Sysex (amsg (t_id g) k); RecvProgress (t_id g) (normal (t_path g)) k (t_amount g)] ++ (if k =? t_amount g - 1 then [closing g] else []).
Proof.
  intros H Hst Hg Hp Hi0 E. pose proof (phase_len _ _ _ _ _ (f_inv _ _ _ H) Hg) as L. destruct (pending_head _ _ _ _ Hp) as [P1 [P2 P3]].
  pose proof (rx_data_inv files seed seed_ok _ _ _ _ _ _ _ _ (f_inv _ _ _ H) (Hst _) Hg Hi0 E) as HI. cbn [act] in HI. fold (acted (f_net f) s b ev) in HI.
  destruct (good_type _ _ _ _ _ H Hg) as [Ty Ab]. pose proof (f_pos _ _ _ H _ _ Hg) as Pos. destruct Hi0 as [K1 K2].
  destruct (f_phase _ _ _ H _ _ Hg) as [c [x [z [P [Pc [Pf [Pa Pd]]]]]]]. rewrite other_other in *. rewrite Hp in P. cbn [filter] in P. rewrite fwd_dmsg, eqb_refl in P by exact L.
  assert (exists t r, P = P /\ tx_get (t_id g) (b_tx (n_br (f_net f) (other s))) = Some t /\ rx_get (t_id g) (b_rx (n_br (f_net f) s)) = Some r /\ filter (fwd (t_id g)) rest = [] /\
    filter (bwd (t_id g)) (pending f s) = [] /\ c = 2 * k + 2 /\ x = O /\ z = O /\ t_next t = k + 1 /\ r_last r = k - 1) as [t [r [_ [V1 [V2 [V3 [V4 [V5 [V6 [V7 [V8 V9]]]]]]]]]]].
  { remember (dmsg g k :: filter (fwd (t_id g)) rest) as l eqn:El. inversion P as [t Hn Q1 Q2 Q3 Q4 Q5 Q6 Q7|t r k0 Hn Hk Hr Q1 Q2 Q3 Q4 Q5 Q6 Q7| | |]; subst l; try discriminate.
    - assert (k0 = k) as ->. { assert (In (dmsg g k) [dmsg g k0]) as M. { rewrite Q2. left. reflexivity. } destruct M as [M|[]].
        unfold dmsg in M. assert (skipn 4 (framed 3 (t_id g ++ number2bytes k0 3 ++ string2bytes (part g k0))) = skipn 4 (framed 3 (t_id g ++ number2bytes k 3 ++ string2bytes (part g k)))) as M1 by (rewrite M; reflexivity).
        pose proof (framed_parts 3 (t_id g ++ number2bytes k0 3 ++ string2bytes (part g k0))) as [_ [_ F1]]. pose proof (framed_parts 3 (t_id g ++ number2bytes k 3 ++ string2bytes (part g k))) as [_ [_ F2]].
        rewrite F1, F2 in M1. apply app_inv_head in M1. assert (firstn 4 (number2bytes k0 3 ++ string2bytes (part g k0)) = firstn 4 (number2bytes k 3 ++ string2bytes (part g k))) as M2 by (rewrite M1; reflexivity).
        rewrite !(firstn_id _ _ 4) in M2 by apply number3_length. apply (f_equal bytes2number) in M2. rewrite !number_small in M2 by lia. exact M2. }
      exists t, r. apply (f_equal (@tl _)) in Q2. cbn [tl] in Q2. repeat split; auto. }
  destruct (i_rx _ _ _ _ _ (f_inv _ _ _ H) _ _ (proj1 (rx_get_in _ _ _ V2))) as [g' [Hg' Hr]].
  assert (g' = g) as ->. { eapply (id_inj files seed seed_ok); [exact (f_inv _ _ _ H)|apply Hst|exact Hg'|exact Hg|]. destruct Hr as [Hr _]. apply rx_get_in in V2. destruct V2. congruence. }
  destruct Hr as [R1 [R2 [R3 [R4 [_ [_ R7]]]]]].
  unfold receive_data in E. rewrite V2 in E. rewrite (firstn_id _ _ 4), (skipn_id _ _ 4) in E by apply number3_length. rewrite number_small in E by lia.
  assert ((k =? r_last r + 1) = true) as Ek by lia. rewrite Ek in E. cbn [negb] in E. set (r1 := mkRx _ _ _ _ _ _ _) in E. assert (r_id r1 = t_id g) as Ri by exact R1. assert (r_last r1 = k) as Rl by reflexivity.
  set (buf := r_buf r1) in E. assert (k = t_amount g - 1 -> buf = content g (t_amount g)) as Hbuf.
  { intros El. replace (t_amount g) with (k + 1) by lia. rewrite content_succ by lia. unfold buf, r1. cbn [r_buf]. rewrite R7. replace (r_last r + 1) with k by lia. reflexivity. }
  clearbody buf r1. rewrite R1, R3, R4 in E. fold (amsg (t_id g) k) in E.
  assert (exists last, ev = [Sysex (amsg (t_id g) k); RecvProgress (t_id g) (normal (t_path g)) k (t_amount g)] ++ last /\ e = None /\
    ((k < t_amount g - 1 /\ last = [] /\ b = mkB (b_tx (n_br (f_net f) s)) (map (fun y => if bytes_eqb (r_id y) (t_id g) then r1 else y) (b_rx (n_br (f_net f) s))) (b_next (n_br (f_net f) s))) \/
     (k = t_amount g - 1 /\ b = mkB (b_tx (n_br (f_net f) s)) (rx_del (t_id g) (b_rx (n_br (f_net f) s))) (b_next (n_br (f_net f) s)) /\
        ((t_type g = 0 /\ exists d, last = [RecvFinish (t_id g) (normal (t_path g)) d (t_amount g)]) \/ (t_type g = 1 /\ exists d, last = [RecvError d])))) /\
    last = (if k =? t_amount g - 1 then [closing g] else [])) as [last [Ev [He [Cases Closing]]]].
  { destruct (Z.eqb_spec k (t_amount g - 1)) as [El|El].
    - rewrite R2 in E. destruct Ty as [T|T]; rewrite T in E; cbn [bytes_eqb Z.eqb andb] in E.
      + exists [RecvFinish (t_id g) (normal (t_path g)) buf (t_amount g)]. inversion E. split; [reflexivity|]. split; [reflexivity|]. split; [right; split; [exact El|]; split; [reflexivity|]; left; eauto|]. unfold closing. rewrite T, (Hbuf El). reflexivity.
      + exists [RecvError buf]. inversion E. split; [reflexivity|]. split; [reflexivity|]. split; [right; split; [exact El|]; split; [reflexivity|]; right; eauto|]. unfold closing. rewrite T, (Hbuf El). reflexivity.
    - exists []. rewrite app_nil_r. inversion E. split; [reflexivity|]. split; [reflexivity|]. split; [|reflexivity]. left. split; [lia|]. auto. }
  clear E. split; [exact He|]. split; [|rewrite Ev, Closing; reflexivity]. assert (news s ev = [amsg (t_id g) k]) as Nw.
  { rewrite Ev. unfold news, wire. rewrite map_app, flat_map_app. cbn. rewrite side_eqb_refl. destruct Cases as [[_ [-> _]]|[_ [_ [[_ [d ->]]|[_ [d ->]]]]]]; reflexivity. }
  assert (forall i, In (AckAll i) ev -> False) as NoAck.
  { intros i. rewrite Ev. intros [Q|[Q|Q]]; try discriminate Q. destruct Cases as [[_ [-> _]]|[_ [_ [[_ [d ->]]|[_ [d ->]]]]]]; [destruct Q|destruct Q as [Q|[]]; discriminate Q|destruct Q as [Q|[]]; discriminate Q]. }
  assert (phase (facted f s b ev 1) (other s) g) as Hph.
  { assert (done s g (n_log (f_net (facted f s b ev 1))) \/ k < t_amount g - 1) as Dn.
    { destruct Cases as [[Q _]|[Q [_ Cs]]]; [right; exact Q|left]. pose proof (i_ev _ _ _ _ _ HI) as J. assert (In (s, Sysex (amsg (t_id g) k)) (n_log (acted (f_net f) s b ev))) as Hin by (cbn [acted n_log]; apply in_or_app; right; rewrite Ev; left; reflexivity).
      apply J in Hin. cbn [justified] in Hin. destruct Hin as [[h [Hh Eh]]|[[h [j [Hh [_ Eh]]]]|[[h [j [Hh [[Hj0 _] [Hj [Eh Hd]]]]]]|[z0 [p0 Eh]]]]].
      - apply (f_equal (bwd (t_id g))) in Eh. rewrite bwd_smsg, bwd_amsg, eqb_refl in Eh by exact L. discriminate.
      - apply (f_equal (bwd (t_id g))) in Eh. rewrite bwd_dmsg, bwd_amsg, eqb_refl in Eh by exact L. discriminate.
      - pose proof (phase_len _ _ _ _ _ (f_inv _ _ _ H) Hh) as Lh. unfold amsg in Eh. apply (f_equal (skipn 4)) in Eh. destruct (framed_parts 4 (t_id g ++ number2bytes k 3)) as [_ [_ F1]]. destruct (framed_parts 4 (t_id h ++ number2bytes j 3)) as [_ [_ F2]].
        rewrite F1, F2 in Eh. pose proof (f_equal (firstn 4) Eh) as Eh1. rewrite !(firstn_id _ _ 4) in Eh1 by assumption. pose proof (f_equal (skipn 4) Eh) as Eh2. rewrite !(skipn_id _ _ 4) in Eh2 by assumption.
        assert (g = h) by (eapply (id_inj files seed seed_ok); [exact (f_inv _ _ _ H)|apply Hst|exact Hg|exact Hh|exact Eh1]). subst h. apply Hd.
        apply (f_equal bytes2number) in Eh2. rewrite !number_small in Eh2 by lia. lia.
      - apply (f_equal (bwd (t_id g))) in Eh. rewrite bwd_rmsg, bwd_amsg, eqb_refl in Eh by exact L. discriminate. }
    unfold phase. rewrite other_other, pending_other, P2, (pending_same ops G) by exact H. rewrite filter_app, Nw, V3, V4. cbn [filter app]. rewrite bwd_amsg, eqb_refl by exact L.
    cbn [facted f_net acted n_br n_log] in *. rewrite set_same, set_other, V1, sent_app, sent_other, Nw. unfold cnt. cbn [filter]. rewrite bwd_amsg, eqb_refl by exact L. cbn [length].
    rewrite finishes_app, acks_app, (acks_none (other s) s), Nat.add_0_r by (intros Q; exfalso; eapply NoAck, Q).
    destruct Cases as [[Hk [-> ->]]|[Hk [-> Cs]]].
    - exists (2 * k + 3), O, O. cbn [b_rx]. rewrite (rx_map_same _ _ _ _ V2 Ri). split; [apply phC; [exact V8|lia|exact Rl]|]. split; [rewrite Pc in V5; lia|].
      split; [|split; [congruence|discriminate]]. rewrite Pf, V6, Ev, (finishes_none s s); [destruct (t_type g =? 0); reflexivity|]. intros p d y [Q|[Q|[]]]; discriminate Q.
    - exists (2 * t_amount g + 1), 1%nat, O. cbn [b_rx]. rewrite rx_del_same. rewrite Hk. split; [apply phD; lia|]. split; [rewrite Pc in V5; lia|].
      split; [|split; [congruence|]]; [|intros _; destruct Dn as [Dn|Dn]; [exact Dn|lia]].
      rewrite Pf, V6, Ev. destruct Cs as [[T [d ->]]|[T [d ->]]]; rewrite T; unfold finishes; cbn; rewrite ?side_eqb_refl, ?eqb_refl; reflexivity. }
  eapply fi_touch with (a0 := other s) (g0 := g); eauto.
  - intros i Hi. destruct Cases as [[_ [_ ->]]|[_ [-> _]]]; reflexivity.
  - intros i Hi. assert (i <> t_id g) as Hne by (intros ->; apply Hi; auto). destruct Cases as [[_ [_ ->]]|[_ [-> _]]]; cbn [b_rx]; [apply rx_map_other; assumption|apply rx_del_other, Hne].
  - rewrite Nw. intros m i [<-|[]] F. rewrite fwd_amsg in F. discriminate F.
  - rewrite Nw. intros m i [<-|[]] F. rewrite bwd_amsg in F by exact L. apply bytes_eqb_spec in F. auto.
  - rewrite P1. intros m i [<-|[]] F. rewrite fwd_dmsg in F by exact L. apply bytes_eqb_spec in F. auto.
  - rewrite P1. intros m i [<-|[]] F. rewrite bwd_dmsg in F. discriminate F.
  - intros i p d y. rewrite Ev. intros [Q|[Q|Q]]; try discriminate Q. destruct Cases as [[_ [-> _]]|[_ [_ [[_ [d0 ->]]|[_ [d0 ->]]]]]]; [destruct Q|destruct Q as [Q|[]]; inversion Q; auto|destruct Q as [Q|[]]; discriminate Q].
  - intros i Q. exfalso. eapply NoAck, Q.
  - rewrite Ev. unfold amounts. destruct Cases as [[_ [-> _]]|[_ [_ [[_ [d ->]]|[_ [d ->]]]]]]; reflexivity.
Qed.

Lemma fi_recv_ack ops G f s now g k rest b ev e : FInv ops G f -> (forall t, Z.of_nat (started t (n_log (f_net f))) <= 16777216) ->
  In g (G s) -> pending f (other s) = amsg (t_id g) k :: rest -> index_ok g k -> k < 16777216 -> (k = t_amount g - 1 -> done (other s) g (n_log (f_net f))) ->
  receive_ack now (t_id g) (number2bytes k 3) (n_br (f_net f) s) = (b, ev, e) ->
  e = None /\ FInv ops G (facted f s b ev 1) /\ ev = (if k =? t_amount g - 1 then [AckAll (t_id g)] else [SendProgress (t_path g) (k + 1) (t_amount g) (t_type g =? 0); Sysex (dmsg g (k + 1))]).
Proof.
  intros H Hst Hg Hp Hi0 Hk Hd E. pose proof (phase_len _ _ _ _ _ (f_inv _ _ _ H) Hg) as L. destruct (pending_head _ _ _ _ Hp) as [P1 [P2 P3]].
  pose proof (tx_ack_inv files seed seed_ok _ _ _ _ _ _ _ _ (f_inv _ _ _ H) (Hst _) Hg Hi0 Hk Hd E) as HI. cbn [act] in HI. fold (acted (f_net f) s b ev) in HI.
  destruct (good_type _ _ _ _ _ H Hg) as [Ty Ab]. pose proof (f_pos _ _ _ H _ _ Hg) as Pos. destruct Hi0 as [K1 K2].
  destruct (f_phase _ _ _ H _ _ Hg) as [c [x [z [P [Pc [Pf [Pa Pd]]]]]]]. rewrite Hp in P. cbn [filter] in P. rewrite bwd_amsg, eqb_refl in P by exact L.
  assert (forall k0, amsg (t_id g) k = amsg (t_id g) k0 -> 0 <= k0 < 16777216 -> k = k0) as Same.
  { intros k0 Q Hk0. unfold amsg in Q. apply (f_equal (skipn 4)) in Q. destruct (framed_parts 4 (t_id g ++ number2bytes k0 3)) as [_ [_ F1]]. destruct (framed_parts 4 (t_id g ++ number2bytes k 3)) as [_ [_ F2]].
    rewrite F1, F2 in Q. apply app_inv_head in Q. apply (f_equal bytes2number) in Q. rewrite !number_small in Q by lia. exact Q. }
  destruct (tx_get (t_id g) (b_tx (n_br (f_net f) s))) as [t|] eqn:V1; [|apply ph_bwd in P; destruct P as [t0 [Q _]]; discriminate Q].
  destruct (i_tx _ _ _ _ _ (f_inv _ _ _ H) _ _ (proj1 (tx_get_in _ _ _ V1))) as [g' [Hg' Hs]].
  assert (g' = g) as ->. { eapply (id_inj files seed seed_ok); [exact (f_inv _ _ _ H)|apply Hst|exact Hg'|exact Hg|]. destruct Hs as [Hs _]. apply tx_get_in in V1. destruct V1. congruence. }
  destruct Hs as [S1 [S2 [S3 [S4 [S5 [S6 [S7 S8]]]]]]].
  unfold receive_ack in E. rewrite V1, number_small in E by lia.
  assert (filter (bwd (t_id g)) rest = [] /\ filter (fwd (t_id g)) (pending f s) = [] /\ z = O /\ t_next t = k + 1 /\
    (k < t_amount g - 1 /\ c = 2 * k + 3 /\ x = O /\ (exists r, rx_get (t_id g) (b_rx (n_br (f_net f) (other s))) = Some r /\ r_last r = k) \/
     k = t_amount g - 1 /\ c = 2 * t_amount g + 1 /\ x = 1%nat /\ rx_get (t_id g) (b_rx (n_br (f_net f) (other s))) = None)) as [V2 [V3 [V4 [V5 Cases]]]].
  { apply ph_bwd in P. destruct P as [t0 [T0 [F0 [B0 [A0 P]]]]]. injection T0 as <-. split; [exact B0|]. split; [exact F0|]. split; [exact A0|].
    destruct P as [[r [k0 [Er [Em [Hn [Hk0 [Hr [Hc He]]]]]]]]|[Er [Em [Hn [Hc He]]]]]; apply Same in Em; try lia; subst.
    - split; [exact Hn|]. left. repeat split; try lia. exists r. auto.
    - split; [lia|]. right. auto. }
  assert ((k =? t_next t - 1) = true) as Ek by lia. rewrite Ek in E. cbn [negb] in E. rewrite S4 in E.
  destruct Cases as [[Hlt [Ec [Ex [r [V6 V7]]]]]|[Hl [Ec [Ex V6]]]].
  - assert ((t_next t =? t_amount g) = false) as En by lia. rewrite En in E. set (t1 := fst (send_chunk now t)). assert (send_chunk now t = (t1, [SendProgress (t_path g) (k + 1) (t_amount g) (t_type g =? 0); Sysex (dmsg g (k + 1))])) as Es.
    { unfold t1, send_chunk, dmsg, part, piece. cbn [fst]. rewrite S1, S2, S3, S4, S5, S8, V5. reflexivity. }
    assert (t_id t1 = t_id g) as Ti by exact S1. assert (t_next t1 = k + 2) as Tn by (unfold t1; cbn; lia). clearbody t1. rewrite Es in E.
    assert (b = mkB (map (fun y => if bytes_eqb (t_id y) (t_id g) then t1 else y) (b_tx (n_br (f_net f) s))) (b_rx (n_br (f_net f) s)) (b_next (n_br (f_net f) s)) /\
      ev = [SendProgress (t_path g) (k + 1) (t_amount g) (t_type g =? 0); Sysex (dmsg g (k + 1))] /\ e = None) as [Eb [Ev He]] by (apply pair_equal_spec in E; destruct E as [E ->]; apply pair_equal_spec in E; destruct E as [<- <-]; auto).
    clear E Es. split; [exact He|]. split; [|rewrite Ev; assert ((k =? t_amount g - 1) = false) as -> by lia; reflexivity]. assert (news s ev = [dmsg g (k + 1)]) as Nw by (rewrite Ev; unfold news, wire; cbn; rewrite side_eqb_refl; reflexivity).
    eapply fi_touch with (a0 := s) (g0 := g); eauto.
    + intros i Hi. rewrite Eb. cbn [b_tx]. apply tx_map_other; [exact Ti|]. intros ->. apply Hi. auto.
    + rewrite Eb. reflexivity.
    + rewrite Nw. intros m i [<-|[]] F. rewrite fwd_dmsg in F by exact L. apply bytes_eqb_spec in F. auto.
    + rewrite Nw. intros m i [<-|[]] F. rewrite bwd_dmsg in F. discriminate F.
    + rewrite P1. intros m i [<-|[]] F. rewrite fwd_amsg in F. discriminate F.
    + rewrite P1. intros m i [<-|[]] F. rewrite bwd_amsg in F by exact L. apply bytes_eqb_spec in F. auto.
    + rewrite Ev. intros i p d y [Q|[Q|[]]]; discriminate Q.
    + rewrite Ev. intros i [Q|[Q|[]]]; discriminate Q.
    + rewrite Ev. unfold amounts. cbn [map flat_map]. assert ((k + 1 =? 0) = false) as -> by lia. rewrite andb_false_r. reflexivity.
    + exists (2 * (k + 1) + 2), O, O. rewrite pending_other, P2, (pending_same ops G) by exact H. rewrite filter_app, Nw, V2, V3. cbn [filter app]. rewrite fwd_dmsg, eqb_refl by exact L.
      cbn [facted f_net acted n_br n_log]. rewrite set_same, set_other, V6, Eb. cbn [b_tx]. rewrite (tx_map_same _ _ _ _ V1 Ti). split; [apply phB; lia|].
      rewrite sent_app, sent_same, Nw. unfold cnt. cbn [filter]. rewrite fwd_dmsg, eqb_refl by exact L. cbn [length]. split; [lia|].
      rewrite finishes_app, acks_app, (finishes_none (other s) s), (acks_none s s), !Nat.add_0_r.
      * split; [rewrite Pf, Ex; reflexivity|]. split; [congruence|discriminate].
      * rewrite Ev. intros [Q|[Q|[]]]; discriminate Q.
      * rewrite Ev. intros p d y [Q|[Q|[]]]; discriminate Q.
  - assert ((t_next t =? t_amount g) = true) as En by lia. rewrite En in E.
    assert (b = mkB (tx_del (t_id g) (b_tx (n_br (f_net f) s))) (b_rx (n_br (f_net f) s)) (b_next (n_br (f_net f) s)) /\ ev = [AckAll (t_id g)] /\ e = None) as [Eb [Ev He]] by (inversion E; auto).
    clear E. split; [exact He|]. split; [|rewrite Ev; assert ((k =? t_amount g - 1) = true) as -> by lia; reflexivity]. assert (news s ev = []) as Nw by (rewrite Ev; reflexivity).
    eapply fi_touch with (a0 := s) (g0 := g); eauto.
    + intros i Hi. rewrite Eb. cbn [b_tx]. apply tx_del_other. intros ->. apply Hi. auto.
    + rewrite Eb. reflexivity.
    + rewrite Nw. intros m i [].
    + rewrite Nw. intros m i [].
    + rewrite P1. intros m i [<-|[]] F. rewrite fwd_amsg in F. discriminate F.
    + rewrite P1. intros m i [<-|[]] F. rewrite bwd_amsg in F by exact L. apply bytes_eqb_spec in F. auto.
    + rewrite Ev. intros i p d y [Q|[]]; discriminate Q.
    + rewrite Ev. intros i [Q|[]]; inversion Q. auto.
    + rewrite Ev. reflexivity.
    + exists (2 * t_amount g + 1), 1%nat, 1%nat. rewrite pending_other, P2, (pending_same ops G) by exact H. rewrite filter_app, Nw, V2, V3. cbn [filter app].
      cbn [facted f_net acted n_br n_log]. rewrite set_same, set_other, V6, Eb. cbn [b_tx]. rewrite tx_del_same. split; [apply phE|].
      rewrite sent_app, sent_same, Nw. cbn [cnt filter length]. split; [lia|]. rewrite finishes_app, acks_app, (finishes_none (other s) s), Nat.add_0_r.
      * split; [rewrite Pf, Ex; reflexivity|]. split; [rewrite Pa, V4, Ev; unfold acknowledgements; cbn; rewrite side_eqb_refl, eqb_refl; reflexivity|].
        intros _. eapply done_mono; [|apply Hd, Hl]. apply incl_appl, incl_refl.
      * rewrite Ev. intros p d y [Q|[]]; discriminate Q.
Qed.

(* ---- sending texts and files ---- *)
Lemma finv_ext ops G f f' : (forall s, f_taken f s = f_taken f' s) -> f_net f = f_net f' -> FInv ops G f -> FInv ops G f'.
Proof.
  intros Ht En H. assert (forall s, pending f' s = pending f s) as Ep by (intros s; unfold pending; rewrite <- Ht, <- En; reflexivity). constructor.
  - rewrite <- En. apply (f_inv _ _ _ H).
  - intros s g Hg. destruct (f_phase _ _ _ H _ _ Hg) as [c [e [a P]]]. exists c, e, a. rewrite !Ep, <- En. exact P.
  - intros s. rewrite <- Ht, <- En. apply (f_le _ _ _ H).
  - intros s. rewrite <- En. apply (f_amount _ _ _ H).
  - apply (f_pos _ _ _ H).
Qed.
Lemma started_start now path msg size type b b' ev s : start_send now path msg size type b = (b', ev) -> started s (map (pair s) ev) = 1%nat.
Proof. unfold start_send, send_chunk. intros E. apply pair_equal_spec in E. destruct E as [_ <-]. unfold started. cbn. rewrite side_eqb_refl. reflexivity. Qed.

Definition has (G : ghosts) (s : side) (type : Z) (path msg : list Z) (size : Z) : Prop :=
  exists g, In g (G s) /\ t_type g = type /\ t_path g = path /\ t_rest g = msg /\ t_size g = size.
Lemma has_mono G G' s type path msg size : extends G G' -> has G s type path msg size -> has G' s type path msg size.
Proof. intros He [g [Hg R]]. exists g. split; [apply He, Hg|exact R]. Qed.
Lemma extends_refl G : extends G G. Proof. intros s. apply incl_refl. Qed.
Lemma extends_trans G G' G'' : extends G G' -> extends G' G'' -> extends G G''. Proof. intros A B s. eapply incl_tran; [apply A|apply B]. Qed.

(* a transmission with these contents is started *)
Definition starts (G G' : ghosts) (s : side) (type : Z) (path msg : list Z) (size : Z) (ev : list bev) : Prop :=
  exists g, G' = grow s [g] G /\ t_type g = type /\ t_path g = path /\ t_rest g = msg /\ t_size g = size /\
    ev = [Sysex (smsg g); SendProgress (t_path g) 0 (t_amount g) (t_type g =? 0); Sysex (dmsg g 0)].
Lemma starts_has G G' s type path msg size ev : starts G G' s type path msg size ev -> extends G G' /\ has G' s type path msg size.
Proof. intros [g [-> [A [B [C [D _]]]]]]. split; [apply grow_extends|]. exists g. split; [rewrite grow_same; apply in_or_app; right; left; reflexivity|]. auto. Qed.
Lemma start_events now path msg size type b b' ev : 1 <= size -> start_send now path msg size type b = (b', ev) ->
  let g := mkTx (number2bytes (b_next b) 3) type path (amount_of size msg) size msg 0 None in ev = [Sysex (smsg g); SendProgress (t_path g) 0 (t_amount g) (t_type g =? 0); Sysex (dmsg g 0)].
Proof.
  intros Hs E g. unfold start_send in E. destruct (chunk_first g now eq_refl Hs (fun x => x)) as [t1 [E1 _]].
  change (send_chunk now (mkTx (number2bytes (b_next b) 3) type path ((Z.of_nat (length msg) + size - 1) / size) size msg 0 None)) with (send_chunk now g) in E. rewrite E1 in E. inversion E. reflexivity.
Qed.

Lemma fi_start' ops G f s now path msg size type b ev k : FInv ops G f -> awake now (n_br (f_net f) s) ->
  good files (map nop_of ops) s (mkTx [] type path (amount_of size msg) size msg 0 None) -> 1 <= size -> msg <> [] ->
  start_send now path msg size type (n_br (f_net f) s) = (b, ev) -> Z.of_nat (started s (n_log (f_net (facted f s b ev k)))) <= 16777216 ->
  (k <= length (pending f (other s)))%nat -> (forall m, In m (firstn k (pending f (other s))) -> req m = true) ->
  exists G', FInv ops G' (facted f s b ev k) /\ starts G G' s type path msg size ev.
Proof.
  intros H Ha Hg Hs Hm E Hst Hk Hr. eexists. split; [eapply fi_start; eauto|].
  - cbn [facted f_net acted n_log] in Hst. rewrite started_app, (started_start _ _ _ _ _ _ _ _ _ E) in Hst. lia.
  - eexists. split; [reflexivity|]. repeat (split; [reflexivity|]). apply (start_events _ _ _ _ _ _ _ _ Hs E).
Qed.
Lemma fi_none ops G f s k : FInv ops G f -> (k <= length (pending f (other s)))%nat -> (forall m, In m (firstn k (pending f (other s))) -> req m = true) ->
  FInv ops G (facted f s (n_br (f_net f) s) [] k).
Proof. intros H Hk Hr. eapply fi_idle; eauto. intros e []. Qed.

Lemma fi_string ops G f s now path msg size type b ev e k : FInv ops G f -> awake now (n_br (f_net f) s) ->
  (1 <= size -> msg <> [] -> good files (map nop_of ops) s (mkTx [] type path (amount_of size msg) size msg 0 None)) ->
  send_string now path msg size type (n_br (f_net f) s) = (b, ev, e) -> Z.of_nat (started s (n_log (f_net (facted f s b ev k)))) <= 16777216 ->
  (k <= length (pending f (other s)))%nat -> (forall m, In m (firstn k (pending f (other s))) -> req m = true) ->
  exists G', FInv ops G' (facted f s b ev k) /\ (G' = G /\ ev = [] /\ (msg = [] \/ size < 1) \/ starts G G' s type path msg size ev).
Proof.
  intros H Ha Hg E Hst Hk Hr. unfold send_string in E. destruct msg as [|u msg].
  - injection E as <- <- <-. exists G. split; [apply fi_none; assumption|]. left. auto.
  - destruct (Z.ltb_spec size 1).
    + injection E as <- <- <-. exists G. split; [apply fi_none; assumption|]. left. auto.
    + apply pair_equal_spec in E. destruct E as [E _]. assert (u :: msg <> []) as Hne by discriminate. specialize (Hg ltac:(lia) Hne).
      destruct (fi_start' _ _ _ _ _ _ _ _ _ _ _ _ H Ha Hg ltac:(lia) Hne E Hst Hk Hr) as [G' [A B]]. exists G'. auto.
Qed.
Lemma fi_file ops G f s now path size b ev e k : FInv ops G f -> awake now (n_br (f_net f) s) ->
  send_file (files s now) now path size (n_br (f_net f) s) = (b, ev, e) -> Z.of_nat (started s (n_log (f_net (facted f s b ev k)))) <= 16777216 ->
  (k <= length (pending f (other s)))%nat -> (forall m, In m (firstn k (pending f (other s))) -> req m = true) ->
  (exists x, e = Some x /\ b = n_br (f_net f) s /\ ev = [] /\ (path <> [] -> 1 <= size -> x = NoFile /\ files s now path = None)) \/
  e = None /\ exists G' msg, FInv ops G' (facted f s b ev k) /\ files s now path = Some msg /\ starts G G' s 0 path msg size ev.
Proof.
  intros H Ha E Hst Hk Hr. unfold send_file in E. destruct path as [|u path].
  - injection E as <- <- <-. left. eexists. repeat split; auto; contradiction.
  - destruct (Z.ltb_spec size 1).
    + injection E as <- <- <-. left. eexists. repeat split; auto; lia.
    + destruct (files s now (u :: path)) as [msg|] eqn:F.
      * apply pair_equal_spec in E. destruct E as [E <-]. right. split; [reflexivity|]. assert (msg <> []) as Hne by (intros ->; apply (files_full _ _ _ F)).
        assert (good files (map nop_of ops) s (mkTx [] 0 (u :: path) (amount_of size msg) size msg 0 None)) as Hg.
        { unfold good. cbn. split; [left; split; [reflexivity|right; exists now; exact F]|]. split; [lia|]. split; [reflexivity|]. apply (files_ok _ _ _ _ F). }
        destruct (fi_start' _ _ _ _ _ _ _ _ _ _ _ _ H Ha Hg ltac:(lia) Hne E Hst Hk Hr) as [G' [A B]]. exists G', msg. auto.
      * injection E as <- <- <-. left. eexists. repeat split; auto.
Qed.

(* ---- one step ---- *)
Definition served (ops : list fop) (G : ghosts) (s : side) (path : list Z) (size : Z) : Prop :=
  exists now, In (FNext s now) ops /\ match files s now path with
    | Some msg => has G s 0 path msg size
    | None => throws s now = true \/ has G s 1 [] (err_text NoFile) 100 end.
Lemma served_mono ops ops' G G' s path size : incl ops ops' -> extends G G' -> served ops G s path size -> served ops' G' s path size.
Proof.
  intros Ho He [now [Hn R]]. exists now. split; [apply Ho, Hn|]. destruct (files s now path); [eapply has_mono; eauto|]. destruct R as [R|R]; [left; exact R|right; eapply has_mono; eauto].
Qed.
Lemma rmsg_same z p z' p' : rmsg z p = rmsg z' p' -> normal p = normal p' /\ z mod 16777216 = z' mod 16777216.
Proof.
  unfold rmsg. intros E. apply (f_equal (skipn 4)) in E. destruct (framed_parts 1 (number2bytes z 3 ++ string2bytes p)) as [_ [_ F1]]. destruct (framed_parts 1 (number2bytes z' 3 ++ string2bytes p')) as [_ [_ F2]].
  rewrite F1, F2 in E. pose proof (f_equal (firstn 4) E) as E1. apply (f_equal (skipn 4)) in E. rewrite !(firstn_id _ _ 4) in E1 by apply number3_length. rewrite !(skipn_id _ _ 4) in E by apply number3_length.
  split; [unfold normal; rewrite E; reflexivity|]. rewrite <- !number_mod, E1. reflexivity.
Qed.
Lemma good_error ops s x : good files ops s (mkTx [] 1 [] (amount_of 100 (err_text x)) 100 (err_text x) 0 None).
Proof. unfold good. cbn [t_id t_type t_path t_amount t_size t_rest]. split; [right; repeat split; auto; destruct x; discriminate|]. split; [lia|]. split; [reflexivity|]. destruct x; vm_compute; reflexivity. Qed.

(* what happens when the message m arrives at s *)
Inductive took (G G' : ghosts) (s : side) (now : Z) (m : list Z) (ev : list bev) : Prop :=
  | tk_start g p a : In g (G (other s)) -> m = smsg g -> G' = G -> ev = [RecvStart (t_id g) p a] -> took G G' s now m ev
  | tk_data g k : In g (G (other s)) -> index_ok g k -> m = dmsg g k -> G' = G ->
      ev = [Sysex (amsg (t_id g) k); RecvProgress (t_id g) (normal (t_path g)) k (t_amount g)] ++ (if k =? t_amount g - 1 then [closing g] else []) -> took G G' s now m ev
  | tk_ack g k : In g (G s) -> index_ok g k -> m = amsg (t_id g) k -> G' = G ->
      ev = (if k =? t_amount g - 1 then [AckAll (t_id g)] else [SendProgress (t_path g) (k + 1) (t_amount g) (t_type g =? 0); Sysex (dmsg g (k + 1))]) -> took G G' s now m ev
  | tk_file z p msg : m = rmsg z p -> files s now (normal p) = Some msg -> starts G G' s 0 (normal p) msg (z mod 16777216) ev -> took G G' s now m ev
  | tk_error z p x : m = rmsg z p -> (normal p <> [] -> 1 <= z mod 16777216 -> x = NoFile /\ files s now (normal p) = None) ->
      (throws s now = true /\ G' = G /\ ev = [] \/ throws s now = false /\ starts G G' s 1 [] (err_text x) 100 ev) -> took G G' s now m ev.

Lemma fi_next ops G f s now m rest r : FInv ops G f -> (forall t, Z.of_nat (started t (n_log (f_net f))) <= 16777216) -> awake now (n_br (f_net f) s) ->
  pending f (other s) = m :: rest -> receive (files s now) (throws s now) now MANUFACTURER m (n_br (f_net f) s) = r ->
  Z.of_nat (started s (n_log (act (f_net f) s r))) <= 16777216 -> In (FNext s now) ops ->
  exists G' b ev e, r = (b, ev, e) /\ FInv ops G' (facted f s b ev 1) /\ extends G G' /\ took G G' s now m ev /\
    (forall z p, m = rmsg z p -> normal p <> [] -> 1 <= z mod 16777216 -> served ops G' s (normal p) (z mod 16777216)).
Proof.
  intros H Hst Haw Hp <- Hst' Hop. unfold receive in *. change (bytes_eqb MANUFACTURER MANUFACTURER) with true in *. cbn [negb] in *.
  assert (In (other s, Sysex m) (n_log (f_net f))) as Hm. { apply wire_in. apply (skipn_incl (f_taken f s)). unfold pending in Hp. rewrite other_other in Hp. rewrite Hp. left. reflexivity. }
  destruct (pending_head _ _ _ _ Hp) as [P1 [P2 P3]].
  destruct (dispatch (files s now) now m (n_br (f_net f) s)) as [[b ev] e] eqn:E.
  apply (i_ev _ _ _ _ _ (f_inv _ _ _ H)) in Hm. cbn [justified] in Hm.
  destruct Hm as [[g [Hg ->]]|[[g [k [Hg [Hk ->]]]]|[[g [k [Hg [Hk [Hk2 [-> Hd]]]]]]|[size [path ->]]]]].
  - unfold smsg in E. rewrite dispatch_framed in E. cbn [bytes_eqb Z.eqb andb Pos.eqb] in E. pose proof (phase_len _ _ _ _ _ (f_inv _ _ _ H) Hg) as L. rewrite (firstn_id _ _ 4 L), (skipn_id _ _ 4 L) in E.
    destruct (fi_recv_start _ _ _ _ _ _ _ _ _ _ H Hst Haw Hg Hp E) as [-> [HF [q [a Ev]]]]. exists G, b, ev, None. split; [reflexivity|]. split; [exact HF|]. split; [apply extends_refl|]. split; [eapply tk_start; eauto|].
    intros z p Q. apply (f_equal req) in Q. rewrite req_smsg, req_rmsg in Q. discriminate.
  - unfold dmsg in E. rewrite dispatch_framed in E. cbn [bytes_eqb Z.eqb andb Pos.eqb] in E. pose proof (phase_len _ _ _ _ _ (f_inv _ _ _ H) Hg) as L. rewrite (firstn_id _ _ 4 L), (skipn_id _ _ 4 L) in E.
    destruct (fi_recv_data _ _ _ _ _ _ _ _ _ _ _ H Hst Hg Hp Hk E) as [-> [HF Ev]]. exists G, b, ev, None. split; [reflexivity|]. split; [exact HF|]. split; [apply extends_refl|]. split; [eapply tk_data; eauto|].
    intros z p Q. apply (f_equal req) in Q. rewrite req_dmsg, req_rmsg in Q. discriminate.
  - rewrite other_other in Hg. unfold amsg in E. rewrite dispatch_framed in E. cbn [bytes_eqb Z.eqb andb Pos.eqb] in E. pose proof (phase_len _ _ _ _ _ (f_inv _ _ _ H) Hg) as L. rewrite (firstn_id _ _ 4 L), (skipn_id _ _ 4 L) in E.
    destruct (fi_recv_ack _ _ _ _ _ _ _ _ _ _ _ H Hst Hg Hp Hk Hk2 Hd E) as [-> [HF Ev]]. exists G, b, ev, None. split; [reflexivity|]. split; [exact HF|]. split; [apply extends_refl|]. split; [eapply tk_ack; eauto|].
    intros z p Q. apply (f_equal req) in Q. rewrite req_amsg, req_rmsg in Q. discriminate.
  - unfold rmsg in E. rewrite dispatch_framed in E. cbn [bytes_eqb Z.eqb andb Pos.eqb] in E. rewrite (firstn_id _ _ 4), (skipn_id _ _ 4) in E by apply number3_length. rewrite number_mod in E. fold (normal path) in E.
    assert (forall m, In m (firstn 1 (pending f (other s))) -> req m = true) as Hr by (rewrite P1; intros m [<-|[]]; apply req_rmsg).
    assert (forall z p, rmsg size path = rmsg z p -> normal p = normal path /\ z mod 16777216 = size mod 16777216) as Same by (intros z p Q; apply rmsg_same in Q; destruct Q; auto).
    destruct e as [x|].
    + destruct (fi_file ops G f s now _ _ b ev (Some x) 1 H Haw E) as [[y [Ey [-> [-> Hy]]]]|[Q _]]; try assumption; try discriminate.
      { cbn [facted f_net acted n_log]. destruct (throws s now); [exact Hst'|]. destruct (send_string now [] (err_text x) 100 1 b) as [[b2 ev2] e2]. cbn [act n_log] in Hst'. rewrite map_app, app_assoc, started_app in Hst'. lia. }
      injection Ey as <-. destruct (throws s now) eqn:Th.
      * exists G, (n_br (f_net f) s), [], (Some x). split; [reflexivity|]. split; [apply fi_none; assumption|]. split; [apply extends_refl|]. split; [eapply tk_error; [reflexivity|exact Hy|left; auto]|].
        intros z p Q Hp1 Hz. destruct (Same _ _ Q) as [Ep Ez]. rewrite Ep, Ez in *. destruct (Hy Hp1 Hz) as [_ Fn]. exists now. split; [exact Hop|]. rewrite Fn. left. exact Th.
      * destruct (send_string now [] (err_text x) 100 1 (n_br (f_net f) s)) as [[b2 ev2] e2] eqn:E2.
        destruct (fi_string ops G f s now [] (err_text x) 100 1 b2 ev2 e2 1 H Haw (fun _ _ => good_error _ s x) E2 Hst' P3 Hr) as [G' [HF [[_ [_ [Q|Q]]]|Hh]]]; [destruct x; discriminate Q|exfalso; clear -Q; lia|].
        exists G', b2, ev2, e2. split; [reflexivity|]. split; [exact HF|]. split; [apply (starts_has _ _ _ _ _ _ _ _ Hh)|]. split; [eapply tk_error; [reflexivity|exact Hy|right; auto]|].
        intros z p Q Hp1 Hz. destruct (Same _ _ Q) as [Ep Ez]. rewrite Ep, Ez in *. destruct (Hy Hp1 Hz) as [-> Fn]. exists now. split; [exact Hop|]. rewrite Fn. right. apply (starts_has _ _ _ _ _ _ _ _ Hh).
    + destruct (fi_file ops G f s now _ _ b ev None 1 H Haw E) as [[y [Ey _]]|[_ [G' [msg [HF [Fs Hh]]]]]]; try assumption; [discriminate|].
      exists G', b, ev, None. split; [reflexivity|]. split; [exact HF|]. split; [apply (starts_has _ _ _ _ _ _ _ _ Hh)|]. split; [eapply tk_file; eauto|].
      intros z p Q Hp1 Hz. destruct (Same _ _ Q) as [Ep Ez]. rewrite Ep, Ez in *. exists now. split; [exact Hop|]. rewrite Fs. apply (starts_has _ _ _ _ _ _ _ _ Hh).
Qed.

(* ---- whole histories ---- *)
Record Tr (ops : list fop) (G : ghosts) (f : fnet) : Prop := mkTr {
  tr_send s now path msg size : In (FSend s now path msg size) ops -> msg <> [] -> 1 <= size -> has G s 0 path msg size;
  tr_file s now path size : In (FFile s now path size) ops -> path <> [] -> 1 <= size -> forall msg, files s now path = Some msg -> has G s 0 path msg size;
  tr_req s path size : In (FRequest s path size) ops -> path <> [] -> 1 <= size -> In (rmsg size path) (wire s (n_log (f_net f)));
  tr_served s z p : In (rmsg z p) (firstn (f_taken f s) (wire (other s) (n_log (f_net f)))) -> normal p <> [] -> 1 <= z mod 16777216 -> served ops G s (normal p) (z mod 16777216) }.

Lemma finv_ops ops ops' G f : incl ops ops' -> FInv ops G f -> FInv ops' G f.
Proof. intros Hi [A B C D E]. constructor; auto. eapply inv_ops; [|exact A]. intros x Hx. apply in_map_iff in Hx. destruct Hx as [y [<- Hy]]. apply in_map, Hi, Hy. Qed.
Lemma punctual_snoc ops o : forall f, punctual files throws f (ops ++ [o]) -> punctual files throws f ops /\ awake_op (fold_left (fstep files throws) ops f) o.
Proof. induction ops as [|x ops IH]; intros f; cbn; [intros [A _]; auto|]. intros [A B]. destruct (IH _ B). auto. Qed.
Lemma firstn_next {A} k (l : list A) m rest : skipn k l = m :: rest -> firstn (S k) l = firstn k l ++ [m].
Proof. revert l. induction k as [|k IH]; intros [|x l] E; try discriminate; cbn in *; [injection E as <- <-; reflexivity|]. f_equal. apply IH, E. Qed.
Lemma firstn_more {A} k (l l' : list A) : (k <= length l)%nat -> firstn k (l ++ l') = firstn k l.
Proof. intros H. rewrite firstn_app. replace (k - length l)%nat with O by lia. cbn. apply app_nil_r. Qed.

Lemma tr_step ops o G G' f f' : Tr ops G f -> extends G G' -> (forall s, incl (wire s (n_log (f_net f))) (wire s (n_log (f_net f')))) ->
  (forall s now path msg size, o = FSend s now path msg size -> msg <> [] -> 1 <= size -> has G' s 0 path msg size) ->
  (forall s now path size, o = FFile s now path size -> path <> [] -> 1 <= size -> forall msg, files s now path = Some msg -> has G' s 0 path msg size) ->
  (forall s path size, o = FRequest s path size -> path <> [] -> 1 <= size -> In (rmsg size path) (wire s (n_log (f_net f')))) ->
  (forall s z p, In (rmsg z p) (firstn (f_taken f' s) (wire (other s) (n_log (f_net f')))) -> In (rmsg z p) (firstn (f_taken f s) (wire (other s) (n_log (f_net f)))) \/
     (normal p <> [] -> 1 <= z mod 16777216 -> served (ops ++ [o]) G' s (normal p) (z mod 16777216))) ->
  Tr (ops ++ [o]) G' f'.
Proof.
  intros [T1 T2 T3 T4] He Hw H1 H2 H3 H4. constructor.
  - intros s now path msg size Hin. apply in_app_or in Hin. destruct Hin as [Hin|[Hin|[]]]; [intros A B; eapply has_mono; [exact He|eapply T1; eauto]|eapply H1; eauto].
  - intros s now path size Hin. apply in_app_or in Hin. destruct Hin as [Hin|[Hin|[]]]; [intros A B m Hm; eapply has_mono; [exact He|eapply T2; eauto]|eapply H2; eauto].
  - intros s path size Hin. apply in_app_or in Hin. destruct Hin as [Hin|[Hin|[]]]; [intros A B; apply Hw; eapply T3; eauto|eapply H3; eauto].
  - intros s z p Hin A B. apply H4 in Hin. destruct Hin as [Hin|Hin]; [|auto]. eapply served_mono; [|exact He|eapply T4; eauto]. apply incl_appl, incl_refl.
Qed.

Lemma frun_snoc ops o : frun files throws seed (ops ++ [o]) = fstep files throws (frun files throws seed ops) o.
Proof. apply fold_left_app. Qed.
Lemma fstep_log f o : exists l, n_log (f_net (fstep files throws f o)) = n_log (f_net f) ++ l.
Proof.
  assert (forall n s r, exists l, n_log (act n s r) = n_log n ++ l) as A by (intros n s [[b ev] e]; eexists; reflexivity).
  destruct o; cbn [fstep f_net nstep]; try apply A. destruct (_ <? _)%nat; [|exists []; rewrite app_nil_r; reflexivity]. cbn [f_net]. destruct (nth_error _ _); [apply A|exists []; rewrite app_nil_r; reflexivity].
Qed.

Lemma fifo_inv ops : Forall short_fop ops -> punctual files throws (fstart seed) ops -> (forall t, Z.of_nat (started t (n_log (f_net (frun files throws seed ops)))) <= 16777216) ->
  exists G, FInv ops G (frun files throws seed ops) /\ Tr ops G (frun files throws seed ops).
Proof.
  induction ops as [|ops o IH] using rev_ind_snoc; intros Hs Hpu Hst.
  - exists (fun _ => []). split.
    + constructor; try (intros s; cbn; auto; fail); [|intros s g []|intros s g []]. constructor; try (intros s []; fail).
      * intros s. reflexivity.
      * intros s. cbn. specialize (seed_ok s). lia.
      * intros s [|k] g Hk; discriminate Hk.
      * intros s t [].
      * intros s t [].
      * intros s t [].
      * intros s t [].
      * intros s t [].
    + constructor; try (intros s; intros; contradiction).
  - apply punctual_snoc in Hpu. destruct Hpu as [Hpu Haw]. apply Forall_app in Hs. destruct Hs as [Hs Hso]. inversion Hso as [|? ? So _]. subst. clear Hso.
    fold (frun files throws seed ops) in Haw. rewrite frun_snoc in *. set (f := frun files throws seed ops) in *.
    assert (forall t, Z.of_nat (started t (n_log (f_net f))) <= 16777216) as Hst0.
    { intros t. specialize (Hst t). destruct (fstep_log f o) as [l El]. rewrite El, started_app in Hst. lia. }
    destruct (IH Hs Hpu Hst0) as [G [H T]]. assert (FInv (ops ++ [o]) G f) as H1 by (eapply finv_ops; [|exact H]; apply incl_appl, incl_refl).
    assert (forall s, incl (wire s (n_log (f_net f))) (wire s (n_log (f_net (fstep files throws f o))))) as Hw.
    { intros s. destruct (fstep_log f o) as [l El]. rewrite El, wire_app. apply incl_appl, incl_refl. }
    assert (forall s z p, (forall s, f_taken (fstep files throws f o) s = f_taken f s) -> In (rmsg z p) (firstn (f_taken (fstep files throws f o) s) (wire (other s) (n_log (f_net (fstep files throws f o))))) ->
      In (rmsg z p) (firstn (f_taken f s) (wire (other s) (n_log (f_net f))))) as Htk.
    { intros s z p Et Hin. rewrite Et in Hin. destruct (fstep_log f o) as [l El]. rewrite El, wire_app, firstn_more in Hin by apply (f_le _ _ _ H). exact Hin. }
    assert (forall s b ev, FInv (ops ++ [o]) G f -> forall G', FInv (ops ++ [o]) G' (facted f s b ev 0) -> FInv (ops ++ [o]) G' (mkF (acted (f_net f) s b ev) (f_taken f))) as Zero.
    { intros s b ev _ G'. apply finv_ext; [|reflexivity]. intros t. cbn [facted f_taken]. destruct (side_cases s t) as [->| ->]; [rewrite set_same; lia|rewrite set_other; reflexivity]. }
    destruct o as [s now path msg size|s now path size|s path size|s now]; cbn [awake_op] in Haw.
    + cbn [fstep nstep] in *. destruct (send_string now path msg size 0 (n_br (f_net f) s)) as [[b ev] e] eqn:E. cbn [act] in *. fold (acted (f_net f) s b ev) in *.
      destruct (fi_string _ G f s now path msg size 0 b ev e 0 H1 Haw) as [G' [HF Hc]]; try assumption; [|apply (Hst s)|apply Nat.le_0_l|intros m []|].
      { intros S1 S2. unfold good. cbn. split; [left; split; [reflexivity|left; exists now; rewrite map_app; apply in_or_app; right; left; reflexivity]|]. split; [lia|]. split; [reflexivity|]. exact So. }
      assert (extends G G' /\ (msg <> [] -> 1 <= size -> has G' s 0 path msg size)) as [He Hh].
      { destruct Hc as [[-> [_ Q]]|Hc]; [split; [apply extends_refl|]; intros Q1 Q2; destruct Q; [contradiction|lia]|]. apply starts_has in Hc. destruct Hc. auto. }
      exists G'. split; [apply (Zero s b ev H1 G' HF)|]. eapply tr_step; eauto; intros; try discriminate.
      * match goal with Q : FSend _ _ _ _ _ = _ |- _ => injection Q as <- <- <- <- <- end. auto.
    + cbn [fstep nstep] in *. destruct (send_file (files s now) now path size (n_br (f_net f) s)) as [[b ev] e] eqn:E. cbn [act] in *. fold (acted (f_net f) s b ev) in *.
      destruct (fi_file _ G f s now path size b ev e 0 H1 Haw E (Hst s) (Nat.le_0_l _)) as [[x [-> [-> [-> Hx]]]]|[-> [G' [msg [HF [Fs Hc]]]]]]; [intros m []| |].
      * exists G. split; [apply (Zero s _ [] H1 G); apply fi_none; [assumption|apply Nat.le_0_l|intros m []]|]. eapply tr_step; eauto; intros; try discriminate; [apply extends_refl|].
        match goal with Q : FFile _ _ _ _ = _ |- _ => injection Q as <- <- <- <- end. destruct Hx as [_ Hx]; auto. congruence.
      * apply starts_has in Hc. destruct Hc as [He Hh]. exists G'. split; [apply (Zero s b ev H1 G' HF)|]. eapply tr_step; eauto; intros; try discriminate.
        match goal with Q : FFile _ _ _ _ = _ |- _ => injection Q as <- <- <- <- end. assert (msg0 = msg) as -> by congruence. exact Hh.
    + cbn [fstep nstep] in *. exists G. assert (forall ev, (forall e, In e ev -> exists z p, e = Sysex (rmsg z p)) -> FInv (ops ++ [FRequest s path size]) G (mkF (acted (f_net f) s (n_br (f_net f) s) ev) (f_taken f))) as Idle.
      { intros ev Hev. apply (Zero s _ ev H1 G). apply fi_idle; [assumption|apply Nat.le_0_l|intros m []|assumption]. }
      destruct (request path size) as [ev e] eqn:E. cbn [act] in *. fold (acted (f_net f) s (n_br (f_net f) s) ev) in *. split.
      * apply Idle. unfold request in E. destruct path as [|u path]; [injection E as <- <-; intros x []|]. destruct (size <? 1); [injection E as <- <-; intros x []|].
        apply pair_equal_spec in E. destruct E as [<- _]. intros x [<-|[]]. exists size, (u :: path). reflexivity.
      * eapply tr_step; eauto; intros; try discriminate; [apply extends_refl|]. match goal with Q : FRequest _ _ _ = _ |- _ => injection Q as <- <- <- end.
        apply wire_in. cbn [f_net acted n_log]. apply in_or_app. right. apply in_map. unfold request in E. destruct path as [|u path]; [contradiction|]. destruct (Z.ltb_spec size 1); [lia|].
        apply pair_equal_spec in E. destruct E as [<- _]. left. reflexivity.
    + cbn [fstep] in *. destruct (Nat.ltb_spec (f_taken f s) (length (wire (other s) (n_log (f_net f))))) as [Hlt|Hge].
      * cbn [nstep f_net f_taken] in *. destruct (nth_error (wire (other s) (n_log (f_net f))) (f_taken f s)) as [m|] eqn:Em; [|apply nth_error_None in Em; lia].
        assert (exists rest, pending f (other s) = m :: rest) as [rest Hp].
        { unfold pending. rewrite other_other. clear -Em. revert Em. generalize (wire (other s) (n_log (f_net f))) as l. generalize (f_taken f s) as k. induction k as [|k IHk]; intros [|x l] Q; try discriminate; cbn in *; [injection Q as <-; eauto|]. apply IHk, Q. }
        destruct (fi_next _ G f s now m rest _ H1 Hst0 Haw Hp eq_refl (Hst s)) as [G' [b [ev [e [Er [HF [He [_ Hsv]]]]]]]]; [apply in_or_app; right; left; reflexivity|].
        exists G'. rewrite Er in *. cbn [act] in *. fold (acted (f_net f) s b ev) in *. split.
        -- eapply finv_ext; [| |exact HF]; [|reflexivity]. intros t. cbn [facted f_taken]. rewrite Nat.add_1_r. reflexivity.
        -- eapply tr_step; eauto; intros; try discriminate. cbn [f_taken f_net] in *. match goal with Q : In (rmsg ?zz ?pp) _ |- _ => rename Q into Hin; rename zz into z; rename pp into p end.
           destruct (side_cases s s0) as [->| ->].
           ++ rewrite set_same in Hin. cbn [acted n_log] in Hin. rewrite wire_app, firstn_more in Hin by lia. unfold pending in Hp. rewrite other_other in Hp. rewrite (firstn_next _ _ _ _ Hp) in Hin.
              apply in_app_or in Hin. destruct Hin as [Hin|[Hin|[]]]; [left; exact Hin|right]. apply Hsv. exact Hin.
           ++ rewrite set_other in Hin. cbn [acted n_log] in Hin. rewrite wire_app, firstn_more in Hin by apply (f_le _ _ _ H). left. exact Hin.
      * exists G. split; [exact H1|]. eapply tr_step; eauto; intros; try discriminate. apply extends_refl.
Qed.
End Fifo.

(* ---- C84 ---- *)
Section Outcome.
Variable files : side -> Z -> list Z -> option (list Z).
Variable throws : side -> Z -> bool.
Variable seed : side -> Z.
Variable ops : list fop.
Hypothesis seed_ok : forall s, 0 <= seed s < 16777216.
Hypothesis files_ok : short_files files.
Hypothesis files_full : forall s now path, files s now path <> Some [].
Hypothesis short_ok : Forall short_fop ops.
Hypothesis punctual_ok : punctual files throws (fstart seed) ops.
Hypothesis ids_ok : forall t, Z.of_nat (started t (n_log (f_net (frun files throws seed ops)))) <= 16777216.
Let f := frun files throws seed ops.
Let log := n_log (f_net f).

Fixpoint total {A} (h : A -> Z) (l : list A) : Z := match l with [] => 0 | x :: r => h x + total h r end.
Lemma total_app {A} (h : A -> Z) a b : total h (a ++ b) = total h a + total h b. Proof. induction a as [|x a IH]; cbn; lia. Qed.
Lemma total_le {A} (h k : A -> Z) l : (forall x, In x l -> h x <= k x) -> total h l <= total k l.
Proof. induction l as [|x l IH]; intros H; cbn; [lia|]. pose proof (H x (or_introl eq_refl)). specialize (IH (fun y Hy => H y (or_intror Hy))). lia. Qed.
Lemma total_map {A B} (h : B -> Z) (m : A -> B) l : total h (map m l) = total (fun x => h (m x)) l. Proof. induction l as [|x l IH]; cbn; lia. Qed.
Lemma total_add {A} (h k : A -> Z) l : total (fun x => h x + k x) l = total h l + total k l. Proof. induction l as [|x l IH]; cbn; lia. Qed.
Lemma total_nonneg {A} (h : A -> Z) l : (forall x, 0 <= h x) -> 0 <= total h l. Proof. intros H. induction l as [|x l IH]; cbn; [lia|]. specialize (H x). lia. Qed.
Lemma total_in {A} (h : A -> Z) l x : (forall x, 0 <= h x) -> In x l -> h x <= total h l.
Proof. intros H. induction l as [|y l IH]; intros []; cbn; [subst; pose proof (total_nonneg h l H); lia|]. specialize (H y). specialize (IH H0). lia. Qed.

Lemma budget_eq : budget log = (total (fun a => 2 * a + 1) (amounts Here log) + total (fun a => 2 * a + 1) (amounts There log)) + Z.of_nat (cnt req (wire Here log) + cnt req (wire There log)).
Proof.
  generalize log as l. unfold budget, amounts, wire, cnt. induction l as [|[s e] l IH]; [reflexivity|]. cbn [map fold_right flat_map]. rewrite IH. rewrite !total_app, !filter_app, !app_length.
  destruct e as [d|p k a fl| | | | |]; unfold cost; cbn [snd]; try (cbn; lia).
  - unfold req. destruct s; cbn [side_eqb filter length app]; destruct (bytes_eqb (firstn 1 d) [1]); cbn [length total]; lia.
  - destruct s; cbn [side_eqb andb filter length app]; destruct (k =? 0); cbn [total length]; lia.
Qed.

Definition one (p : list Z -> bool) (m : list Z) : Z := if p m then 1 else 0.
Lemma cnt_total p l : Z.of_nat (cnt p l) = total (one p) l.
Proof. unfold cnt, one. induction l as [|m l IH]; [reflexivity|]. cbn [filter total]. destruct (p m); cbn [length]; lia. Qed.

Lemma wire_bound G s : FInv files seed ops G f ->
  Z.of_nat (length (wire s log)) <= Z.of_nat (cnt req (wire s log)) + total (fun g => Z.of_nat (cnt (fwd (t_id g)) (wire s log))) (G s) + total (fun g => Z.of_nat (cnt (bwd (t_id g)) (wire s log))) (G (other s)).
Proof.
  intros H. assert (forall m, In m (wire s log) -> 1 <= one req m + total (fun g => one (fwd (t_id g)) m) (G s) + total (fun g => one (bwd (t_id g)) m) (G (other s))) as Each.
  { intros m Hm. assert (forall p, 0 <= one p m) as N by (intros p; unfold one; destruct (p m); lia).
    pose proof (N req). pose proof (total_nonneg (fun g => one (fwd (t_id g)) m) (G s) (fun g => N _)). pose proof (total_nonneg (fun g => one (bwd (t_id g)) m) (G (other s)) (fun g => N _)).
    apply wire_in in Hm. apply (i_ev _ _ _ _ _ (f_inv _ _ _ _ _ H)) in Hm. cbn [justified] in Hm.
    destruct Hm as [[g [Hg ->]]|[[g [k [Hg [_ ->]]]]|[[g [k [Hg [_ [_ [-> _]]]]]]|[z [p ->]]]]].
    - pose proof (total_in (fun g0 => one (fwd (t_id g0)) (smsg g)) (G s) g (fun g => N _) Hg) as Q. cbn beta in Q. unfold one at 1 in Q. rewrite fwd_smsg, eqb_refl in Q by (eapply phase_len; [exact (f_inv _ _ _ _ _ H)|exact Hg]). lia.
    - pose proof (total_in (fun g0 => one (fwd (t_id g0)) (dmsg g k)) (G s) g (fun g => N _) Hg) as Q. cbn beta in Q. unfold one at 1 in Q. rewrite fwd_dmsg, eqb_refl in Q by (eapply phase_len; [exact (f_inv _ _ _ _ _ H)|exact Hg]). lia.
    - pose proof (total_in (fun g0 => one (bwd (t_id g0)) (amsg (t_id g) k)) (G (other s)) g (fun g => N _) Hg) as Q. cbn beta in Q. unfold one at 1 in Q. rewrite bwd_amsg, eqb_refl in Q by (eapply phase_len; [exact (f_inv _ _ _ _ _ H)|exact Hg]). lia.
    - unfold one at 1. rewrite req_rmsg. lia. }
  revert Each. generalize (wire s log) as l. induction l as [|m l IH]; intros Each; [cbn; pose proof (total_nonneg (fun _ : tx => 0) (G s) (fun _ => Z.le_refl 0)); pose proof (total_nonneg (fun _ : tx => 0) (G (other s)) (fun _ => Z.le_refl 0)); lia|].
  specialize (IH (fun x Hx => Each x (or_intror Hx))). specialize (Each m (or_introl eq_refl)).
  assert (forall (h : tx -> list Z -> bool) gs, total (fun g => Z.of_nat (cnt (h g) (m :: l))) gs = total (fun g => one (h g) m) gs + total (fun g => Z.of_nat (cnt (h g) l)) gs) as Sp.
  { intros h gs. rewrite <- total_add. clear. induction gs as [|g gs IHg]; [reflexivity|]. cbn [total]. rewrite IHg, !cnt_total. cbn [total]. reflexivity. }
  rewrite (Sp (fun g => fwd (t_id g))), (Sp (fun g => bwd (t_id g))). rewrite !cnt_total in *. cbn [total length]. lia.
Qed.

Lemma phase_bound g t fw r bw c e a : 1 <= t_amount g -> ph g t fw r bw c e a -> c <= 2 * t_amount g + 1.
Proof. intros P H. destruct H; lia. Qed.

Theorem fifo_bounded : Z.of_nat (length (wire Here log) + length (wire There log)) <= budget log.
Proof.
  destruct (fifo_inv files throws seed seed_ok files_ok files_full ops short_ok punctual_ok ids_ok) as [G [H _]]. fold f in H.
  rewrite budget_eq. pose proof (wire_bound G Here H) as A. pose proof (wire_bound G There H) as B. cbn [other] in A, B.
  assert (forall s, total (fun g => Z.of_nat (cnt (fwd (t_id g)) (wire s log))) (G s) + total (fun g => Z.of_nat (cnt (bwd (t_id g)) (wire (other s) log))) (G s) <= total (fun a => 2 * a + 1) (amounts s log)) as C.
  { intros s. unfold log. rewrite (f_amount _ _ _ _ _ H s), total_map, <- total_add. apply total_le. intros g Hg. destruct (f_phase _ _ _ _ _ H _ _ Hg) as [c [e [a [P [Pc _]]]]].
    apply phase_bound in P; [|apply (f_pos _ _ _ _ _ H _ _ Hg)]. unfold sent in Pc. lia. }
  pose proof (C Here) as C1. pose proof (C There) as C2. cbn [other] in C1, C2. lia.
Qed.

Hypothesis all_here : arrived f.
Lemma nothing_pending s : pending f s = [].
Proof. unfold pending. apply skipn_all2. rewrite (all_here (other s)), other_other. apply Nat.le_refl. Qed.
Lemma all_done G s g : FInv files seed ops G f -> In g (G s) -> tx_get (t_id g) (b_tx (n_br (f_net f) s)) = None /\ rx_get (t_id g) (b_rx (n_br (f_net f) (other s))) = None /\
  finishes (other s) (t_id g) log = (if t_type g =? 0 then 1%nat else O) /\ acknowledgements s (t_id g) log = 1%nat /\ done (other s) g log.
Proof.
  intros H Hg. destruct (f_phase _ _ _ _ _ H _ _ Hg) as [c [e [a [P [_ [Pf [Pa Pd]]]]]]]. rewrite !nothing_pending in P. cbn [filter] in P. fold log in Pf, Pa, Pd. inversion P. subst. repeat split; auto; apply Pd; reflexivity.
Qed.
Lemma find_nothing {A} (p : A -> bool) l : find p l = None -> forall x, In x l -> p x = false. Proof. intros H. apply find_none, H. Qed.

Theorem fifo_idle s : b_tx (n_br (f_net f) s) = [] /\ b_rx (n_br (f_net f) s) = [].
Proof.
  destruct (fifo_inv files throws seed seed_ok files_ok files_full ops short_ok punctual_ok ids_ok) as [G [H _]]. fold f in H. pose proof (f_inv _ _ _ _ _ H) as I. split.
  - destruct (b_tx (n_br (f_net f) s)) as [|t l] eqn:E; [reflexivity|exfalso]. destruct (i_tx _ _ _ _ _ I s t) as [g [Hg [S _]]]; [rewrite E; left; reflexivity|].
    destruct (all_done G s g H Hg) as [Q _]. unfold tx_get in Q. rewrite E in Q. assert (bytes_eqb (t_id t) (t_id g) = false) as Q1 by (apply (find_nothing _ _ Q t); left; reflexivity). rewrite S, eqb_refl in Q1. discriminate.
  - destruct (b_rx (n_br (f_net f) s)) as [|t l] eqn:E; [reflexivity|exfalso]. destruct (i_rx _ _ _ _ _ I s t) as [g [Hg [S _]]]; [rewrite E; left; reflexivity|].
    destruct (all_done G (other s) g H Hg) as [_ [Q _]]. rewrite other_other in Q. unfold rx_get in Q. rewrite E in Q. assert (bytes_eqb (r_id t) (t_id g) = false) as Q1 by (apply (find_nothing _ _ Q t); left; reflexivity). rewrite S, eqb_refl in Q1. discriminate.
Qed.

Theorem fifo_once s m : In (s, Sysex m) log -> firstn 1 m = [2] ->
  acknowledgements s (firstn 4 (skipn 4 m)) log = 1%nat /\ finishes (other s) (firstn 4 (skipn 4 m)) log = (if bytes_eqb (firstn 1 (skipn 8 m)) [0] then 1%nat else O).
Proof.
  destruct (fifo_inv files throws seed seed_ok files_ok files_full ops short_ok punctual_ok ids_ok) as [G [H _]]. fold f in H. pose proof (f_inv _ _ _ _ _ H) as I. intros Hm F.
  apply (i_ev _ _ _ _ _ I) in Hm. cbn [justified] in Hm. destruct Hm as [[g [Hg ->]]|[[g [k [Hg [_ ->]]]]|[[g [k [Hg [_ [_ [-> _]]]]]]|[z [p ->]]]]].
  - pose proof (phase_len _ _ _ _ _ _ _ I Hg) as L. destruct (all_done G s g H Hg) as [_ [_ [Q1 [Q2 _]]]]. unfold smsg.
    assert (skipn 8 (framed 2 (t_id g ++ [t_type g] ++ number2bytes (t_amount g) 3 ++ string2bytes (t_path g))) = [t_type g] ++ number2bytes (t_amount g) 3 ++ string2bytes (t_path g)) as ->.
    { change 8%nat with (4 + 4)%nat. rewrite <- skipn_skipn. destruct (framed_parts 2 (t_id g ++ [t_type g] ++ number2bytes (t_amount g) 3 ++ string2bytes (t_path g))) as [_ [_ ->]]. apply skipn_id, L. }
    fold (ident (framed 2 (t_id g ++ [t_type g] ++ number2bytes (t_amount g) 3 ++ string2bytes (t_path g)))). rewrite ident_framed by exact L. split; [exact Q2|]. rewrite Q1.
    change (firstn 1 ([t_type g] ++ number2bytes (t_amount g) 3 ++ string2bytes (t_path g))) with [t_type g]. cbn [bytes_eqb]. rewrite andb_true_r. reflexivity.
  - unfold dmsg in F. rewrite first_framed in F. discriminate.
  - unfold amsg in F. rewrite first_framed in F. discriminate.
  - unfold rmsg in F. rewrite first_framed in F. discriminate.
Qed.

Lemma has_done G s path msg size : FInv files seed ops G f -> has G s 0 path msg size ->
  exists i path' data, In (other s, RecvFinish i path' data ((Z.of_nat (length msg) + size - 1) / size)) log /\ (clean path -> path' = path) /\ ((forall k, clean (piece size msg k)) -> data = msg) /\
    acknowledgements s i log = 1%nat /\ finishes (other s) i log = 1%nat.
Proof.
  intros H [g [Hg [T [P [M S]]]]]. destruct (all_done G s g H Hg) as [_ [_ [Q1 [Q2 Q3]]]]. destruct (i_good _ _ _ _ _ (f_inv _ _ _ _ _ H) _ _ Hg) as [_ [Gs [Ga _]]].
  rewrite T in Q1. exists (t_id g), (normal (t_path g)), (content g (t_amount g)). split; [|split; [|split; [|split]]].
  - pose proof (proj1 Q3 T) as D. rewrite Ga in D at 2. unfold amount_of in D. rewrite M, S in D. exact D.
  - rewrite P. apply normal_clean.
  - intros Hc. rewrite <- M. apply content_clean; [exact Gs|exact Ga|]. rewrite M, S. exact Hc.
  - exact Q2.
  - exact Q1.
Qed.

Theorem fifo_sent s now path msg size : In (FSend s now path msg size) ops -> msg <> [] -> 1 <= size ->
  exists i path' data, In (other s, RecvFinish i path' data ((Z.of_nat (length msg) + size - 1) / size)) log /\ (clean path -> path' = path) /\ ((forall k, clean (piece size msg k)) -> data = msg) /\
    acknowledgements s i log = 1%nat /\ finishes (other s) i log = 1%nat.
Proof.
  destruct (fifo_inv files throws seed seed_ok files_ok files_full ops short_ok punctual_ok ids_ok) as [G [H T]]. fold f in H. intros Hin Hm Hs. apply (has_done G); [exact H|]. eapply tr_send; eauto.
Qed.
Theorem fifo_file s now path msg size : In (FFile s now path size) ops -> path <> [] -> 1 <= size -> files s now path = Some msg ->
  exists i path' data, In (other s, RecvFinish i path' data ((Z.of_nat (length msg) + size - 1) / size)) log /\ (clean path -> path' = path) /\ ((forall k, clean (piece size msg k)) -> data = msg) /\
    acknowledgements s i log = 1%nat /\ finishes (other s) i log = 1%nat.
Proof.
  destruct (fifo_inv files throws seed seed_ok files_ok files_full ops short_ok punctual_ok ids_ok) as [G [H T]]. fold f in H. intros Hin Hm Hs Hf. apply (has_done G); [exact H|]. eapply tr_file; eauto.
Qed.
Lemma ascii_plain t : forallb (fun u => (0 <=? u) && (u <? 55296)) t = true -> plain t.
Proof. rewrite forallb_forall. intros H. apply Forall_forall. intros u Hu. specialize (H u Hu). lia. Qed.
Lemma error_plain : plain (err_text NoFile). Proof. apply ascii_plain. vm_compute. reflexivity. Qed.
Theorem fifo_request s path size : In (FRequest s path size) ops -> clean path -> path <> [] -> 1 <= size < 16777216 ->
  exists now, In (FNext (other s) now) ops /\ match files (other s) now path with
    | Some msg => exists i data, In (s, RecvFinish i path data ((Z.of_nat (length msg) + size - 1) / size)) log /\ ((forall k, clean (piece size msg k)) -> data = msg) /\
        acknowledgements (other s) i log = 1%nat /\ finishes s i log = 1%nat
    | None => throws (other s) now = true \/ In (s, RecvError (err_text NoFile)) log
    end.
Proof.
  destruct (fifo_inv files throws seed seed_ok files_ok files_full ops short_ok punctual_ok ids_ok) as [G [H T]]. fold f in H, T. intros Hin Hc Hp Hs.
  pose proof (tr_req _ _ _ _ _ T _ _ _ Hin Hp (proj1 Hs)) as Hw.
  assert (In (rmsg size path) (firstn (f_taken f (other s)) (wire (other (other s)) (n_log (f_net f))))) as Hw1. { rewrite (all_here (other s)), firstn_all, other_other. exact Hw. }
  apply (tr_served _ _ _ _ _ T) in Hw1; rewrite ?(normal_clean path Hc), ?(Z.mod_small size 16777216) in * by lia; [|exact Hp|lia]. destruct Hw1 as [now [Hn R]]. exists now. split; [exact Hn|].
  destruct (files (other s) now path) as [msg|].
  - destruct (has_done G _ _ _ _ H R) as [i [path' [data [A [B [C D]]]]]]. rewrite other_other in *. rewrite (B Hc) in A. exists i, data. auto.
  - destruct R as [R|[g [Hg [Ty [P [M S]]]]]]; [left; exact R|right]. destruct (all_done G _ g H Hg) as [_ [_ [_ [_ D]]]]. rewrite other_other in D. apply (proj2 D) in Ty.
    destruct (i_good _ _ _ _ _ (f_inv _ _ _ _ _ H) _ _ Hg) as [_ [Gs [Ga _]]]. rewrite <- M. rewrite (content_clean g Gs Ga) in Ty; [exact Ty|]. intros k. rewrite M. apply plain_clean, plain_piece, error_plain.
Qed.
End Outcome.
