(* Two bridges with an unreliable connection: what is reported as received has been offered, what is acknowledged has been received. *)
From Verif.Lib Require Import Base.
From Verif.Model Require Import Midi Bridge.
From Verif.Spec Require Import Bridge.
From Verif.Proofs Require Import Protocol BridgeCodec.
Local Open Scope list_scope.

Definition normal (s : list Z) : list Z := bytes2string (string2bytes s).
Lemma normal_clean s : clean s -> normal s = s.
Proof. intros [H [H1 H2]]. apply text_same; assumption. Qed.
Lemma plain_clean s : plain s -> clean s.
Proof.
  intros H. repeat split.
  - eapply Forall_impl; [|exact H]. cbn. tauto.
  - induction H as [|u s [Hu [Hn Hm]] H IH]; constructor; [lia|exact IH].
  - unfold no_mark. destruct H as [|u s [Hu [Hn Hm]] H]; cbn; congruence.
Qed.
Lemma skipn_incl {A} n (l : list A) : incl (skipn n l) l.
Proof. intros x H. rewrite <- (firstn_skipn n l). apply in_or_app. auto. Qed.
Lemma firstn_incl {A} n (l : list A) : incl (firstn n l) l.
Proof. intros x H. rewrite <- (firstn_skipn n l). apply in_or_app. auto. Qed.
Lemma skipn_skipn {A} b : forall a (l : list A), skipn a (skipn b l) = skipn (b + a) l.
Proof. induction b as [|b IH]; intros a l; [reflexivity|]. destruct l; [rewrite !skipn_nil; reflexivity|]. apply IH. Qed.
Lemma plain_piece size s k : plain s -> plain (piece size s k).
Proof.
  intros H. unfold piece, plain in *. rewrite Forall_forall in *. intros u Hu. apply H. apply firstn_incl, skipn_incl in Hu. exact Hu.
Qed.

(* ---- messages ---- *)
Definition smsg (g : tx) : list Z := framed 2 (t_id g ++ [t_type g] ++ number2bytes (t_amount g) 3 ++ string2bytes (t_path g)).
Definition part (g : tx) (k : Z) : list Z := piece (t_size g) (t_rest g) (Z.to_nat k).
Definition dmsg (g : tx) (k : Z) : list Z := framed 3 (t_id g ++ number2bytes k 3 ++ string2bytes (part g k)).
Definition amsg (i : list Z) (k : Z) : list Z := framed 4 (i ++ number2bytes k 3).
Definition rmsg (size : Z) (path : list Z) : list Z := framed 1 (number2bytes size 3 ++ string2bytes path).
Definition content (g : tx) (k : Z) : list Z := flat_map (fun j => normal (piece (t_size g) (t_rest g) j)) (seq 0 (Z.to_nat k)).

Lemma framed_parts c p : firstn 1 (framed c p) = [c] /\ firstn 3 (skipn 1 (framed c p)) = checksum p /\ skipn 4 (framed c p) = p.
Proof.
  unfold framed. pose proof (checksum_length p) as L. destruct (checksum p) as [|u [|v [|w [|? ?]]]]; try discriminate L. cbn. auto.
Qed.

Lemma number_mod x : bytes2number (number2bytes x 3) = x mod 16777216.
Proof.
  assert (number2bytes x 3 = number2bytes (x mod 16777216) 3) as ->.
  { unfold number2bytes. f_equal. cbn [be_bytes]. change (8 * Z.of_nat 2) with 16. change (8 * Z.of_nat 1) with 8. change (8 * Z.of_nat 0) with 0.
    change (2 ^ 16) with 65536. change (2 ^ 8) with 256. change (2 ^ 0) with 1. assert (forall a b c a' b' c' : Z, a = a' -> b = b' -> c = c' -> [a; b; c] = [a'; b'; c']) as L by congruence. apply L; lia. }
  apply number_back; [lia|]. change (2 ^ (8 * Z.of_nat 3)) with 16777216. lia.
Qed.
Lemma number_small x : 0 <= x < 16777216 -> bytes2number (number2bytes x 3) = x.
Proof. intros H. rewrite number_mod. lia. Qed.
Lemma firstn_id {A} (a b : list A) n : length a = n -> firstn n (a ++ b) = a.
Proof. intros <-. rewrite firstn_app, firstn_all, Nat.sub_diag, app_nil_r. reflexivity. Qed.
Lemma skipn_id {A} (a b : list A) n : length a = n -> skipn n (a ++ b) = b.
Proof. intros <-. rewrite skipn_app, skipn_all, Nat.sub_diag. reflexivity. Qed.

(* ---- sides ---- *)
Lemma side_eqb_refl s : side_eqb s s = true. Proof. destruct s; reflexivity. Qed.
Lemma side_eqb_spec s t : side_eqb s t = true <-> s = t. Proof. destruct s, t; cbn; split; congruence. Qed.
Lemma other_other s : other (other s) = s. Proof. destruct s; reflexivity. Qed.
Lemma other_neq s : other s <> s. Proof. destruct s; discriminate. Qed.
Lemma set_same {A} s (v : A) f : set s v f s = v. Proof. destruct s; reflexivity. Qed.
Lemma set_other {A} s (v : A) f : set s v f (other s) = f (other s). Proof. destruct s; reflexivity. Qed.
Lemma side_cases s t : t = s \/ t = other s. Proof. destruct s, t; auto. Qed.

Lemma wire_app s a b : wire s (a ++ b) = wire s a ++ wire s b. Proof. apply flat_map_app. Qed.
Lemma wire_in s log m : In m (wire s log) <-> In (s, Sysex m) log.
Proof.
  unfold wire. rewrite in_flat_map. split.
  - intros [[t e] [Hi He]]. destruct e; try destruct He. destruct (side_eqb s t) eqn:E; [|destruct He]. apply side_eqb_spec in E. subst t. destruct He as [<-|[]]. exact Hi.
  - intros H. exists (s, Sysex m). split; [exact H|]. rewrite side_eqb_refl. left. reflexivity.
Qed.
Lemma started_app s a b : started s (a ++ b) = (started s a + started s b)%nat.
Proof. unfold started. rewrite filter_app, app_length. reflexivity. Qed.

(* ---- the invariant ---- *)
Section NetInv.
Variable files : side -> Z -> list Z -> option (list Z).
Variable seed : side -> Z.
Hypothesis seed_ok : forall s, 0 <= seed s < 16777216.
Hypothesis files_ok : short_files files.

Definition ghosts := side -> list tx.
Definition amount_of (size : Z) (msg : list Z) : Z := (Z.of_nat (length msg) + size - 1) / size.
(* a transmission as it is started *)
Definition good (ops : list nop) (s : side) (g : tx) : Prop :=
  (t_type g = 0 /\ offered files ops s (t_path g) (t_rest g) (t_size g) \/ t_type g = 1 /\ t_path g = [] /\ t_rest g <> []) /\
  1 <= t_size g /\ t_amount g = amount_of (t_size g) (t_rest g) /\ Z.of_nat (length (t_rest g)) < 16777216.
Definition done (s : side) (g : tx) (log : list (side * bev)) : Prop :=
  (t_type g = 0 -> In (s, RecvFinish (t_id g) (normal (t_path g)) (content g (t_amount g)) (t_amount g)) log) /\
  (t_type g = 1 -> In (s, RecvError (content g (t_amount g))) log).
Definition index_ok (g : tx) (k : Z) : Prop := 0 <= k /\ (1 <= t_amount g -> k < t_amount g).
Definition genuine (G : ghosts) (log : list (side * bev)) (s : side) (m : list Z) : Prop :=
  (exists g, In g (G s) /\ m = smsg g) \/
  (exists g k, In g (G s) /\ index_ok g k /\ m = dmsg g k) \/
  (exists g k, In g (G (other s)) /\ index_ok g k /\ k < 16777216 /\ m = amsg (t_id g) k /\ (k = t_amount g - 1 -> done s g log)) \/
  (exists size path, m = rmsg size path).
Definition justified (G : ghosts) (log : list (side * bev)) (s : side) (e : bev) : Prop :=
  match e with
  | Sysex m => genuine G log s m
  | RecvFinish i path data amount => exists g, In g (G (other s)) /\ t_type g = 0 /\ 1 <= t_amount g /\ i = t_id g /\ path = normal (t_path g) /\ data = content g (t_amount g) /\ amount = t_amount g
  | RecvError text => exists g, In g (G (other s)) /\ t_type g = 1 /\ text = content g (t_amount g)
  | AckAll i => exists g, In g (G s) /\ i = t_id g /\ done (other s) g log
  | _ => True
  end.
Definition sending (g t : tx) : Prop :=
  t_id t = t_id g /\ t_type t = t_type g /\ t_path t = t_path g /\ t_amount t = t_amount g /\ t_size t = t_size g /\
  1 <= t_next t /\ (1 <= t_amount g -> t_next t <= t_amount g) /\ t_rest t = skipn (Z.to_nat (t_next t) * Z.to_nat (t_size g)) (t_rest g).
Definition receiving (g : tx) (r : rx) : Prop :=
  r_id r = t_id g /\ r_type r = [t_type g] /\ r_path r = normal (t_path g) /\ r_amount r = t_amount g /\
  -1 <= r_last r /\ (1 <= t_amount g -> r_last r < t_amount g - 1) /\ r_buf r = content g (r_last r + 1).

Record Inv (ops : list nop) (G : ghosts) (n : net) : Prop := mkInv {
  i_count s : length (G s) = started s (n_log n);
  i_next s : b_next (n_br n s) = (seed s + Z.of_nat (length (G s))) mod 16777216;
  i_id s k g : nth_error (G s) k = Some g -> t_id g = number2bytes ((seed s + Z.of_nat k) mod 16777216) 3;
  i_good s g : In g (G s) -> good ops s g;
  i_start s g : In g (G s) -> In (s, Sysex (smsg g)) (n_log n);
  i_tx s t : In t (b_tx (n_br n s)) -> exists g, In g (G s) /\ sending g t;
  i_rx s r : In r (b_rx (n_br n s)) -> exists g, In g (G (other s)) /\ receiving g r;
  i_ev s e : In (s, e) (n_log n) -> justified G (n_log n) s e }.

(* monotonicity *)
Definition extends (G G' : ghosts) : Prop := forall s, incl (G s) (G' s).
Lemma done_mono s g log log' : incl log log' -> done s g log -> done s g log'. Proof. intros Hl [H1 H2]. split; intros E; apply Hl; auto. Qed.
Lemma genuine_mono G G' log log' s m : extends G G' -> incl log log' -> genuine G log s m -> genuine G' log' s m.
Proof.
  intros HG Hl [[g [H1 H2]]|[[g [k [H1 H2]]]|[[g [k [H1 [H2 [H3 [H4 H5]]]]]]|H]]].
  - left. exists g. split; [apply HG, H1|exact H2].
  - right. left. exists g, k. split; [apply HG, H1|exact H2].
  - right. right. left. exists g, k. split; [apply HG, H1|]. split; [exact H2|]. split; [exact H3|]. split; [exact H4|].
    intros E. apply (done_mono s g log log' Hl), H5, E.
  - right. right. right. exact H.
Qed.
Lemma justified_mono G G' log log' s e : extends G G' -> incl log log' -> justified G log s e -> justified G' log' s e.
Proof.
  intros HG Hl H. destruct e; cbn in *; try exact H.
  - eapply genuine_mono; eauto.
  - destruct H as [g [H1 H2]]. exists g. split; [apply HG, H1|exact H2].
  - destruct H as [g [H1 H2]]. exists g. split; [apply HG, H1|exact H2].
  - destruct H as [g [H1 [H2 H3]]]. exists g. split; [apply HG, H1|]. split; [exact H2|]. eapply done_mono; eauto.
Qed.
Lemma offered_mono ops ops' s path msg size : incl ops ops' -> offered files ops s path msg size -> offered files ops' s path msg size.
Proof. intros H [[now Hi]|Hf]; [left; exists now; apply H, Hi|right; exact Hf]. Qed.
Lemma good_mono ops ops' s g : incl ops ops' -> good ops s g -> good ops' s g.
Proof. intros H [[[H1 H2]|H1] H3]; split; try exact H3; [left; split; [exact H1|eapply offered_mono; eauto]|right; exact H1]. Qed.
Lemma inv_ops ops ops' G n : incl ops ops' -> Inv ops G n -> Inv ops' G n.
Proof. intros H [A B C D E F I J]. constructor; auto. intros s g Hg. eapply good_mono; eauto. Qed.

Lemma inv_ext ops G G' n : (forall s, G s = G' s) -> Inv ops G n -> Inv ops G' n.
Proof.
  intros E [A B C D F I J K]. assert (extends G G') as X by (intros s; rewrite E; apply incl_refl). constructor; intros s.
  - rewrite <- E. apply A.
  - rewrite <- E. apply B.
  - rewrite <- E. apply C.
  - rewrite <- E. apply D.
  - rewrite <- E. apply F.
  - intros t Ht. destruct (I s t Ht) as [g Hg]. exists g. rewrite <- E. exact Hg.
  - intros t Ht. destruct (J s t Ht) as [g Hg]. exists g. rewrite <- E. exact Hg.
  - intros e He. eapply justified_mono; [exact X|apply incl_refl|]. apply K, He.
Qed.

(* ids are unique *)
Lemma id_inj ops G n s g g' : Inv ops G n -> Z.of_nat (started s (n_log n)) <= 16777216 -> In g (G s) -> In g' (G s) -> t_id g = t_id g' -> g = g'.
Proof.
  intros H Hs Hg Hg' E. apply In_nth_error in Hg, Hg'. destruct Hg as [k Hk], Hg' as [k' Hk'].
  pose proof (i_id _ _ _ H s k g Hk) as E1. pose proof (i_id _ _ _ H s k' g' Hk') as E2. rewrite E1, E2 in E.
  assert (k < length (G s))%nat as L by (apply nth_error_Some; congruence). assert (k' < length (G s))%nat as L' by (apply nth_error_Some; congruence).
  rewrite (i_count _ _ _ H s) in L, L'. apply number_inj in E; [|lia|change (2 ^ (8 * Z.of_nat 3)) with 16777216; lia|change (2 ^ (8 * Z.of_nat 3)) with 16777216; lia].
  assert (k = k') by lia. subst k'. congruence.
Qed.

(* one side acts: the general form *)
Definition acted (n : net) (s : side) (b : bridge) (ev : list bev) : net := mkNet (set s b (n_br n)) (n_log n ++ map (pair s) ev).
Definition grow (s : side) (news : list tx) (G : ghosts) : ghosts := set s (G s ++ news) G.
Lemma grow_extends s news G : extends G (grow s news G).
Proof. intros t. destruct (side_cases s t) as [->| ->]; unfold grow; [rewrite set_same; apply incl_appl, incl_refl|rewrite set_other; apply incl_refl]. Qed.
Lemma grow_other s news G : grow s news G (other s) = G (other s). Proof. apply set_other. Qed.
Lemma grow_same s news G : grow s news G s = G s ++ news. Proof. apply set_same. Qed.

Lemma grow_nil s G t : grow s [] G t = G t.
Proof. destruct (side_cases s t) as [->| ->]; [rewrite grow_same; apply app_nil_r|apply grow_other]. Qed.

Lemma acted_inv ops G n s b ev news :
  Inv ops G n ->
  length news = started s (map (pair s) ev) ->
  b_next b = (seed s + Z.of_nat (length (G s ++ news))) mod 16777216 ->
  (forall k g, nth_error news k = Some g -> t_id g = number2bytes ((seed s + Z.of_nat (length (G s) + k)) mod 16777216) 3) ->
  (forall g, In g news -> good ops s g) ->
  (forall g, In g news -> In (Sysex (smsg g)) ev) ->
  (forall t, In t (b_tx b) -> exists g, In g (G s ++ news) /\ sending g t) ->
  (forall r, In r (b_rx b) -> exists g, In g (G (other s)) /\ receiving g r) ->
  (forall e, In e ev -> justified (grow s news G) (n_log (acted n s b ev)) s e) ->
  Inv ops (grow s news G) (acted n s b ev).
Proof.
  intros H Hc Hn Hi Hg Hst Ht Hr He. assert (forall e, started (other s) (map (pair s) e) = 0%nat) as Z0.
  { intros e. unfold started. induction e as [|x e IH]; [reflexivity|]. cbn [map filter]. destruct x; try exact IH. destruct s; exact IH. }
  constructor.
  - intros t. cbn [acted n_log]. rewrite started_app, <- (i_count _ _ _ H t). destruct (side_cases s t) as [->| ->].
    + rewrite grow_same, app_length, Hc. reflexivity.
    + rewrite grow_other, Z0. lia.
  - intros t. cbn [acted n_br]. destruct (side_cases s t) as [->| ->].
    + rewrite grow_same, set_same. exact Hn.
    + rewrite grow_other, set_other. apply (i_next _ _ _ H).
  - intros t k g. destruct (side_cases s t) as [->| ->].
    + rewrite grow_same. destruct (Nat.ltb_spec k (length (G s))).
      * rewrite nth_error_app1 by assumption. apply (i_id _ _ _ H).
      * rewrite nth_error_app2 by assumption. intros E. apply Hi in E. rewrite E. do 3 f_equal. lia.
    + rewrite grow_other. apply (i_id _ _ _ H).
  - intros t g. destruct (side_cases s t) as [->| ->].
    + rewrite grow_same. intros [Ha|Ha]%in_app_or; [apply (i_good _ _ _ H), Ha|apply Hg, Ha].
    + rewrite grow_other. apply (i_good _ _ _ H).
  - intros t g Hgt. cbn [acted n_log]. apply in_or_app. destruct (side_cases s t) as [->| ->].
    + rewrite grow_same in Hgt. apply in_app_or in Hgt. destruct Hgt as [Ha|Ha]; [left; apply (i_start _ _ _ H), Ha|right; apply in_map, Hst, Ha].
    + rewrite grow_other in Hgt. left. apply (i_start _ _ _ H), Hgt.
  - intros t x. cbn [acted n_br]. destruct (side_cases s t) as [->| ->].
    + rewrite grow_same, set_same. apply Ht.
    + rewrite grow_other, set_other. apply (i_tx _ _ _ H).
  - intros t x. cbn [acted n_br]. destruct (side_cases s t) as [->| ->].
    + rewrite set_same, grow_other. apply Hr.
    + rewrite set_other, other_other. intros Hx. destruct (i_rx _ _ _ H _ _ Hx) as [g [A B]]. rewrite other_other in A. exists g. split; [apply grow_extends, A|exact B].
  - intros t e. cbn [acted n_log]. intros [Ha|Ha]%in_app_or.
    + apply (justified_mono G _ (n_log n)); [apply grow_extends|apply incl_appl, incl_refl|]. apply (i_ev _ _ _ H), Ha.
    + apply in_map_iff in Ha. destruct Ha as [e' [E Hin]]. inversion E. subst. apply He, Hin.
Qed.

(* ---- the parts of a text ---- *)
Lemma amount_pos size msg : 1 <= size -> msg <> [] -> 1 <= amount_of size msg.
Proof. intros H Hm. unfold amount_of. destruct msg; [congruence|]. cbn [length]. apply Z.div_le_lower_bound; lia. Qed.
Lemma amount_nonneg size msg : 1 <= size -> 0 <= amount_of size msg.
Proof. intros H. unfold amount_of. apply Z.div_pos; lia. Qed.
Lemma amount_le size msg : 1 <= size -> amount_of size msg <= Z.of_nat (length msg).
Proof.
  intros H. unfold amount_of. destruct (Z.eq_dec (Z.of_nat (length msg)) 0) as [->|E]; [apply Z.lt_succ_r, Z.div_lt_upper_bound; lia|].
  apply Z.lt_succ_r, Z.div_lt_upper_bound; nia.
Qed.
Lemma amount_covers size msg : 1 <= size -> Z.of_nat (length msg) <= amount_of size msg * size.
Proof. intros H. unfold amount_of. pose proof (Z.div_mod (Z.of_nat (length msg) + size - 1) size). pose proof (Z.mod_pos_bound (Z.of_nat (length msg) + size - 1) size). nia. Qed.
Lemma content_succ g k : 0 <= k -> content g (k + 1) = content g k ++ normal (part g k).
Proof.
  intros H. unfold content, part. replace (Z.to_nat (k + 1)) with (S (Z.to_nat k)) by lia. rewrite seq_S, flat_map_app. cbn [flat_map]. rewrite app_nil_r. reflexivity.
Qed.
Lemma content_zero g : content g 0 = []. Proof. reflexivity. Qed.
Lemma pieces_cover size msg n : flat_map (piece size msg) (seq 0 n) = firstn (n * Z.to_nat size) msg.
Proof.
  induction n as [|n IH]; [reflexivity|]. rewrite seq_S, flat_map_app, IH. cbn [flat_map]. rewrite app_nil_r. unfold piece. cbn [Nat.add].
  replace (S n * Z.to_nat size)%nat with (n * Z.to_nat size + Z.to_nat size)%nat by lia.
  rewrite <- (firstn_skipn (n * Z.to_nat size) msg) at 3.
  destruct (Nat.le_gt_cases (length msg) (n * Z.to_nat size)).
  - rewrite (skipn_all2 msg) by lia. rewrite firstn_nil, !app_nil_r. rewrite (firstn_all2 (firstn _ _)); [reflexivity|]. rewrite firstn_length. lia.
  - rewrite firstn_app, firstn_length, Nat.min_l by lia. rewrite (firstn_all2 (firstn _ _)) by (rewrite firstn_length; lia). f_equal. f_equal. lia.
Qed.
Lemma content_clean g : 1 <= t_size g -> t_amount g = amount_of (t_size g) (t_rest g) -> (forall k, clean (piece (t_size g) (t_rest g) k)) -> content g (t_amount g) = t_rest g.
Proof.
  intros Hs Ha Hc. unfold content. rewrite (flat_map_ext _ (piece (t_size g) (t_rest g))) by (intros k; apply normal_clean, Hc). rewrite pieces_cover. apply firstn_all2.
  pose proof (amount_covers (t_size g) (t_rest g) Hs). pose proof (amount_nonneg (t_size g) (t_rest g) Hs). rewrite <- Ha in *. nia.
Qed.

(* ---- housekeeping ---- *)
Lemma tx_get_in i l t : tx_get i l = Some t -> In t l /\ t_id t = i.
Proof. intros H. apply find_some in H. rewrite bytes_eqb_spec in H. exact H. Qed.
Lemma rx_get_in i l t : rx_get i l = Some t -> In t l /\ r_id t = i.
Proof. intros H. apply find_some in H. rewrite bytes_eqb_spec in H. exact H. Qed.

(* ---- a transmission is started ---- *)
Lemma chunk_first g now : t_next g = 0 -> 1 <= t_size g -> (1 <= t_amount g -> 1 <= t_amount g) ->
  exists t1, send_chunk now g = (t1, [SendProgress (t_path g) 0 (t_amount g) (t_type g =? 0); Sysex (dmsg g 0)]) /\ sending g t1.
Proof.
  intros Hn Hs Ha. unfold send_chunk. rewrite Hn. eexists. split; [reflexivity|]. unfold sending. cbn [t_id t_type t_path t_amount t_size t_rest t_next].
  change (Z.to_nat (0 + 1)) with 1%nat. rewrite Nat.mul_1_l. repeat split; lia.
Qed.
Lemma start_inv ops G n s now path msg size type b' ev : Inv ops G n ->
  good ops s (mkTx [] type path (amount_of size msg) size msg 0 None) ->
  start_send now path msg size type (n_br n s) = (b', ev) ->
  Inv ops (grow s [mkTx (number2bytes (b_next (n_br n s)) 3) type path (amount_of size msg) size msg 0 None] G) (acted n s b' ev).
Proof.
  intros H Hg E. unfold start_send in E. set (i := number2bytes (b_next (n_br n s)) 3) in *. set (g := mkTx i type path ((Z.of_nat (length msg) + size - 1) / size) size msg 0 None) in *.
  assert (1 <= size) as Hs by (destruct Hg as [_ [Hg _]]; exact Hg).
  destruct (chunk_first g now eq_refl Hs ltac:(auto)) as [t1 [E1 Ht1]]. rewrite E1 in E. injection E as <- <-.
  change (Inv ops (grow s [g] G) (acted n s (mkB (tx_put t1 (b_tx (cleanup now (n_br n s)))) (b_rx (cleanup now (n_br n s))) (if 16777216 <=? b_next (n_br n s) + 1 then 0 else b_next (n_br n s) + 1)) [Sysex (smsg g); SendProgress (t_path g) 0 (t_amount g) (t_type g =? 0); Sysex (dmsg g 0)])).
  apply acted_inv; auto.
  - cbn. unfold started. cbn. rewrite side_eqb_refl. reflexivity.
  - cbn [b_next]. rewrite app_length. cbn [length]. pose proof (i_next _ _ _ H s) as N. destruct (Z.leb_spec 16777216 (b_next (n_br n s) + 1)); lia.
  - intros [|[|k]] g' Hk; inversion Hk. subst g'. cbn [t_id g]. unfold i. rewrite (i_next _ _ _ H s). do 3 f_equal. lia.
  - intros g' [<-|[]]. exact Hg.
  - intros g' [<-|[]]. left. reflexivity.
  - cbn [b_tx cleanup]. intros t Ht. unfold tx_put in Ht. apply in_app_or in Ht. destruct Ht as [Ht|[<-|[]]].
    + apply filter_In in Ht. destruct Ht as [Ht _]. apply filter_In in Ht. destruct Ht as [Ht _]. destruct (i_tx _ _ _ H _ _ Ht) as [g' [A B]]. exists g'. split; [apply in_or_app; left; exact A|exact B].
    + exists g. split; [apply in_or_app; right; left; reflexivity|exact Ht1].
  - cbn [b_rx cleanup]. intros r Hr. apply filter_In in Hr. destruct Hr as [Hr _]. apply (i_rx _ _ _ H _ _ Hr).
  - intros e [<-|[<-|[<-|[]]]]; cbn [justified]; [|exact I|].
    + left. exists g. split; [rewrite grow_same; apply in_or_app; right; left; reflexivity|reflexivity].
    + right. left. exists g, 0. split; [rewrite grow_same; apply in_or_app; right; left; reflexivity|]. split; [|reflexivity]. unfold index_ok. lia.
Qed.
Lemma same_inv ops G n s : Inv ops G n -> forall b ev, b = n_br n s -> (forall e, In e ev -> justified G (n_log n) s e) -> started s (map (pair s) ev) = 0%nat -> Inv ops G (acted n s b ev).
Proof.
  intros H b ev -> Hev Hz. apply (inv_ext ops (grow s [] G)); [apply grow_nil|]. apply acted_inv; auto.
  - rewrite app_nil_r. apply (i_next _ _ _ H).
  - intros [|k] g Hk; discriminate Hk.
  - intros g [].
  - intros g [].
  - intros t Ht. rewrite app_nil_r. apply (i_tx _ _ _ H _ _ Ht).
  - apply (i_rx _ _ _ H).
  - intros e0 He. eapply justified_mono; [apply grow_extends|apply incl_appl, incl_refl|]. apply Hev, He.
Qed.
Lemma string_inv ops G n s now path msg size type r : Inv ops G n ->
  (1 <= size -> msg <> [] -> good ops s (mkTx [] type path (amount_of size msg) size msg 0 None)) ->
  send_string now path msg size type (n_br n s) = r -> exists G', Inv ops G' (act n s r).
Proof.
  intros H Hg <-. unfold send_string. assert (forall e, exists G', Inv ops G' (act n s (n_br n s, [], e))) as Same.
  { intros e. exists G; apply (same_inv ops G n s H (n_br n s) []); auto. intros x []. }
  destruct msg as [|u msg]; [apply Same|]. destruct (Z.ltb_spec size 1); [apply Same|].
  destruct (start_send now path (u :: msg) size type (n_br n s)) as [b' ev] eqn:E. cbn [act]. eexists. refine (start_inv _ _ _ _ _ _ _ _ _ _ _ H _ E). apply Hg; [lia|discriminate].
Qed.
Lemma file_inv ops G n s now path size r : Inv ops G n -> send_file (files s now) now path size (n_br n s) = r -> exists G', Inv ops G' (act n s r).
Proof.
  intros H <-. unfold send_file. assert (forall e, exists G', Inv ops G' (act n s (n_br n s, [], e))) as Same.
  { intros e. exists G; apply (same_inv ops G n s H (n_br n s) []); auto. intros x []. }
  destruct path as [|u path]; [apply Same|]. destruct (Z.ltb_spec size 1); [apply Same|]. destruct (files s now (u :: path)) as [data|] eqn:F; [|apply Same].
  destruct (start_send now (u :: path) data size 0 (n_br n s)) as [b' ev] eqn:E. cbn [act]. eexists. refine (start_inv _ _ _ _ _ _ _ _ _ _ _ H _ E).
  unfold good. cbn. split; [left; split; [reflexivity|]|]; [right; exists now; exact F|]. split; [lia|]. split; [reflexivity|]. apply (files_ok _ _ _ _ F).
Qed.

(* ---- messages arrive ---- *)
Lemma dispatch_framed fs now c p b : dispatch fs now (framed c p) b =
  if bytes_eqb [c] [1] then send_file fs now (bytes2string (skipn 4 p)) (bytes2number (firstn 4 p)) b
  else if bytes_eqb [c] [2] then receive_start now (firstn 4 p) (skipn 4 p) b
  else if bytes_eqb [c] [3] then receive_data now (firstn 4 p) (skipn 4 p) b
  else if bytes_eqb [c] [4] then receive_ack now (firstn 4 p) (skipn 4 p) b else (b, [], None).
Proof.
  unfold dispatch. destruct (framed_parts c p) as [A [B C]]. rewrite A, B, C. assert (bytes_eqb (checksum p) (checksum p) = true) as -> by (apply bytes_eqb_spec; reflexivity). reflexivity.
Qed.
Lemma id_length ops G n s g : Inv ops G n -> In g (G s) -> length (t_id g) = 4%nat.
Proof. intros H Hg. apply In_nth_error in Hg. destruct Hg as [k Hk]. rewrite (i_id _ _ _ H _ _ _ Hk). apply number3_length. Qed.
Lemma amount_bound ops s g : good ops s g -> 0 <= t_amount g < 16777216.
Proof. intros [_ [Hs [Ha Hl]]]. pose proof (amount_nonneg (t_size g) (t_rest g) Hs). pose proof (amount_le (t_size g) (t_rest g) Hs). lia. Qed.

Lemma rx_start_inv ops G n s now g r : Inv ops G n -> In g (G (other s)) ->
  receive_start now (t_id g) ([t_type g] ++ number2bytes (t_amount g) 3 ++ string2bytes (t_path g)) (n_br n s) = r -> Inv ops G (act n s r).
Proof.
  intros H Hg <-. unfold receive_start. cbn [act]. apply (inv_ext ops (grow s [] G)); [apply grow_nil|].
  change (Inv ops (grow s [] G) (acted n s (mkB (b_tx (cleanup now (n_br n s))) (rx_put (mkRx (t_id g) [t_type g] (bytes2string (skipn 4 (number2bytes (t_amount g) 3 ++ string2bytes (t_path g)))) (bytes2number (firstn 4 (number2bytes (t_amount g) 3 ++ string2bytes (t_path g)))) [] (-1) None) (b_rx (cleanup now (n_br n s)))) (b_next (cleanup now (n_br n s))))
    [RecvStart (t_id g) (bytes2string (skipn 4 (number2bytes (t_amount g) 3 ++ string2bytes (t_path g)))) (bytes2number (firstn 4 (number2bytes (t_amount g) 3 ++ string2bytes (t_path g))))])).
  rewrite (skipn_id _ _ 4) by apply number3_length. rewrite (firstn_id _ _ 4) by apply number3_length.
  pose proof (amount_bound _ _ _ (i_good _ _ _ H _ _ Hg)) as Hb. rewrite number_small by exact Hb.
  apply acted_inv; auto.
  - rewrite app_nil_r. apply (i_next _ _ _ H).
  - intros [|k] g' Hk; discriminate Hk.
  - intros g' [].
  - intros g' [].
  - intros t Ht. rewrite app_nil_r. cbn in Ht. apply filter_In in Ht. apply (i_tx _ _ _ H _ _ (proj1 Ht)).
  - intros x Hx. cbn in Hx. unfold rx_put in Hx. apply in_app_or in Hx. destruct Hx as [Hx|[<-|[]]].
    + apply filter_In in Hx. destruct Hx as [Hx _]. apply filter_In in Hx. apply (i_rx _ _ _ H _ _ (proj1 Hx)).
    + exists g. split; [exact Hg|]. unfold receiving. cbn. repeat split; try lia.
  - intros e [<-|[]]. exact I.
Qed.

Lemma rx_data_inv ops G n s now g k r : Inv ops G n -> Z.of_nat (started (other s) (n_log n)) <= 16777216 -> In g (G (other s)) -> index_ok g k ->
  receive_data now (t_id g) (number2bytes k 3 ++ string2bytes (part g k)) (n_br n s) = r -> Inv ops G (act n s r).
Proof.
  intros H Hst Hg Hk <-. unfold receive_data. assert (forall e, Inv ops G (act n s (n_br n s, [], e))) as Same.
  { intros e. apply (same_inv ops G n s H (n_br n s) []); auto. intros x []. }
  destruct (rx_get (t_id g) (b_rx (n_br n s))) as [x|] eqn:Ex; [|apply Same].
  apply rx_get_in in Ex. destruct Ex as [Hx Hid]. destruct (i_rx _ _ _ H _ _ Hx) as [g' [Hg' Hr]].
  assert (g' = g) by (apply (id_inj ops G n (other s)); auto; destruct Hr as [Hr _]; congruence). subst g'. clear Hg'.
  destruct Hr as [R1 [R2 [R3 [R4 [R5 [R6 R7]]]]]]. rewrite (skipn_id _ _ 4) by apply number3_length. rewrite (firstn_id _ _ 4) by apply number3_length.
  rewrite number_mod. fold (normal (part g k)). pose proof (i_good _ _ _ H _ _ Hg) as Gg. pose proof (amount_bound _ _ _ Gg) as Hb. destruct Hk as [K1 K2].
  destruct (Z.eqb_spec (k mod 16777216) (r_last x + 1)) as [E|E]; [|apply Same]. cbn [negb].
  set (j := k mod 16777216) in *. assert (0 <= j < 16777216) as Hj by (unfold j; lia). assert (1 <= t_amount g -> j = k) as Hjk by (unfold j; lia). clearbody j.
  assert (content g (j + 1) = r_buf x ++ normal (part g k)) as Hbuf.
  { rewrite R7, <- E, content_succ by lia. f_equal. destruct (Z.le_gt_cases 1 (t_amount g)) as [P|P].
    - rewrite (Hjk P). reflexivity.
    - destruct Gg as [_ [Hs [Ha _]]]. pose proof (amount_covers (t_size g) (t_rest g) Hs). assert (t_rest g = []) as Hn by (destruct (t_rest g); [reflexivity|cbn in *; lia]).
      unfold part, piece. rewrite Hn, !skipn_nil, !firstn_nil. reflexivity. }
  cbn [r_id r_type r_path r_amount r_buf r_last]. rewrite <- Hbuf, R1, R2, R3, R4. set (x1 := mkRx _ _ _ _ _ _ _).
  assert (forall log', justified G log' s (RecvProgress (t_id g) (normal (t_path g)) j (t_amount g))) as JP by (intros; exact I).
  destruct (Z.eqb_spec j (t_amount g - 1)) as [El|El].
  - (* the last part *)
    assert (1 <= t_amount g) as P by lia. specialize (Hjk P). assert (content g (j + 1) = content g (t_amount g)) as -> by (f_equal; lia).
    assert (forall ev0, In (s, ev0) (n_log n ++ map (pair s) ([Sysex (framed 4 (t_id g ++ number2bytes j 3)); RecvProgress (t_id g) (normal (t_path g)) j (t_amount g)] ++ [ev0])) ->
      (t_type g = 0 -> ev0 = RecvFinish (t_id g) (normal (t_path g)) (content g (t_amount g)) (t_amount g)) -> (t_type g = 1 -> ev0 = RecvError (content g (t_amount g))) -> (t_type g = 0 \/ t_type g = 1) ->
      Inv ops G (acted n s (mkB (b_tx (n_br n s)) (rx_del (t_id g) (b_rx (n_br n s))) (b_next (n_br n s))) ([Sysex (framed 4 (t_id g ++ number2bytes j 3)); RecvProgress (t_id g) (normal (t_path g)) j (t_amount g)] ++ [ev0]))) as Fin.
    { intros ev0 Hin H0 H1 H01. apply (inv_ext ops (grow s [] G)); [apply grow_nil|]. apply acted_inv; auto.
      - unfold started. cbn. destruct H01 as [T|T]; [rewrite (H0 T)|rewrite (H1 T)]; reflexivity.
      - rewrite app_nil_r. apply (i_next _ _ _ H).
      - intros [|k0] g' Hk0; discriminate Hk0.
      - intros g' [].
      - intros g' [].
      - intros t Ht. rewrite app_nil_r. apply (i_tx _ _ _ H _ _ Ht).
      - intros y Hy. cbn in Hy. apply filter_In in Hy. apply (i_rx _ _ _ H _ _ (proj1 Hy)).
      - intros e [<-|[<-|[<-|[]]]]; [|exact I|].
        + right. right. left. exists g, j. split; [apply grow_extends, Hg|]. split; [unfold index_ok; lia|]. split; [lia|]. split; [reflexivity|]. intros _. split; intros T; cbn [acted n_log].
          * rewrite <- (H0 T). exact Hin.
          * rewrite <- (H1 T). exact Hin.
        + destruct H01 as [T|T]; [rewrite (H0 T)|rewrite (H1 T)]; cbn [justified]; exists g; rewrite grow_other; repeat split; auto. }
    assert (forall ev0, In (s, ev0) (n_log n ++ map (pair s) ([Sysex (framed 4 (t_id g ++ number2bytes j 3)); RecvProgress (t_id g) (normal (t_path g)) j (t_amount g)] ++ [ev0]))) as Hlast.
    { intros ev0. apply in_or_app. right. right. right. left. reflexivity. }
    destruct Gg as [[[T _]|[T _]] _]; rewrite T; cbn [bytes_eqb Z.eqb andb]; apply Fin; try apply Hlast; intros; auto; congruence.
  - apply (inv_ext ops (grow s [] G)); [apply grow_nil|]. cbn [act]. apply acted_inv; auto.
    + rewrite app_nil_r. apply (i_next _ _ _ H).
    + intros [|k0] g' Hk0; discriminate Hk0.
    + intros g' [].
    + intros g' [].
    + intros t Ht. rewrite app_nil_r. apply (i_tx _ _ _ H _ _ Ht).
    + intros y Hy. cbn [b_rx] in Hy. apply in_map_iff in Hy. destruct Hy as [y0 [<- Hy0]]. destruct (bytes_eqb (r_id y0) (t_id g)); [|apply (i_rx _ _ _ H _ _ Hy0)].
      exists g. split; [exact Hg|]. unfold receiving, x1. cbn [r_id r_type r_path r_amount r_buf r_last]. repeat split; try lia.
    + intros e [<-|[<-|[]]]; [|exact I]. right. right. left. exists g, j. split; [apply grow_extends, Hg|]. split; [unfold index_ok; lia|]. split; [lia|]. split; [reflexivity|]. intros; lia.
Qed.

Lemma tx_ack_inv ops G n s now g k r : Inv ops G n -> Z.of_nat (started s (n_log n)) <= 16777216 -> In g (G s) -> index_ok g k -> k < 16777216 ->
  (k = t_amount g - 1 -> done (other s) g (n_log n)) ->
  receive_ack now (t_id g) (number2bytes k 3) (n_br n s) = r -> Inv ops G (act n s r).
Proof.
  intros H Hst Hg Hk Hk2 Hd <-. unfold receive_ack. assert (forall e, Inv ops G (act n s (n_br n s, [], e))) as Same.
  { intros e. apply (same_inv ops G n s H (n_br n s) []); auto. intros x []. }
  destruct (tx_get (t_id g) (b_tx (n_br n s))) as [t|] eqn:Et; [|apply Same]. apply tx_get_in in Et. destruct Et as [Ht Hid].
  destruct (i_tx _ _ _ H _ _ Ht) as [g' [Hg' Hs]]. assert (g' = g) by (apply (id_inj ops G n s); auto; destruct Hs as [Hs _]; congruence). subst g'. clear Hg'.
  destruct Hk as [K1 K2]. rewrite number_small by lia. destruct (Z.eqb_spec k (t_next t - 1)) as [E|E]; [|apply Same]. cbn [negb].
  destruct Hs as [S1 [S2 [S3 [S4 [S5 [S6 [S7 S8]]]]]]]. destruct (Z.eqb_spec (t_next t) (t_amount t)) as [En|En].
  - apply (inv_ext ops (grow s [] G)); [apply grow_nil|]. cbn [act]. apply acted_inv; auto.
    + rewrite app_nil_r. apply (i_next _ _ _ H).
    + intros [|k0] g' Hk0; discriminate Hk0.
    + intros g' [].
    + intros g' [].
    + intros y Hy. rewrite app_nil_r. cbn in Hy. apply filter_In in Hy. apply (i_tx _ _ _ H _ _ (proj1 Hy)).
    + apply (i_rx _ _ _ H).
    + intros e [<-|[]]. cbn [justified]. exists g. split; [apply grow_extends, Hg|]. split; [reflexivity|]. eapply done_mono; [|apply Hd; lia]. apply incl_appl, incl_refl.
  - unfold send_chunk. cbn [act]. set (t1 := mkTx _ _ _ _ _ _ _ _). apply (inv_ext ops (grow s [] G)); [apply grow_nil|].
    assert (forall a b, In (Sysex a) [SendProgress (t_path t) (t_next t) (t_amount t) (t_type t =? 0); Sysex b] -> a = b) as Only.
    { intros a b [Q|[Q|[]]]; congruence. }
    apply acted_inv; auto.
    + unfold started. cbn. assert ((t_next t =? 0) = false) as -> by lia. rewrite andb_false_r. reflexivity.
    + rewrite app_nil_r. apply (i_next _ _ _ H).
    + intros [|k0] g' Hk0; discriminate Hk0.
    + intros g' [].
    + intros g' [].
    + intros y Hy. rewrite app_nil_r. cbn [b_tx] in Hy. apply in_map_iff in Hy. destruct Hy as [y0 [<- Hy0]]. destruct (bytes_eqb (t_id y0) (t_id g)); [|apply (i_tx _ _ _ H _ _ Hy0)].
      exists g. split; [exact Hg|]. unfold sending, t1. cbn [t_id t_type t_path t_amount t_size t_rest t_next]. repeat split; try assumption; try lia.
      rewrite S8, S5, skipn_skipn. f_equal. replace (Z.to_nat (t_next t + 1)) with (S (Z.to_nat (t_next t))) by lia. lia.
    + apply (i_rx _ _ _ H).
    + intros e [<-|[<-|[]]]; [exact I|]. right. left. exists g, (t_next t). split; [apply grow_extends, Hg|]. split; [unfold index_ok; lia|].
      unfold dmsg, part, piece. rewrite S1, S8, S5. reflexivity.
Qed.

Lemma receive_inv ops G n s thr now man m r : Inv ops G n ->
  (forall b' ev e, dispatch (files s now) now m (n_br n s) = (b', ev, e) -> man = MANUFACTURER -> exists G', Inv ops G' (acted n s b' ev)) ->
  receive (files s now) thr now man m (n_br n s) = r -> exists G', Inv ops G' (act n s r).
Proof.
  intros H Hd <-. unfold receive. destruct (bytes_eqb man MANUFACTURER) eqn:Em; cbn [negb]; [|exists G; apply (same_inv ops G n s H (n_br n s) []); auto; intros x []].
  apply bytes_eqb_spec in Em. destruct (dispatch (files s now) now m (n_br n s)) as [[b1 ev] e] eqn:E. destruct (Hd _ _ _ eq_refl Em) as [G1 H1].
  destruct e as [e|]; [|exists G1; exact H1]. destruct thr; [exists G1; exact H1|].
  assert (n_br (acted n s b1 ev) s = b1) as Eb by apply set_same.
  assert (1 <= 100 -> err_text e <> [] -> good ops s (mkTx [] 1 [] (amount_of 100 (err_text e)) 100 (err_text e) 0 None)) as Ge.
  { intros _ Hne. unfold good. cbn [t_id t_type t_path t_amount t_size t_rest]. split; [right; auto|]. split; [lia|]. split; [reflexivity|]. destruct e; vm_compute; reflexivity. }
  destruct (string_inv ops G1 (acted n s b1 ev) s now [] (err_text e) 100 1 _ H1 Ge eq_refl) as [G2 H2].
  rewrite Eb in H2. destruct (send_string now [] (err_text e) 100 1 b1) as [[b2 ev2] e2]. exists G2.
  cbn [act acted n_log n_br] in *. rewrite map_app, app_assoc. destruct H2 as [A B C D F I J K]. constructor; cbn [n_log n_br] in *; auto.
  - intros t. specialize (B t). destruct (side_cases s t) as [->| ->]; [rewrite set_same in *; exact B|rewrite !set_other in *; exact B].
  - intros t. specialize (I t). destruct (side_cases s t) as [->| ->]; [rewrite set_same in *; exact I|rewrite !set_other in *; exact I].
  - intros t. specialize (J t). destruct (side_cases s t) as [->| ->]; [rewrite set_same in *; exact J|rewrite !set_other in *; exact J].
Qed.

Lemma deliver_inv ops G n s thr now m r : Inv ops G n -> (forall t, Z.of_nat (started t (n_log n)) <= 16777216) -> In (other s, Sysex m) (n_log n) ->
  receive (files s now) thr now MANUFACTURER m (n_br n s) = r -> exists G', Inv ops G' (act n s r).
Proof.
  intros H Hst Hm. apply (receive_inv ops G n s thr now MANUFACTURER m r H). intros b' ev e E _.
  apply (i_ev _ _ _ H) in Hm. cbn [justified] in Hm. assert (forall x, act n s (b', ev, x) = acted n s b' ev) as Ea by reflexivity. rewrite <- (Ea e).
  destruct Hm as [[g [Hg ->]]|[[g [k [Hg [Hk ->]]]]|[[g [k [Hg [Hk [Hk2 [-> Hd]]]]]]|[size [path ->]]]]].
  - unfold smsg in E. rewrite dispatch_framed in E. cbn [bytes_eqb Z.eqb andb Pos.eqb] in E. pose proof (id_length _ _ _ _ _ H Hg) as L. rewrite (firstn_id _ _ 4 L), (skipn_id _ _ 4 L) in E.
    exists G. apply (rx_start_inv ops G n s now g _ H Hg E).
  - unfold dmsg in E. rewrite dispatch_framed in E. cbn [bytes_eqb Z.eqb andb Pos.eqb] in E. pose proof (id_length _ _ _ _ _ H Hg) as L. rewrite (firstn_id _ _ 4 L), (skipn_id _ _ 4 L) in E.
    exists G. apply (rx_data_inv ops G n s now g k _ H (Hst _) Hg Hk E).
  - rewrite other_other in Hg. unfold amsg in E. rewrite dispatch_framed in E. cbn [bytes_eqb Z.eqb andb Pos.eqb] in E. pose proof (id_length _ _ _ _ _ H Hg) as L. rewrite (firstn_id _ _ 4 L), (skipn_id _ _ 4 L) in E.
    exists G. apply (tx_ack_inv ops G n s now g k _ H (Hst _) Hg Hk Hk2 Hd E).
  - unfold rmsg in E. rewrite dispatch_framed in E. cbn [bytes_eqb Z.eqb andb Pos.eqb] in E. apply (file_inv ops G n s now _ _ _ H E).
Qed.

Variable throws : side -> Z -> bool.
Lemma net_inv ops : Forall noise ops -> Forall short_op ops -> (forall t, Z.of_nat (started t (n_log (nrun files throws seed ops))) <= 16777216) ->
  exists G, Inv ops G (nrun files throws seed ops).
Proof.
  induction ops as [|ops o IH] using rev_ind_snoc; intros Hn Hs Hst.
  - exists (fun _ => []). constructor; try (intros s []; fail).
    + intros s. reflexivity.
    + intros s. cbn. specialize (seed_ok s). lia.
    + intros s [|k] g Hk; discriminate Hk.
    + intros s t [].
    + intros s t [].
    + intros s t [].
    + intros s t [].
    + intros s t [].
  - assert (nrun files throws seed (ops ++ [o]) = nstep files throws (nrun files throws seed ops) o) as Er by (unfold nrun; apply fold_left_app). rewrite Er in *. clear Er. set (n := nrun files throws seed ops) in *. apply Forall_app in Hn, Hs. destruct Hn as [Hn Hno], Hs as [Hs Hso].
    inversion Hno as [|? ? No _]. inversion Hso as [|? ? So _]. subst. clear Hno Hso.
    assert (forall t, Z.of_nat (started t (n_log n)) <= 16777216) as Hst0.
    { intros t. specialize (Hst t). assert (exists l, n_log (nstep files throws n o) = n_log n ++ l) as [l El].
      { destruct o; cbn [nstep]; [| | |destruct (nth_error _ _)|]; try (exists []; rewrite app_nil_r; reflexivity);
          match goal with |- context [act n ?s ?r] => destruct r as [[? ?] ?] end; eexists; reflexivity. }
      rewrite El, started_app in Hst. lia. }
    destruct (IH Hn Hs Hst0) as [G H]. assert (Inv (ops ++ [o]) G n) as H1 by (eapply inv_ops; [|exact H]; apply incl_appl, incl_refl).
    destruct o; cbn [nstep].
    + apply (string_inv _ G n s now path msg size 0 _ H1); [|reflexivity]. intros S1 S2. unfold good. cbn. split; [left; split; [reflexivity|left; exists now; apply in_or_app; right; left; reflexivity]|].
      split; [lia|]. split; [reflexivity|]. exact So.
    + apply (file_inv _ G n s now path size _ H1). reflexivity.
    + unfold request. destruct path as [|u path]; [exists G; apply (same_inv _ G n s H1 (n_br n s) []); auto; intros x []|]. destruct (size <? 1); [exists G; apply (same_inv _ G n s H1 (n_br n s) []); auto; intros x []|].
      exists G; apply (same_inv _ G n s H1 (n_br n s) [Sysex (framed 1 (number2bytes size 3 ++ string2bytes (u :: path)))]); auto. intros e [<-|[]]. right. right. right. exists size, (u :: path). reflexivity.
    + destruct (nth_error (wire (other s) (n_log n)) k) as [m|] eqn:Em; [|exists G; exact H1]. apply nth_error_In, wire_in in Em. eapply deliver_inv; [exact H1|exact Hst0|exact Em|reflexivity].
    + eapply receive_inv; [exact H1| |reflexivity]. intros b' ev e E Ema. destruct No as [No|No]; [congruence|]. unfold dispatch in E.
      destruct (bytes_eqb (checksum (skipn 4 data)) (firstn 3 (skipn 1 data))) eqn:Ec; [apply bytes_eqb_spec in Ec; congruence|]. cbn [negb] in E. injection E as <- <- <-.
      exists G; apply (same_inv _ G n s H1 (n_br n s) []); auto. intros x [].
Qed.
End NetInv.

(* ---- C83 ---- *)
Section Results.
Variable files : side -> Z -> list Z -> option (list Z).
Variable throws : side -> Z -> bool.
Variable seed : side -> Z.
Variable ops : list nop.
Hypothesis seed_ok : forall s, 0 <= seed s < 16777216.
Hypothesis files_ok : short_files files.
Hypothesis noise_ok : Forall noise ops.
Hypothesis short_ok : Forall short_op ops.
Hypothesis ids_ok : forall t, Z.of_nat (started t (n_log (nrun files throws seed ops))) <= 16777216.

Lemma received s i path data amount : In (s, RecvFinish i path data amount) (n_log (nrun files throws seed ops)) ->
  exists path0 msg size, offered files ops (other s) path0 msg size /\ msg <> [] /\ (clean path0 -> path = path0) /\ ((forall k, clean (piece size msg k)) -> data = msg).
Proof.
  intros H. destruct (net_inv files seed seed_ok files_ok throws ops noise_ok short_ok ids_ok) as [G I]. apply (i_ev _ _ _ _ _ I) in H. cbn [justified] in H.
  destruct H as [g [Hg [T [P [-> [-> [-> ->]]]]]]]. pose proof (i_good _ _ _ _ _ I _ _ Hg) as [Go [Hs [Ha _]]]. destruct Go as [[_ Go]|[T' _]]; [|congruence].
  exists (t_path g), (t_rest g), (t_size g). split; [exact Go|]. split; [|split].
  - intros E. rewrite E in Ha. unfold amount_of in Ha. cbn [length] in Ha. assert ((Z.of_nat 0 + t_size g - 1) / t_size g = 0) by (apply Z.div_small; lia). lia.
  - apply normal_clean.
  - apply content_clean; assumption.
Qed.
Lemma received_plain s i path data amount : In (s, RecvFinish i path data amount) (n_log (nrun files throws seed ops)) ->
  exists path0 msg size, offered files ops (other s) path0 msg size /\ (plain path0 -> path = path0) /\ (plain msg -> data = msg).
Proof.
  intros H. destruct (received _ _ _ _ _ H) as [p [m [z [A [B [C D]]]]]]. exists p, m, z. split; [exact A|]. split.
  - intros P. apply C, plain_clean, P.
  - intros P. apply D. intros k. apply plain_clean, plain_piece, P.
Qed.
Lemma acked s i : In (s, AckAll i) (n_log (nrun files throws seed ops)) ->
  exists type path0 msg size, In (s, Sysex (framed 2 (i ++ [type] ++ number2bytes ((Z.of_nat (length msg) + size - 1) / size) 3 ++ string2bytes path0))) (n_log (nrun files throws seed ops)) /\
    (type = 0 /\ offered files ops s path0 msg size /\ (exists path data amount, In (other s, RecvFinish i path data amount) (n_log (nrun files throws seed ops)) /\ (clean path0 -> path = path0) /\ ((forall k, clean (piece size msg k)) -> data = msg))
     \/ type = 1 /\ exists text, In (other s, RecvError text) (n_log (nrun files throws seed ops))).
Proof.
  intros H. destruct (net_inv files seed seed_ok files_ok throws ops noise_ok short_ok ids_ok) as [G I]. apply (i_ev _ _ _ _ _ I) in H. cbn [justified] in H.
  destruct H as [g [Hg [-> Hd]]]. pose proof (i_good _ _ _ _ _ I _ _ Hg) as [Go [Hs [Ha _]]]. exists (t_type g), (t_path g), (t_rest g), (t_size g). split.
  - pose proof (i_start _ _ _ _ _ I _ _ Hg) as Hm. unfold smsg in Hm. rewrite Ha in Hm. exact Hm.
  - destruct Go as [[T Go]|[T _]]; [left|right]; (split; [exact T|]).
    + split; [exact Go|]. eexists _, _, _. split; [apply (proj1 Hd T)|]. split; [apply normal_clean|apply content_clean; assumption].
    + eexists. apply (proj2 Hd T).
Qed.
End Results.

(* ---- C81: only data bytes are sent ---- *)
Definition tx_seven (t : tx) : Prop := seven (t_id t) /\ seven [t_type t].
Definition ev_seven (e : bev) : Prop := match e with Sysex m => seven m | _ => True end.
Definition br_seven (b : bridge) : Prop := Forall tx_seven (b_tx b) /\ Forall (fun r => seven (r_id r)) (b_rx b).
Definition out_seven (r : bridge * list bev * option berr) : Prop := br_seven (fst (fst r)) /\ Forall ev_seven (snd (fst r)).
Lemma seven_app a b : seven a -> seven b -> seven (a ++ b). Proof. intros A B. apply Forall_app. auto. Qed.
Lemma framed_seven c p : 0 <= c < 128 -> seven p -> seven (framed c p).
Proof. intros Hc Hp. constructor; [exact Hc|]. apply seven_app; [apply checksum_seven|exact Hp]. Qed.
Lemma filter_all {A} (P : A -> Prop) f l : Forall P l -> Forall P (filter f l).
Proof. intros H. rewrite Forall_forall in *. intros x Hx. apply filter_In in Hx. apply H, Hx. Qed.
Lemma cleanup_seven now b : br_seven b -> br_seven (cleanup now b). Proof. intros [A B]. split; apply filter_all; assumption. Qed.
Lemma chunk_seven now t t1 ev : tx_seven t -> send_chunk now t = (t1, ev) -> tx_seven t1 /\ Forall ev_seven ev.
Proof.
  intros [A B] E. unfold send_chunk in E. apply pair_equal_spec in E. destruct E as [<- <-]. split; [split; assumption|]. constructor; [exact I|]. constructor; [|constructor]. cbn [ev_seven]. apply framed_seven; [lia|].
  apply seven_app; [exact A|]. apply seven_app; [apply number2bytes_seven|apply pack_seven].
Qed.
Lemma start_seven now path msg size type b : 0 <= type < 128 -> br_seven b -> br_seven (fst (start_send now path msg size type b)) /\ Forall ev_seven (snd (start_send now path msg size type b)).
Proof.
  intros Ht Hb. unfold start_send. set (t := mkTx _ _ _ _ _ _ _ _). assert (tx_seven t) as T by (split; [apply number2bytes_seven|constructor; [exact Ht|constructor]]).
  destruct (send_chunk now t) as [t1 ev] eqn:E. destruct (chunk_seven _ _ _ _ T E) as [T1 Hev]. destruct (cleanup_seven now b Hb) as [A B]. cbn [fst snd]. split; [split|].
  - cbn [b_tx]. unfold tx_put. apply Forall_app. split; [apply filter_all, A|constructor; [exact T1|constructor]].
  - exact B.
  - constructor; [|exact Hev]. cbn [ev_seven]. apply framed_seven; [lia|]. apply seven_app; [apply number2bytes_seven|]. apply seven_app; [constructor; [exact Ht|constructor]|].
    apply seven_app; [apply number2bytes_seven|apply pack_seven].
Qed.
Lemma string_seven now path msg size type b : 0 <= type < 128 -> br_seven b -> out_seven (send_string now path msg size type b).
Proof.
  intros Ht Hb. unfold send_string. destruct msg as [|u msg]; [split; [exact Hb|constructor]|]. destruct (size <? 1); [split; [exact Hb|constructor]|].
  pose proof (start_seven now path (u :: msg) size type b Ht Hb) as H. destruct (start_send now path (u :: msg) size type b). exact H.
Qed.
Lemma file_seven fs now path size b : br_seven b -> out_seven (send_file fs now path size b).
Proof.
  intros Hb. unfold send_file. destruct path as [|u path]; [split; [exact Hb|constructor]|]. destruct (size <? 1); [split; [exact Hb|constructor]|].
  destruct (fs (u :: path)) as [d|]; [|split; [exact Hb|constructor]].
  pose proof (start_seven now (u :: path) d size 0 b ltac:(lia) Hb) as H. destruct (start_send now (u :: path) d size 0 b). exact H.
Qed.
Lemma dispatch_seven fs now m b : seven m -> br_seven b -> out_seven (dispatch fs now m b).
Proof.
  intros Hm Hb. unfold dispatch. assert (forall e, out_seven (b, [], e)) as Same by (intros e; split; [exact Hb|constructor]).
  assert (forall n l, seven l -> seven (firstn n l)) as F by (intros n l Hl; unfold seven in *; rewrite Forall_forall in *; intros x Hx; apply Hl, (firstn_incl n), Hx).
  assert (forall n l, seven l -> seven (skipn n l)) as K by (intros n l Hl; unfold seven in *; rewrite Forall_forall in *; intros x Hx; apply Hl, (skipn_incl n), Hx).
  destruct (negb _); [apply Same|]. destruct (bytes_eqb _ [1]); [apply file_seven, Hb|]. set (i := firstn 4 (skipn 4 m)). assert (seven i) as Hi by (apply F, K, Hm).
  generalize (skipn 4 (skipn 4 m)). intros p. destruct Hb as [A B]. destruct (bytes_eqb _ [2]); [|destruct (bytes_eqb _ [3]); [|destruct (bytes_eqb _ [4]); [|apply Same]]].
  - unfold receive_start. split; cbn [fst snd]; [|constructor; [exact I|constructor]]. destruct (cleanup_seven now b (conj A B)) as [A1 B1]. split; [exact A1|].
    cbn [b_rx]. unfold rx_put. apply Forall_app. split; [apply filter_all, B1|constructor; [exact Hi|constructor]].
  - unfold receive_data. destruct (rx_get i (b_rx b)) as [t|] eqn:E; [|apply Same]. apply rx_get_in in E. destruct E as [E1 E2]. destruct (negb _); [apply Same|].
    assert (seven (r_id t)) as Ht by (rewrite E2; exact Hi).
    assert (ev_seven (Sysex (framed 4 (r_id t ++ number2bytes (bytes2number (firstn 4 p)) 3)))) as Hev by (cbn [ev_seven]; apply framed_seven; [lia|]; apply seven_app; [exact Ht|apply number2bytes_seven]).
    assert (forall t1, r_id t1 = r_id t -> br_seven (mkB (b_tx b) (map (fun x => if bytes_eqb (r_id x) i then t1 else x) (b_rx b)) (b_next b))) as Hmap.
    { intros t1 H1. split; [exact A|]. cbn [b_rx]. rewrite Forall_forall in *. intros x Hx. apply in_map_iff in Hx. destruct Hx as [y [<- Hy]]. destruct (bytes_eqb (r_id y) i); [rewrite H1; exact Ht|apply B, Hy]. }
    assert (br_seven (mkB (b_tx b) (rx_del (r_id t) (b_rx b)) (b_next b))) as Hdel by (split; [exact A|apply filter_all, B]).
    destruct (_ =? _); [|split; [apply Hmap; reflexivity|cbn [fst snd app]; repeat (apply Forall_cons; [first [exact Hev|exact I]|]); apply Forall_nil]].
    destruct (bytes_eqb (r_type t) [0]); [split; [exact Hdel|cbn [fst snd app]; repeat (apply Forall_cons; [first [exact Hev|exact I]|]); apply Forall_nil]|]. destruct (bytes_eqb (r_type t) [1]); [split; [exact Hdel|cbn [fst snd app]; repeat (apply Forall_cons; [first [exact Hev|exact I]|]); apply Forall_nil]|].
    split; [apply Hmap; reflexivity|cbn [fst snd app]; repeat (apply Forall_cons; [first [exact Hev|exact I]|]); apply Forall_nil].
  - unfold receive_ack. destruct (tx_get i (b_tx b)) as [t|] eqn:E; [|apply Same]. apply tx_get_in in E. destruct E as [E1 E2]. destruct (negb _); [apply Same|].
    destruct (_ =? _); [split; [split; [apply filter_all, A|exact B]|repeat constructor]|]. destruct (send_chunk now t) as [t1 ev] eqn:Ec.
    assert (tx_seven t) as Ht by (rewrite Forall_forall in A; apply A, E1). destruct (chunk_seven _ _ _ _ Ht Ec) as [T1 Hev]. split; [|exact Hev]. split; [|exact B].
    cbn [b_tx fst]. rewrite Forall_forall in *. intros x Hx. apply in_map_iff in Hx. destruct Hx as [y [<- Hy]]. destruct (bytes_eqb (t_id y) i); [exact T1|apply A, Hy].
Qed.
Lemma receive_seven fs thr now man m b : seven m -> br_seven b -> out_seven (receive fs thr now man m b).
Proof.
  intros Hm Hb. unfold receive. destruct (negb _); [split; [exact Hb|constructor]|]. pose proof (dispatch_seven fs now m b Hm Hb) as H. destruct (dispatch fs now m b) as [[b1 ev] e].
  destruct e as [e|]; [|exact H]. destruct thr; [exact H|]. destruct H as [H1 H2]. pose proof (string_seven now [] (err_text e) 100 1 b1 ltac:(lia) H1) as H3.
  destruct (send_string now [] (err_text e) 100 1 b1) as [[b2 ev2] e2]. destruct H3 as [H3 H4]. split; [exact H3|]. cbn [fst snd]. apply Forall_app. split; assumption.
Qed.
Lemma sent_seven files throws seed ops : Forall data_bytes ops -> (forall s, br_seven (n_br (nrun files throws seed ops) s)) /\ Forall (fun e => ev_seven (snd e)) (n_log (nrun files throws seed ops)).
Proof.
  induction ops as [|ops o IH] using rev_ind_snoc; intros Hd; [split; [intros s; split; constructor|constructor]|].
  assert (nrun files throws seed (ops ++ [o]) = nstep files throws (nrun files throws seed ops) o) as -> by (unfold nrun; apply fold_left_app).
  apply Forall_app in Hd. destruct Hd as [Hd Ho]. inversion Ho as [|? ? Od _]. subst. destruct (IH Hd) as [Hb Hl]. set (n := nrun files throws seed ops) in *. clearbody n. clear IH Hd Ho.
  assert (forall s r, out_seven r -> (forall s0, br_seven (n_br (act n s r) s0)) /\ Forall (fun e => ev_seven (snd e)) (n_log (act n s r))) as Act.
  { intros s [[b ev] e] [H1 H2]. cbn [fst snd] in *. cbn [act n_br n_log]. split.
    - intros t. destruct (side_cases s t) as [->| ->]; [rewrite set_same; exact H1|rewrite set_other; apply Hb].
    - apply Forall_app. split; [exact Hl|]. rewrite Forall_forall in *. intros x Hx. apply in_map_iff in Hx. destruct Hx as [y [<- Hy]]. apply H2, Hy. }
  destruct o; cbn [nstep].
  - apply Act, string_seven; [lia|apply Hb].
  - apply Act, file_seven, Hb.
  - apply Act. unfold request. destruct path; [split; [apply Hb|constructor]|]. destruct (size <? 1); [split; [apply Hb|constructor]|]. split; [apply Hb|]. cbn [fst snd]. apply Forall_cons; [|apply Forall_nil]. cbn [ev_seven].
    apply framed_seven; [lia|]. apply seven_app; [apply number2bytes_seven|apply pack_seven].
  - destruct (nth_error (wire (other s) (n_log n)) k) as [m|] eqn:Em; [|split; assumption]. apply nth_error_In, wire_in in Em. apply Act, receive_seven; [|apply Hb].
    rewrite Forall_forall in Hl. apply (Hl _ Em).
  - apply Act, receive_seven; [exact Od|apply Hb].
Qed.

(* ---- C82: every message is framed; damage is detected ---- *)
Definition ev_framed (e : bev) : Prop := match e with Sysex m => exists c p, m = framed c p | _ => True end.
Lemma chunk_framed now t : Forall ev_framed (snd (send_chunk now t)).
Proof. unfold send_chunk. cbn [snd]. apply Forall_cons; [exact I|]. apply Forall_cons; [|apply Forall_nil]. cbn [ev_framed]. eauto. Qed.
Lemma start_framed now path msg size type b : Forall ev_framed (snd (start_send now path msg size type b)).
Proof.
  unfold start_send. set (t := mkTx _ _ _ _ _ _ _ _). pose proof (chunk_framed now t) as H. destruct (send_chunk now t). cbn [snd] in *. constructor; [|exact H]. cbn [ev_framed]. eauto.
Qed.
Lemma string_framed now path msg size type b : Forall ev_framed (snd (fst (send_string now path msg size type b))).
Proof.
  unfold send_string. destruct msg as [|u msg]; [constructor|]. destruct (size <? 1); [constructor|]. pose proof (start_framed now path (u :: msg) size type b) as H. destruct (start_send _ _ _ _ _ _). exact H.
Qed.
Lemma file_framed fs now path size b : Forall ev_framed (snd (fst (send_file fs now path size b))).
Proof.
  unfold send_file. destruct path as [|u path]; [constructor|]. destruct (size <? 1); [constructor|]. destruct (fs (u :: path)) as [d|]; [|constructor].
  pose proof (start_framed now (u :: path) d size 0 b) as H. destruct (start_send _ _ _ _ _ _). exact H.
Qed.
Lemma receive_framed fs thr now man m b : Forall ev_framed (snd (fst (receive fs thr now man m b))).
Proof.
  unfold receive. destruct (negb _); [constructor|]. assert (Forall ev_framed (snd (fst (dispatch fs now m b)))) as H.
  { unfold dispatch. destruct (negb _); [constructor|]. destruct (bytes_eqb _ [1]); [apply file_framed|]. destruct (bytes_eqb _ [2]); [repeat constructor|]. destruct (bytes_eqb _ [3]).
    - unfold receive_data. destruct (rx_get _ _); [|constructor]. destruct (negb _); [constructor|].
      destruct (_ =? _); [destruct (bytes_eqb _ [0]); [|destruct (bytes_eqb _ [1])]|]; cbn [fst snd app]; repeat (apply Forall_cons; [cbn [ev_framed]; eauto|]); apply Forall_nil.
    - destruct (bytes_eqb _ [4]); [|constructor]. unfold receive_ack. destruct (tx_get _ _) as [t|]; [|constructor]. destruct (negb _); [constructor|]. destruct (_ =? _); [repeat constructor|].
      pose proof (chunk_framed now t) as Hc. destruct (send_chunk now t). exact Hc. }
  destruct (dispatch fs now m b) as [[b1 ev] [e|]]; [|exact H]. destruct thr; [exact H|]. pose proof (string_framed now [] (err_text e) 100 1 b1) as H2.
  destruct (send_string _ _ _ _ _ _) as [[b2 ev2] e2]. cbn [fst snd] in *. apply Forall_app. split; assumption.
Qed.
Lemma all_framed files throws seed ops s m : In (s, Sysex m) (n_log (nrun files throws seed ops)) -> exists c p, m = framed c p.
Proof.
  assert (Forall (fun e => ev_framed (snd e)) (n_log (nrun files throws seed ops))) as H.
  { induction ops as [|ops o IH] using rev_ind_snoc; [constructor|].
    assert (nrun files throws seed (ops ++ [o]) = nstep files throws (nrun files throws seed ops) o) as -> by (unfold nrun; apply fold_left_app). set (n := nrun files throws seed ops) in *. clearbody n.
    assert (forall s r, Forall ev_framed (snd (fst r)) -> Forall (fun e => ev_framed (snd e)) (n_log (act n s r))) as Act.
    { intros s0 [[b ev] e] H. cbn [fst snd] in *. cbn [act n_log]. apply Forall_app. split; [exact IH|]. rewrite Forall_forall in *. intros x Hx. apply in_map_iff in Hx. destruct Hx as [y [<- Hy]]. apply H, Hy. }
    destruct o; cbn [nstep].
    - apply Act, string_framed.
    - apply Act, file_framed.
    - apply Act. unfold request. destruct path; [constructor|]. destruct (size <? 1); [constructor|]. cbn [fst snd]. apply Forall_cons; [|apply Forall_nil]. cbn [ev_framed]. eauto.
    - destruct (nth_error _ _); [apply Act, receive_framed|exact IH].
    - apply Act, receive_framed. }
  intros Hi. rewrite Forall_forall in H. apply (H _ Hi).
Qed.

Lemma damaged_sum c p m : damaged (framed c p) m -> checksum (skipn 4 m) <> firstn 3 (skipn 1 m).
Proof.
  intros D. pose proof (framed_parts c p) as [_ [F2 F3]]. remember (framed c p) as f eqn:Ef. destruct D as [h t x x' Hh Hs Hx|h t x y x' y' Hh Hs Hx|c0 t u u' v v' w w' Hne].
  - assert (forall z, skipn 4 (h ++ z) = skipn 4 h ++ z) as Sk by (intros z; rewrite skipn_app; replace (4 - length h)%nat with 0%nat by lia; reflexivity).
    assert (forall z, firstn 3 (skipn 1 (h ++ z)) = firstn 3 (skipn 1 h)) as Fk by (intros z; destruct h as [|? [|? [|? [|? h]]]]; cbn in Hh; try lia; reflexivity).
    rewrite Sk in *. rewrite Fk in *. intros E. rewrite F2, <- F3 in E. apply Hx. apply (checksum_one (skipn 4 h) t); auto.
  - assert (forall z, skipn 4 (h ++ z) = skipn 4 h ++ z) as Sk by (intros z; rewrite skipn_app; replace (4 - length h)%nat with 0%nat by lia; reflexivity).
    assert (forall z, firstn 3 (skipn 1 (h ++ z)) = firstn 3 (skipn 1 h)) as Fk by (intros z; destruct h as [|? [|? [|? [|? h]]]]; cbn in Hh; try lia; reflexivity).
    rewrite Sk in *. rewrite Fk in *. intros E. rewrite F2, <- F3 in E. symmetry in E. apply (checksum_pair (skipn 4 h) t) in E; [|exact Hs]. destruct E, Hx; contradiction.
  - cbn [skipn firstn] in *. intros E. apply Hne. congruence.
Qed.
Lemma damaged_rejected c p m fs now b : damaged (framed c p) m -> receive fs true now MANUFACTURER m b = (b, [], Some BadChecksum) /\
  receive fs false now MANUFACTURER m b = send_string now [] (err_text BadChecksum) 100 1 b.
Proof.
  intros D. apply damaged_sum in D. unfold receive. assert (bytes_eqb MANUFACTURER MANUFACTURER = true) as -> by reflexivity. cbn [negb]. unfold dispatch.
  destruct (bytes_eqb (checksum (skipn 4 m)) (firstn 3 (skipn 1 m))) eqn:E; [apply bytes_eqb_spec in E; contradiction|]. cbn [negb]. split; [reflexivity|].
  destruct (send_string _ _ _ _ _ _) as [[b2 ev2] e2]. reflexivity.
Qed.
Lemma intact c p fs now b : snd (receive fs true now MANUFACTURER (framed c p) b) <> Some BadChecksum.
Proof.
  unfold receive. assert (bytes_eqb MANUFACTURER MANUFACTURER = true) as -> by reflexivity. cbn [negb]. rewrite dispatch_framed.
  assert (forall path size, snd (send_file fs now path size b) <> Some BadChecksum) as F.
  { intros path size. unfold send_file. destruct path; [discriminate|]. destruct (size <? 1); [discriminate|]. destruct (fs _); [|discriminate]. destruct (start_send _ _ _ _ _ _). discriminate. }
  destruct (bytes_eqb [c] [1]); [specialize (F (bytes2string (skipn 4 p)) (bytes2number (firstn 4 p))); destruct (send_file _ _ _ _ _) as [[? ?] [?|]]; exact F|].
  destruct (bytes_eqb [c] [2]); [discriminate|]. destruct (bytes_eqb [c] [3]).
  - unfold receive_data. destruct (rx_get _ _); [|discriminate]. destruct (negb _); [discriminate|]. destruct (_ =? _); [destruct (bytes_eqb _ [0]); [|destruct (bytes_eqb _ [1])]|]; discriminate.
  - destruct (bytes_eqb [c] [4]); [|discriminate]. unfold receive_ack. destruct (tx_get _ _) as [t|]; [|discriminate]. destruct (negb _); [discriminate|]. destruct (_ =? _); [discriminate|].
    destruct (send_chunk now t). discriminate.
Qed.
