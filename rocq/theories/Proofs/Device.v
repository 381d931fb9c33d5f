(* Lemmas for C85. *)
From Verif.Lib Require Import Base.
From Verif.Model Require Import Midi Bridge Device.
From Verif.Spec Require Import Bridge Device.
From Verif.Proofs Require Import Protocol BridgeCodec BridgeNet BridgeFifo BridgeOrder.
Local Open Scope list_scope.

Lemma forall2_impl {A B} (R S : A -> B -> Prop) l l' : (forall x y, R x y -> S x y) -> Forall2 R l l' -> Forall2 S l l'.
Proof. intros I F. induction F; constructor; auto. Qed.
(* ---- lists of calls ---- *)
Definition entry := (nat * (call * option outcome))%type.
Definition indexed (l : list (call * option outcome)) : list entry := combine (seq 0 (length l)) l.
Lemma filter_all {A} (p : A -> bool) l : (forall x, In x l -> p x = true) -> filter p l = l.
Proof. induction l as [|x l IH]; intros E; [reflexivity|]. cbn. rewrite (E x) by (left; reflexivity). f_equal. apply IH. intros y Hy. apply E. right. exact Hy. Qed.
Lemma combine_app {A B} (a a' : list A) (b b' : list B) : length a = length b -> combine (a ++ a') (b ++ b') = combine a b ++ combine a' b'.
Proof. revert b. induction a as [|x a IH]; intros [|y b] E; try discriminate; [reflexivity|]. cbn. rewrite IH; [reflexivity|]. injection E as E. exact E. Qed.
Lemma indexed_snoc l x : indexed (l ++ [x]) = indexed l ++ [(length l, x)].
Proof. unfold indexed. rewrite app_length, Nat.add_1_r, seq_S, combine_app by (rewrite seq_length; reflexivity). reflexivity. Qed.
Lemma indexed_in l k x : In (k, x) (indexed l) <-> nth_error l k = Some x.
Proof.
  induction l as [|l y IH] using rev_ind_snoc.
  - cbn. split; [intros []|]. destruct k; discriminate.
  - rewrite indexed_snoc, in_app_iff, IH. cbn. split.
    + intros [E|[E|[]]]; [rewrite nth_error_app1; [exact E|]; apply nth_error_Some; congruence|]. injection E as <- <-. rewrite nth_error_app2, Nat.sub_diag by apply Nat.le_refl. reflexivity.
    + intros E. destruct (Nat.lt_ge_cases k (length l)) as [L|L]; [left; rewrite nth_error_app1 in E by exact L; exact E|right; left].
      rewrite nth_error_app2 in E by exact L. destruct (k - length l)%nat eqn:D; [|destruct n; discriminate]. cbn in E. injection E as <-. f_equal. lia.
Qed.
Definition is_save (c : call) : bool := match c with CSave _ _ => true | _ => false end.
Definition asks (v : device) : list entry := filter (fun x => negb (is_save (fst (snd x)))) (indexed (v_calls v)).
Definition saves (v : device) : list entry := filter (fun x => is_save (fst (snd x))) (indexed (v_calls v)).
Definition open (x : entry) : Prop := snd (snd x) = None.
(* only the last call can be open *)
Definition one_open (v : device) : Prop := exists old lst, v_calls v = old ++ lst /\ Forall (fun x => snd x <> None) old /\ (lst = [] \/ exists c, lst = [(c, None)]).

Lemma only_last (P : entry -> bool) v pre x post : one_open v -> filter P (indexed (v_calls v)) = pre ++ x :: post -> open x ->
  post = [] /\ exists old, v_calls v = old ++ [snd x] /\ fst x = length old /\ Forall (fun x => snd x <> None) old /\ filter P (indexed old) = pre.
Proof.
  intros [old [lst [E [Ho Hl]]]] F Hx.
  assert (forall l, Forall (fun x => snd x <> None) l -> forall y, In y (filter P (indexed l)) -> ~ open y) as No.
  { intros l Hl' [k y] Hy O. apply filter_In in Hy. destruct Hy as [Hy _]. apply indexed_in, nth_error_In in Hy. rewrite Forall_forall in Hl'. apply (Hl' _ Hy), O. }
  destruct Hl as [->|[c ->]].
  - exfalso. rewrite app_nil_r in E. rewrite E in F. apply (No old Ho x); [rewrite F; apply in_elt|exact Hx].
  - rewrite E, indexed_snoc, filter_app in F. cbn [filter] in F. destruct (P (length old, (c, None))) eqn:Pc.
    + destruct post as [|y post].
      * apply app_inj_tail in F. destruct F as [F <-]. split; [reflexivity|]. exists old. auto.
      * exfalso. assert (y :: post <> []) as Ne by discriminate. destruct (exists_last Ne) as [post' [z Ez]]. rewrite Ez in F. change (pre ++ x :: post' ++ [z]) with (pre ++ (x :: post') ++ [z]) in F. rewrite app_assoc in F.
        apply app_inj_tail in F. destruct F as [F _]. apply (No old Ho x); [rewrite F; apply in_elt|exact Hx].
    + exfalso. rewrite app_nil_r in F. apply (No old Ho x); [rewrite F; apply in_elt|exact Hx].
Qed.
Lemma settle_last old c o : settle (length old) o (old ++ [(c, None)]) = old ++ [(c, Some o)].
Proof. induction old as [|[d r] old IH]; [reflexivity|]. cbn. rewrite IH. reflexivity. Qed.

Lemma since_here l ev : since Here l (l ++ map (pair Here) ev) = ev.
Proof. unfold since. rewrite skipn_app, skipn_all, Nat.sub_diag. cbn [skipn app]. induction ev as [|e ev IH]; [reflexivity|]. cbn [map flat_map fst snd]. rewrite IH. reflexivity. Qed.
Lemma since_there l ev : since Here l (l ++ map (pair There) ev) = [].
Proof. unfold since. rewrite skipn_app, skipn_all, Nat.sub_diag. cbn [skipn app]. induction ev as [|e ev IH]; [reflexivity|]. cbn [map flat_map fst snd]. rewrite IH. reflexivity. Qed.
Lemma since_none l : since Here l l = []. Proof. unfold since. rewrite skipn_all. reflexivity. Qed.

(* ---- the invariant ---- *)
Section Device.
Variable files : side -> Z -> list Z -> option (list Z).
Variable throws : side -> Z -> bool.
Variable seed : side -> Z.
Hypothesis seed_ok : forall s, 0 <= seed s < 16777216.
Hypothesis files_ok : short_files files.
Hypothesis files_full : forall s now path, files s now path <> Some [].
Hypothesis polite : forall now, throws There now = false.
Notation FInv := (FInv files seed).
Notation drun := (drun files throws seed).
Let ord_keep' := ord_keep files throws seed seed_ok files_full.
Let ord_quiet' := ord_quiet files throws seed seed_ok files_full.
Let ord_start' := ord_start files throws seed seed_ok files_full.
Let ord_taken' := ord_taken files throws seed seed_ok files_full.
Let ord_next' := ord_next files throws seed seed_ok files_full.
Let cn_facts' := cn_facts files throws seed seed_ok files_full.
Let head_data' := head_data files throws seed seed_ok files_full.
Let head_ack' := head_ack files throws seed seed_ok files_full.
Let ids_nodup' := ids_nodup files throws seed seed_ok files_full.
Let cn_same' := cn_same files throws seed seed_ok files_full.
Let cn_other' := cn_other files throws seed seed_ok files_full.
Let pending_same' := pending_same files throws seed files_full.

Definition ask_path (c : call) : list Z := match c with CConnect => PING | CLoad p => p | CSave _ _ => [] end.
Definition joined (size : Z) (msg : list Z) : list Z := flat_map (fun j => normal (piece size msg j)) (seq 0 (Z.to_nat (amount_of size msg))).
Definition saved (x : entry) : list (list Z * list Z) := match fst (snd x) with CSave p c => [(normal p, joined CHUNK_SEND c)] | _ => [] end.
Definition reply (now : Z) (path : list Z) (g : tx) : Prop :=
  t_size g = CHUNK_REQUEST /\
  ((exists msg, files There now path = Some msg /\ t_type g = 0 /\ t_path g = path /\ t_rest g = msg) \/
   (exists x, t_type g = 1 /\ t_rest g = err_text x /\ (path <> [] -> x = NoFile /\ files There now path = None))).
Definition replied (ops : list dop) (x : entry) (g : tx) : Prop :=
  exists a now b, ops = a ++ DNext There now :: b /\ length (v_calls (d_dev (drun a))) = S (fst x) /\ reply now (normal (ask_path (fst (snd x)))) g /\
    obtained There (n_log (f_net (d_net (drun a)))) = flat_map saved (indexed (v_calls (d_dev (drun a)))).
Definition answer (c : call) (g : tx) : outcome :=
  match c with CConnect => Connected | _ => if t_type g =? 0 then Loaded (content g (t_amount g)) else Failed (content g (t_amount g)) end.
Definition save_of (f : fnet) (x : entry) (g : tx) : Prop :=
  exists p c, fst (snd x) = CSave p c /\ t_path g = p /\ t_rest g = c /\ t_size g = CHUNK_SEND /\ t_type g = 0 /\ snd (snd x) = (if 2 * t_amount g <=? cn f Here g then Some Saved else None).

(* no start and no part behind a request *)
Definition tail_quiet (l : list (list Z)) : Prop := forall a m b, l = a ++ m :: b -> req m = true -> forall x, In x b -> isfwd x = false.

Record DInv (ops : list dop) (v : device) (f : fnet) (G : ghosts) : Prop := mkDInv {
  i_f : FInv (map fop_of ops) G f;
  i_o : Ord G f;
  i_one : one_open v;
  i_off : v_calls v = [] -> v_on v = false;
  i_asks : exists B1 B2, asks v = B1 ++ B2 /\ Forall2 (fun x g => replied ops x g /\ snd (snd x) = (if closed f There g then Some (answer (fst (snd x)) g) else None)) B1 (G There) /\
    Forall open B2 /\ filter req (pending f Here) = map (fun x => rmsg CHUNK_REQUEST (ask_path (fst (snd x)))) B2;
  i_noreq : filter req (pending f There) = [];
  i_saves : Forall2 (save_of f) (saves v) (G Here);
  i_tail : tail_quiet (pending f Here);
  i_cb old c : v_calls v = old ++ [(c, None)] -> match c with CConnect => v_finish v = CbPing (length old) /\ v_error v = CbPing (length old)
    | CLoad _ => v_finish v = CbCall (length old) /\ v_error v = CbCall (length old) | CSave _ _ => v_send v = CbCall (length old) end }.

Lemma dinv_ext ops v f f' G : (forall s, f_taken f s = f_taken f' s) -> f_net f = f_net f' -> DInv ops v f G -> DInv ops v f' G.
Proof.
  intros Ht En [A B C D E F I J K]. assert (forall s, pending f' s = pending f s) as Ep by (intros s; unfold pending; rewrite <- Ht, <- En; reflexivity).
  assert (forall s g, cn f' s g = cn f s g) as Ec by (intros s g; unfold cn; rewrite <- En; reflexivity).
  assert (forall s g, closed f' s g = closed f s g) as Ecl by (intros s g; unfold closed; rewrite Ec; reflexivity).
  constructor; auto.
  - eapply finv_ext; eauto.
  - apply (ord_keep' G f); auto.
    + intros s. rewrite Ep. reflexivity.
    + intros s g _. unfold block. rewrite Ep. reflexivity.
    + intros s g _. rewrite Ec. split; [lia|apply Ecl].
    + intros s. rewrite En. reflexivity.
  - destruct E as [B1 [B2 [E1 [E2 [E3 E4]]]]]. exists B1, B2. rewrite Ep. split; [exact E1|]. split; [|auto]. eapply forall2_impl; [|exact E2]. cbn. intros x g. rewrite Ecl. auto.
  - rewrite Ep. exact F.
  - eapply forall2_impl; [|exact I]. intros x g [p [c R]]. exists p, c. rewrite Ec. exact R.
  - rewrite Ep. exact J.
Qed.
Lemma tail_pop k l : tail_quiet l -> tail_quiet (skipn k l).
Proof. intros T a m b E. apply (T (firstn k l ++ a)). rewrite <- app_assoc, <- E. symmetry. apply firstn_skipn. Qed.
Lemma tail_noreq l : filter req l = [] -> tail_quiet l.
Proof. intros F a m b -> Hm. exfalso. assert (In m (filter req (a ++ m :: b))) as Q by (apply filter_In; split; [apply in_elt|exact Hm]). rewrite F in Q. destruct Q. Qed.
Lemma tail_add l n : tail_quiet l -> (forall x, In x n -> isfwd x = false) -> tail_quiet (l ++ n).
Proof.
  intros T Hn a m b E Hm x Hx. destruct (Nat.lt_ge_cases (length a) (length l)) as [L|L].
  - assert (exists b', l = a ++ m :: b' /\ b = b' ++ n) as [b' [El ->]].
    { clear -E L. revert a E L. induction l as [|y l IH]; intros a E L; [cbn in L; lia|]. destruct a as [|z a]; cbn in E; injection E as -> E; [exists l; auto|]. cbn in L. destruct (IH a E ltac:(lia)) as [b' [-> ->]]. exists b'. auto. }
    apply in_app_or in Hx. destruct Hx as [Hx|Hx]; [eapply T; eauto|auto].
  - assert (exists a', n = a' ++ m :: b) as [a' ->].
    { clear -E L. revert a E L. induction l as [|y l IH]; intros a E L; [exists a; exact E|]. destruct a as [|z a]; [cbn in L; lia|]. cbn in E. injection E as _ E. cbn in L. apply (IH a E). lia. }
    apply Hn. apply in_or_app. right. right. exact Hx.
Qed.
Lemma replied_mono ops o x g : replied ops x g -> replied (ops ++ [o]) x g.
Proof. intros [a [now [b [E R]]]]. exists a, now, (b ++ [o]). rewrite E, <- app_assoc. auto. Qed.
Lemma forall2_at {A B} (R : A -> B -> Prop) l l' y : Forall2 R l l' -> In y l' -> exists a x b a' b', l = a ++ x :: b /\ l' = a' ++ y :: b' /\ Forall2 R a a' /\ R x y /\ Forall2 R b b'.
Proof.
  intros F Hy. apply in_split in Hy. destruct Hy as [a' [b' ->]]. apply Forall2_app_inv_r in F. destruct F as [a [l2 [F1 [F2 ->]]]]. inversion F2. subst. eexists a, _, _, a', b'. eauto 10.
Qed.

Section Step.
Variable ops : list dop.
Variable v : device.
Variable f : fnet.
Variable G : ghosts.
Hypothesis H : DInv ops v f G.

Lemma sent_all : (forall x, In x (saves v) -> ~ open x) -> forall g, In g (G Here) -> allsent f Here g.
Proof.
  intros N g Hg. destruct (forall2_at _ _ _ _ (i_saves _ _ _ _ H) Hg) as [a [x [b [a' [b' [E [_ [_ [[p [c [_ [_ [_ [_ [_ S]]]]]]] _]]]]]]]]].
  unfold allsent. destruct (Z.leb_spec (2 * t_amount g) (cn f Here g)); [assumption|]. exfalso. apply (N x); [rewrite E; apply in_elt|exact S].
Qed.
Lemma closed_all : (forall x, In x (asks v) -> ~ open x) -> filter req (pending f Here) = [] /\ (forall g, In g (G There) -> closed f There g = true).
Proof.
  intros N. destruct (i_asks _ _ _ _ H) as [B1 [B2 [E [F [O P]]]]]. split.
  - rewrite P. destruct B2 as [|x B2]; [reflexivity|]. exfalso. apply Forall_cons_iff in O. apply (N x); [rewrite E; apply in_elt|apply O].
  - intros g Hg. destruct (forall2_at _ _ _ _ F Hg) as [a [x [b [a' [b' [E1 [_ [_ [[_ S] _]]]]]]]]]. destruct (closed f There g) eqn:C; [reflexivity|].
    exfalso. apply (N x); [rewrite E, E1, <- app_assoc; apply in_elt|exact S].
Qed.
Lemma not_open P l : Forall (fun x => snd x <> None) l -> forall x : entry, In x (filter P (indexed l)) -> ~ open x.
Proof. intros Hl [k y] Hy O. apply filter_In in Hy. destruct Hy as [Hy _]. apply indexed_in, nth_error_In in Hy. rewrite Forall_forall in Hl. apply (Hl _ Hy), O. Qed.
(* a transmission of the editor which is not completely sent belongs to the last call *)
Lemma sending_last g : In g (G Here) -> ~ allsent f Here g -> exists old p c pre, v_calls v = old ++ [(CSave p c, None)] /\ Forall (fun x => snd x <> None) old /\ G Here = pre ++ [g] /\
  Forall2 (save_of f) (filter (fun x => is_save (fst (snd x))) (indexed old)) pre /\ save_of f (length old, (CSave p c, None)) g /\ t_path g = p /\ t_rest g = c.
Proof.
  intros Hg Na. destruct (forall2_at _ _ _ _ (i_saves _ _ _ _ H) Hg) as [a [x [b [a' [b' [E [E' [Fa [Hx Fb]]]]]]]]]. assert (open x) as Ox.
  { destruct Hx as [p [c [_ [_ [_ [_ [_ S]]]]]]]. unfold allsent in Na. unfold open. rewrite S. destruct (Z.leb_spec (2 * t_amount g) (cn f Here g)); [contradiction|reflexivity]. }
  destruct (only_last _ _ _ _ _ (i_one _ _ _ _ H) E Ox) as [-> [old [Eo [Ek [Ho Ef]]]]]. inversion Fb. subst b'. pose proof Hx as Hx'. destruct Hx as [p [c [Ec [Ep [Er _]]]]].
  destruct x as [k [c0 r]]. cbn in *. unfold open in Ox. cbn in Ox. subst. exists old, (t_path g), (t_rest g), a'. repeat split; auto.
Qed.
(* a transmission of the controller which is not complete answers the last call *)
Lemma waiting_last g : In g (G There) -> closed f There g = false -> exists old c pre, v_calls v = old ++ [(c, None)] /\ is_save c = false /\ Forall (fun x => snd x <> None) old /\ G There = pre ++ [g] /\
  filter req (pending f Here) = [] /\ Forall2 (fun x g => replied ops x g /\ snd (snd x) = (if closed f There g then Some (answer (fst (snd x)) g) else None)) (filter (fun x => negb (is_save (fst (snd x)))) (indexed old)) pre /\
  replied ops (length old, (c, None)) g.
Proof.
  intros Hg Nc. destruct (i_asks _ _ _ _ H) as [B1 [B2 [E [F [O P]]]]]. destruct (forall2_at _ _ _ _ F Hg) as [a [x [b [a' [b' [E1 [E' [Fa [[Hr S] Fb]]]]]]]]]. rewrite Nc in S.
  rewrite E1, <- app_assoc in E. cbn [app] in E. destruct (only_last _ _ _ _ _ (i_one _ _ _ _ H) E S) as [Eb [old [Eo [Ek [Ho Ef]]]]]. apply app_eq_nil in Eb. destruct Eb as [-> ->]. inversion Fb. subst b'.
  assert (In x (asks v)) as Hx by (rewrite E; apply in_elt). apply filter_In in Hx. destruct Hx as [_ Hx]. destruct x as [k [c r]]. cbn in *. subst r k. apply negb_true_iff in Hx.
  exists old, c, a'. repeat split; auto. unfold entry in *. rewrite Ef. exact Fa.
Qed.

(* nothing happens in the editor *)
Lemma step_keep o f' : FInv (map fop_of (ops ++ [o])) G f' -> Ord G f' -> (forall g, In g (G There) -> closed f' There g = closed f There g) ->
  (forall g, In g (G Here) -> (2 * t_amount g <=? cn f' Here g) = (2 * t_amount g <=? cn f Here g)) -> filter req (pending f' Here) = filter req (pending f Here) -> filter req (pending f' There) = [] ->
  tail_quiet (pending f' Here) -> DInv (ops ++ [o]) v f' G.
Proof.
  intros A B C D E F T. destruct H as [_ _ H1 H2 [B1 [B2 [E1 [E2 [E3 E4]]]]] _ H3 _ H4]. constructor; auto.
  - exists B1, B2. rewrite E. split; [exact E1|]. split; [|auto]. clear -E2 C. induction E2 as [|x g l l' [R S] _ IH]; constructor; [|apply IH; intros y Hy; apply C; right; exact Hy].
    split; [apply replied_mono, R|]. rewrite C by (left; reflexivity). exact S.
  - clear -H3 D. induction H3 as [|x g l l' [p [c R]] _ IH]; constructor; [|apply IH; intros y Hy; apply D; right; exact Hy]. exists p, c. rewrite D by (left; reflexivity). exact R.
Qed.
Hypothesis Dv : drun ops = mkD v f.
Variable o : dop.
Let ops' := map fop_of (ops ++ [o]).

Lemma cn_quiet s b ev k t g : (forall m, In m (news s ev) -> req m = true) -> cn (facted f s b ev k) t g = cn f t g.
Proof.
  intros Hn. destruct (side_cases s t) as [->| ->]; [rewrite cn_same'|rewrite cn_other']; unfold cnt; rewrite filter_none; cbn; try lia; intros m Hm; apply Hn in Hm; unfold req in Hm; apply bytes_eqb_spec in Hm.
  - unfold fwd. rewrite Hm. reflexivity.
  - unfold bwd. rewrite Hm. reflexivity.
Qed.

Lemma f_now : FInv ops' G f.
Proof. eapply finv_ops; [|exact (i_f _ _ _ _ H)]. unfold ops'. rewrite map_app. apply incl_appl, incl_refl. Qed.
Lemma noreq_add s b ev k : (forall m, In m (news s ev) -> req m = false) -> filter req (pending (facted f s b ev k) s) = filter req (pending f s).
Proof. intros Hn. rewrite (pending_same' _ G) by exact f_now. rewrite filter_app, (filter_none _ (news s ev)), app_nil_r by exact Hn. reflexivity. Qed.
Lemma noreq_pop s b ev m rest : pending f (other s) = m :: rest -> req m = false -> filter req (pending (facted f s b ev 1) (other s)) = filter req (pending f (other s)).
Proof. intros Hp Hm. rewrite pending_other, Hp. cbn [skipn filter]. rewrite Hm. reflexivity. Qed.
(* all requests under way, after a step which sends none and takes none *)
Lemma reqs_keep s b ev m rest : pending f (other s) = m :: rest -> req m = false -> (forall m, In m (news s ev) -> req m = false) ->
  filter req (pending (facted f s b ev 1) Here) = filter req (pending f Here) /\ filter req (pending (facted f s b ev 1) There) = [].
Proof. intros Hp Hm Hn. rewrite <- (i_noreq _ _ _ _ H). destruct s; split; first [apply noreq_add; exact Hn|eapply noreq_pop; eassumption]. Qed.

(* a start arrives *)
Lemma step_start s b ev rest g p a : FInv ops' G (facted f s b ev 1) -> NoDup (map t_id (G (other s))) -> pending f (other s) = smsg g :: rest -> In g (G (other s)) -> ev = [RecvStart (t_id g) p a] -> DInv (ops ++ [o]) v (facted f s b ev 1) G.
Proof.
  intros HF N Hp Hg Ev. assert (news s ev = []) as Nw by (rewrite Ev; reflexivity). assert (forall t h, cn (facted f s b ev 1) t h = cn f t h) as Cn by (intros; apply cn_quiet; rewrite Nw; intros m []).
  pose proof (phase_len _ _ _ _ _ _ _ (f_inv _ _ _ _ _ (i_f _ _ _ _ H)) Hg) as L.
  destruct (ord_taken' _ G f s b ev _ rest g f_now (i_o _ _ _ _ H) HF N Hp Hg) as [O _].
  { rewrite fwd_smsg, eqb_refl by exact L. reflexivity. }
  { rewrite Nw. intros x []. }
  { left. unfold closed. rewrite Cn, Ev. auto. }
  destruct (reqs_keep s b ev _ _ Hp (req_smsg g)) as [R1 R2]; [rewrite Nw; intros m []|].
  apply step_keep; auto.
  - intros h _. unfold closed. rewrite Cn. reflexivity.
  - intros h _. rewrite Cn. reflexivity.
  - destruct s; [rewrite (pending_same' _ G) by exact f_now; rewrite Nw, app_nil_r; exact (i_tail _ _ _ _ H)|]. change Here with (other There). rewrite pending_other. apply tail_pop. exact (i_tail _ _ _ _ H).
Qed.
(* a part arrives *)
Lemma data_facts s b ev rest g k : FInv ops' G (facted f s b ev 1) -> NoDup (map t_id (G (other s))) -> pending f (other s) = dmsg g k :: rest -> In g (G (other s)) -> index_ok g k ->
  ev = [Sysex (amsg (t_id g) k); RecvProgress (t_id g) (normal (t_path g)) k (t_amount g)] ++ (if k =? t_amount g - 1 then [closing g] else []) ->
  news s ev = [amsg (t_id g) k] /\ Ord G (facted f s b ev 1) /\ (forall t h, In h (G t) -> (t = other s -> h <> g) -> cn (facted f s b ev 1) t h = cn f t h) /\ cn f (other s) g = 2 * k + 2 /\ cn (facted f s b ev 1) (other s) g = 2 * k + 3.
Proof.
  intros HF N Hp Hg Hk Ev. assert (is_closing (closing g) = true) as Ic by (unfold closing; destruct (t_type g =? 0); reflexivity).
  assert (news s ev = [amsg (t_id g) k]) as Nw. { rewrite Ev. unfold news, wire. destruct (k =? t_amount g - 1), s; try reflexivity; unfold closing; destruct (t_type g =? 0); reflexivity. }
  pose proof (phase_len _ _ _ _ _ _ _ (f_inv _ _ _ _ _ (i_f _ _ _ _ H)) Hg) as L. destruct (head_data' _ _ _ f_now _ _ _ _ Hg Hk Hp) as [Cg _].
  assert (cn (facted f s b ev 1) (other s) g = 2 * k + 3) as Cg'. { rewrite cn_other', Nw. unfold cnt. cbn [filter]. rewrite bwd_amsg, eqb_refl by exact L. cbn [length]. lia. }
  destruct (ord_taken' _ G f s b ev _ rest g f_now (i_o _ _ _ _ H) HF N Hp Hg) as [O Oth].
  { rewrite fwd_dmsg, eqb_refl by exact L. reflexivity. }
  { rewrite Nw. intros x [<-|[]]. eauto. }
  { unfold closed. rewrite Cg, Cg', Ev. destruct (Z.eqb_spec k (t_amount g - 1)) as [E|E]; cbn [filter is_closing app]; [right; rewrite Ic; repeat split; lia|left; split; [reflexivity|lia]]. }
  auto.
Qed.
Lemma cn_cases s b ev g k (x := facted f s b ev 1) : (forall t h, In h (G t) -> (t = other s -> h <> g) -> cn x t h = cn f t h) -> NoDup (map t_id (G (other s))) -> In g (G (other s)) -> cn f (other s) g = 2 * k + 2 -> cn x (other s) g = 2 * k + 3 ->
  forall t h, In h (G t) -> cn x t h = cn f t h \/ t = other s /\ h = g.
Proof.
  intros Oth N Hg _ _ t h Hh. destruct (side_cases s t) as [->| ->]; [left; apply Oth; [exact Hh|intros Q; exfalso; apply (other_neq s); auto]|].
  destruct (bytes_eqb (t_id h) (t_id g)) eqn:E; [right; apply bytes_eqb_spec in E; split; [reflexivity|eapply id_unique; eauto]|left]. apply Oth; [exact Hh|]. intros _ ->. rewrite eqb_refl in E. discriminate.
Qed.
Lemma step_data s b ev rest g k : FInv ops' G (facted f s b ev 1) -> NoDup (map t_id (G (other s))) -> pending f (other s) = dmsg g k :: rest -> In g (G (other s)) -> index_ok g k ->
  ev = [Sysex (amsg (t_id g) k); RecvProgress (t_id g) (normal (t_path g)) k (t_amount g)] ++ (if k =? t_amount g - 1 then [closing g] else []) ->
  (s = Here -> k <> t_amount g - 1) -> DInv (ops ++ [o]) v (facted f s b ev 1) G.
Proof.
  intros HF N Hp Hg Hk Ev Hs. destruct (data_facts _ _ _ _ _ _ HF N Hp Hg Hk Ev) as [Nw [O [Oth [Cg Cg']]]]. pose proof (cn_cases _ _ _ _ _ Oth N Hg Cg Cg') as Cases.
  destruct (reqs_keep s b ev _ _ Hp (req_dmsg g k)) as [R1 R2]; [rewrite Nw; intros m [<-|[]]; apply req_amsg|].
  apply step_keep; auto.
  - intros h Hh. unfold closed. destruct (Cases There h Hh) as [->|[Q ->]]; [reflexivity|]. destruct s; [|discriminate]. cbn [other] in *. rewrite Cg, Cg'. specialize (Hs eq_refl). lia.
  - intros h Hh. destruct (Cases Here h Hh) as [->|[Q ->]]; [reflexivity|]. destruct s; [discriminate|]. cbn [other] in *. rewrite Cg, Cg'. lia.
  - destruct s.
    + rewrite (pending_same' _ G) by exact f_now. rewrite Nw. apply tail_add; [exact (i_tail _ _ _ _ H)|]. intros x [<-|[]]. apply isfwd_amsg.
    + change Here with (other There). rewrite pending_other. apply tail_pop. exact (i_tail _ _ _ _ H).
Qed.
(* the last part of an answer arrives *)
Lemma step_answer b ev rest g k : FInv ops' G (facted f Here b ev 1) -> NoDup (map t_id (G There)) -> pending f There = dmsg g k :: rest -> In g (G There) -> index_ok g k ->
  ev = [Sysex (amsg (t_id g) k); RecvProgress (t_id g) (normal (t_path g)) k (t_amount g)] ++ (if k =? t_amount g - 1 then [closing g] else []) ->
  k = t_amount g - 1 -> DInv (ops ++ [o]) (on_event v (closing g)) (facted f Here b ev 1) G.
Proof.
  intros HF N Hp Hg Hk Ev Hl. change There with (other Here) in N, Hp, Hg. destruct (data_facts _ _ _ _ _ _ HF N Hp Hg Hk Ev) as [Nw [O [Oth [Cg Cg']]]]. pose proof (cn_cases _ _ _ _ _ Oth N Hg Cg Cg') as Cases. cbn [other] in *.
  destruct (waiting_last g Hg) as [old [c [pre [Ec [Hc [Ho [Eg [Hr [Fp Rp]]]]]]]]]; [unfold closed; lia|].
  destruct (reqs_keep Here b ev _ _ Hp (req_dmsg g k)) as [R1 R2]; [rewrite Nw; intros m [<-|[]]; apply req_amsg|].
  assert (v_calls (on_event v (closing g)) = old ++ [(c, Some (answer c g))]) as Ec'.
  { pose proof (i_cb _ _ _ _ H _ _ Ec) as Cb. unfold closing, on_event, answer. destruct (t_type g =? 0), c; try discriminate Hc; destruct Cb as [Cb1 Cb2]; rewrite ?Cb1, ?Cb2; unfold pinged, settled; cbn [v_calls]; rewrite Ec; apply settle_last. }
  constructor; auto.
  - exists (old ++ [(c, Some (answer c g))]), []. rewrite app_nil_r. split; [exact Ec'|]. split; [apply Forall_app; split; [exact Ho|constructor; [discriminate|constructor]]|left; reflexivity].
  - rewrite Ec'. intros Q. destruct old; discriminate.
  - exists (asks (on_event v (closing g))), []. rewrite app_nil_r, R1, Hr. split; [reflexivity|]. split; [|auto]. unfold asks. rewrite Ec', indexed_snoc, filter_app, Eg. apply Forall2_app.
    + assert (forall h, In h pre -> closed (facted f Here b ev 1) There h = closed f There h) as Cl.
      { intros h Hh. unfold closed. rewrite (Oth There h); [reflexivity|rewrite Eg; apply in_or_app; left; exact Hh|]. intros _ ->. apply (nodup_split t_id _ _ _ _ N Eg g); [left; exact Hh|reflexivity]. }
      remember (filter _ _) as L eqn:EL in Fp |- *. clear -Fp Cl. induction Fp as [|x h l l' [R S] _ IH]; constructor; [|apply IH; intros y Hy; apply Cl; right; exact Hy]. split; [apply replied_mono, R|]. rewrite Cl by (left; reflexivity). exact S.
    + cbn [filter fst snd]. rewrite Hc. cbn [negb]. constructor; [|constructor]. split; [apply replied_mono; exact Rp|]. cbn [fst snd]. unfold closed. rewrite Cg'. replace (2 * k + 3 =? 2 * t_amount g + 1) with true by lia. reflexivity.
  - unfold saves. rewrite Ec', indexed_snoc, filter_app. cbn [filter fst snd]. rewrite Hc, app_nil_r. pose proof (i_saves _ _ _ _ H) as S. unfold saves in S. rewrite Ec, indexed_snoc, filter_app in S. cbn [filter fst snd] in S. rewrite Hc, app_nil_r in S.
    assert (forall h, In h (G Here) -> cn (facted f Here b ev 1) Here h = cn f Here h) as Same by (intros h Hh; apply Oth; [exact Hh|discriminate]).
    clear -S Same. induction S as [|x h l l' [p [c R]] _ IH]; constructor; [|apply IH; intros y Hy; apply Same; right; exact Hy]. exists p, c. rewrite Same by (left; reflexivity). exact R.
  - apply tail_noreq. rewrite R1. exact Hr.
  - intros old' c' Q. rewrite Ec' in Q. apply app_inj_tail in Q. destruct Q as [_ Q]. discriminate.
Qed.

(* an acknowledgement arrives: the last one, or the next part of an answer is sent *)
Lemma ack_tail s b ev rest g k : pending f (other s) = amsg (t_id g) k :: rest -> (s = Here -> news s ev = []) -> tail_quiet (pending (facted f s b ev 1) Here).
Proof.
  intros Hp Hn. destruct s.
  - rewrite (pending_same' _ G) by exact f_now. rewrite (Hn eq_refl), app_nil_r. exact (i_tail _ _ _ _ H).
  - change Here with (other There). rewrite pending_other. apply tail_pop. exact (i_tail _ _ _ _ H).
Qed.
Lemma step_acked s b ev rest g k : FInv ops' G (facted f s b ev 1) -> pending f (other s) = amsg (t_id g) k :: rest -> ev = [AckAll (t_id g)] -> DInv (ops ++ [o]) v (facted f s b ev 1) G.
Proof.
  intros HF Hp Ev. assert (news s ev = []) as Nw by (rewrite Ev; reflexivity). assert (forall t h, cn (facted f s b ev 1) t h = cn f t h) as Cn by (intros; apply cn_quiet; rewrite Nw; intros m []).
  destruct (pending_head _ _ _ _ Hp) as [P1 _].
  assert (Ord G (facted f s b ev 1)) as O. { apply (ord_quiet' _ _ _ _ _ _ _ f_now (i_o _ _ _ _ H)); [rewrite Nw; intros m []|rewrite P1; intros m [<-|[]]; apply isfwd_amsg|rewrite Ev; reflexivity]. }
  destruct (reqs_keep s b ev _ _ Hp (req_amsg _ _)) as [R1 R2]; [rewrite Nw; intros m []|].
  apply step_keep; auto.
  - intros h _. unfold closed. rewrite Cn. reflexivity.
  - intros h _. rewrite Cn. reflexivity.
  - eapply ack_tail; eauto.
Qed.
Lemma next_facts s b ev rest g k : FInv ops' G (facted f s b ev 1) -> NoDup (map t_id (G s)) -> pending f (other s) = amsg (t_id g) k :: rest -> In g (G s) -> index_ok g k -> k <> t_amount g - 1 ->
  ev = [SendProgress (t_path g) (k + 1) (t_amount g) (t_type g =? 0); Sysex (dmsg g (k + 1))] ->
  news s ev = [dmsg g (k + 1)] /\ ~ allsent f s g /\ cn f s g = 2 * k + 3 /\ k < t_amount g - 1 /\
  Ord G (facted f s b ev 1) /\ cn (facted f s b ev 1) s g = 2 * k + 4 /\ (forall t h, In h (G t) -> (t = s -> h <> g) -> cn (facted f s b ev 1) t h = cn f t h).
Proof.
  intros HF N Hp Hg Hk Ne Ev. assert (news s ev = [dmsg g (k + 1)]) as Nw by (rewrite Ev; unfold news, wire; destruct s; reflexivity).
  pose proof (head_ack' _ _ _ f_now _ _ _ _ Hg Hk Hp) as Ha. replace (k =? t_amount g - 1) with false in Ha by lia. destruct Ha as [Cg Lt]. destruct (pending_head _ _ _ _ Hp) as [P1 _].
  assert (~ allsent f s g) as Na by (unfold allsent; lia).
  destruct (ord_next' _ _ _ _ _ _ _ (k + 1) f_now (i_o _ _ _ _ H) HF N Hg Na) as [O [C1 C2]]; [rewrite P1; intros m [<-|[]]; apply isfwd_amsg|exact Ev|]. split; [exact Nw|]. split; [exact Na|]. split; [exact Cg|]. split; [exact Lt|]. split; [exact O|]. split; [lia|exact C2].
Qed.
Lemma step_next b ev rest g k : FInv ops' G (facted f There b ev 1) -> NoDup (map t_id (G There)) -> pending f Here = amsg (t_id g) k :: rest -> In g (G There) -> index_ok g k -> k <> t_amount g - 1 ->
  ev = [SendProgress (t_path g) (k + 1) (t_amount g) (t_type g =? 0); Sysex (dmsg g (k + 1))] -> DInv (ops ++ [o]) v (facted f There b ev 1) G.
Proof.
  intros HF N Hp Hg Hk Ne Ev. change Here with (other There) in Hp. destruct (next_facts _ _ _ _ _ _ HF N Hp Hg Hk Ne Ev) as [Nw [Na [Cg [Lt [O [Cg' Oth]]]]]].
  destruct (reqs_keep There b ev _ _ Hp (req_amsg _ _)) as [R1 R2]; [rewrite Nw; intros m [<-|[]]; apply req_dmsg|].
  apply step_keep; auto.
  - intros h Hh. unfold closed. destruct (bytes_eqb (t_id h) (t_id g)) eqn:E.
    + apply bytes_eqb_spec in E. assert (h = g) as -> by (eapply id_unique; eauto). rewrite Cg, Cg'. lia.
    + rewrite Oth; [reflexivity|exact Hh|]. intros _ ->. rewrite eqb_refl in E. discriminate.
  - intros h Hh. rewrite Oth; [reflexivity|exact Hh|discriminate].
  - eapply ack_tail; [exact Hp|discriminate].
Qed.
(* the next part of a file to be saved is sent *)
Lemma step_progress b ev rest g k : FInv ops' G (facted f Here b ev 1) -> NoDup (map t_id (G Here)) -> pending f There = amsg (t_id g) k :: rest -> In g (G Here) -> index_ok g k -> k <> t_amount g - 1 ->
  ev = [SendProgress (t_path g) (k + 1) (t_amount g) (t_type g =? 0); Sysex (dmsg g (k + 1))] -> DInv (ops ++ [o]) (on_event v (SendProgress (t_path g) (k + 1) (t_amount g) (t_type g =? 0))) (facted f Here b ev 1) G.
Proof.
  intros HF N Hp Hg Hk Ne Ev. change There with (other Here) in Hp. destruct (next_facts _ _ _ _ _ _ HF N Hp Hg Hk Ne Ev) as [Nw [Na [Cg [Lt [O [Cg' Oth]]]]]].
  destruct (sending_last g Hg Na) as [old [p [c [pre [Ec [Ho [Eg [Fp [So [Ep Er]]]]]]]]]].
  destruct (reqs_keep Here b ev _ _ Hp (req_amsg _ _)) as [R1 R2]; [rewrite Nw; intros m [<-|[]]; apply req_dmsg|].
  destruct (closed_all) as [Rn Cl].
  { intros x Hx. unfold asks in Hx. rewrite Ec, indexed_snoc, filter_app in Hx. cbn [filter fst snd is_save negb] in Hx. rewrite app_nil_r in Hx. eapply not_open; [exact Ho|exact Hx]. }
  pose proof (i_cb _ _ _ _ H _ _ Ec) as Cb. cbn in Cb. destruct So as [p0 [c0 [_ [_ [_ [Sz [Ty _]]]]]]].
  set (r := if 2 * t_amount g <=? cn (facted f Here b ev 1) Here g then Some Saved else None).
  set (v' := on_event v (SendProgress (t_path g) (k + 1) (t_amount g) (t_type g =? 0))).
  assert (v_calls v' = old ++ [(CSave p c, r)] /\ v_on v' = v_on v /\ v_finish v' = v_finish v /\ v_error v' = v_error v /\ v_send v' = v_send v) as [Ec' [Eo [Ef [Ee Es]]]].
  { unfold v', on_event, r. rewrite Ty, Cb, Cg'. change (0 =? 0) with true. rewrite andb_true_l. destruct (Z.eqb_spec (k + 1 + 1) (t_amount g)) as [Q|Q]; [replace (2 * t_amount g <=? 2 * k + 4) with true by lia|replace (2 * t_amount g <=? 2 * k + 4) with false by lia].
    - unfold settled. cbn [v_calls v_on v_finish v_error v_send]. rewrite Ec, settle_last. auto.
    - rewrite Ec. auto. }
  assert (asks v' = asks v) as Ea. { unfold asks. rewrite Ec, Ec', !indexed_snoc, !filter_app. reflexivity. }
  constructor; auto.
  - unfold one_open. rewrite Ec'. unfold r. destruct (2 * t_amount g <=? cn (facted f Here b ev 1) Here g).
    + exists (old ++ [(CSave p c, Some Saved)]), []. rewrite app_nil_r. split; [reflexivity|]. split; [apply Forall_app; split; [exact Ho|constructor; [discriminate|constructor]]|left; reflexivity].
    + exists old, [(CSave p c, None)]. split; [reflexivity|]. split; [exact Ho|right; eauto].
  - rewrite Ec'. intros Q. destruct old; discriminate.
  - rewrite Ea, R1. destruct (i_asks _ _ _ _ H) as [B1 [B2 [E1 [E2 [E3 E4]]]]]. exists B1, B2. split; [exact E1|]. split; [|auto].
    assert (forall h, In h (G There) -> closed (facted f Here b ev 1) There h = closed f There h) as Same by (intros h Hh; unfold closed; rewrite Oth; [reflexivity|exact Hh|discriminate]).
    clear -E2 Same. induction E2 as [|x h l l' [R S] _ IH]; constructor; [|apply IH; intros y Hy; apply Same; right; exact Hy]. split; [apply replied_mono, R|]. rewrite Same by (left; reflexivity). exact S.
  - unfold saves. rewrite Ec', indexed_snoc, filter_app, Eg. cbn [filter fst snd is_save]. apply Forall2_app.
    + assert (forall h, In h pre -> cn (facted f Here b ev 1) Here h = cn f Here h) as Same.
      { intros h Hh. apply Oth; [rewrite Eg; apply in_or_app; left; exact Hh|]. intros _ ->. apply (nodup_split t_id _ _ _ _ N Eg g); [left; exact Hh|reflexivity]. }
      remember (filter _ _) as L eqn:EL in Fp |- *. clear -Fp Same. induction Fp as [|x h l l' [p [c R]] _ IH]; constructor; [|apply IH; intros y Hy; apply Same; right; exact Hy]. exists p, c. rewrite Same by (left; reflexivity). exact R.
    + constructor; [|constructor]. exists p, c. auto 10.
  - apply tail_noreq. rewrite R1. exact Rn.
  - intros old' c' Q. rewrite Ec' in Q. apply app_inj_tail in Q. destruct Q as [<- Q]. injection Q as <- _. rewrite Es. exact Cb.
Qed.

(* nothing arrives *)
Lemma step_none : DInv (ops ++ [o]) v f G.
Proof. apply step_keep; auto; [exact f_now|exact (i_o _ _ _ _ H)|exact (i_noreq _ _ _ _ H)|exact (i_tail _ _ _ _ H)]. Qed.

(* connect and loadFile *)
Lemma step_ask v' c ev : is_save c = false -> ev = [Sysex (rmsg CHUNK_REQUEST (ask_path c))] -> Forall (fun x => snd x <> None) (v_calls v) -> v_calls v' = v_calls v ++ [(c, None)] ->
  match c with CConnect => v_finish v' = CbPing (length (v_calls v)) /\ v_error v' = CbPing (length (v_calls v))
    | CLoad _ => v_finish v' = CbCall (length (v_calls v)) /\ v_error v' = CbCall (length (v_calls v)) | CSave _ _ => True end ->
  DInv (ops ++ [o]) v' (facted f Here (n_br (f_net f) Here) ev 0) G.
Proof.
  intros Hc Ev Ha Ec Cb. assert (news Here ev = [rmsg CHUNK_REQUEST (ask_path c)]) as Nw by (rewrite Ev; reflexivity).
  assert (forall m, In m (news Here ev) -> req m = true) as Hn by (rewrite Nw; intros m [<-|[]]; apply req_rmsg).
  assert (forall t h, cn (facted f Here (n_br (f_net f) Here) ev 0) t h = cn f t h) as Cn by (intros; apply cn_quiet; exact Hn).
  assert (forall x, In x (asks v) -> ~ open x) as No by (intros x; apply not_open; exact Ha). destruct (closed_all No) as [Rn Cl].
  assert (asks v' = asks v ++ [(length (v_calls v), (c, None))]) as Ea. { unfold asks. rewrite Ec, indexed_snoc, filter_app. cbn [filter fst snd]. rewrite Hc. reflexivity. }
  assert (saves v' = saves v) as Es. { unfold saves. rewrite Ec, indexed_snoc, filter_app. cbn [filter fst snd]. rewrite Hc. apply app_nil_r. }
  assert (pending (facted f Here (n_br (f_net f) Here) ev 0) Here = pending f Here ++ [rmsg CHUNK_REQUEST (ask_path c)]) as Ep by (rewrite (pending_same' _ G) by exact f_now; rewrite Nw; reflexivity).
  constructor.
  - apply (fi_idle files throws seed seed_ok files_full); [exact f_now|apply Nat.le_0_l|intros m []|]. rewrite Ev. intros e [<-|[]]. eauto.
  - apply (ord_quiet' _ _ _ _ _ _ _ f_now (i_o _ _ _ _ H) Hn); [intros m []|rewrite Ev; reflexivity].
  - exists (v_calls v), [(c, None)]. split; [exact Ec|]. split; [exact Ha|right; eauto].
  - rewrite Ec. intros Q. destruct (v_calls v); discriminate.
  - destruct (i_asks _ _ _ _ H) as [B1 [B2 [E1 [E2 [E3 E4]]]]]. assert (B2 = []) as ->. { destruct B2 as [|x B2]; [reflexivity|exfalso]. apply Forall_cons_iff in E3. apply (No x); [rewrite E1; apply in_elt|apply E3]. }
    rewrite app_nil_r in E1. subst B1. exists (asks v), [(length (v_calls v), (c, None))]. split; [exact Ea|]. split; [|split; [constructor; [reflexivity|constructor]|]].
    + clear -E2 Cn. induction E2 as [|x h l l' [R S] _ IH]; constructor; auto. split; [apply replied_mono, R|]. unfold closed. rewrite Cn. exact S.
    + rewrite Ep, filter_app, Rn. cbn [filter app map fst snd]. rewrite req_rmsg. reflexivity.
  - change There with (other Here). rewrite pending_other. exact (i_noreq _ _ _ _ H).
  - rewrite Es. pose proof (i_saves _ _ _ _ H) as S. clear -S Cn. induction S as [|x h l l' [p [c R]] _ IH]; constructor; auto. exists p, c. rewrite Cn. exact R.
  - rewrite Ep. apply tail_add; [exact (i_tail _ _ _ _ H)|]. intros x [<-|[]]. apply isfwd_rmsg.
  - intros old' c' Q. rewrite Ec in Q. apply app_inj_tail in Q. destruct Q as [<- Q]. injection Q as <-. destruct c; [exact Cb|exact Cb|discriminate].
Qed.

(* saveFile *)
Lemma step_save v0 p c b ev g : Forall (fun x => snd x <> None) (v_calls v) -> v_calls v0 = v_calls v ++ [(CSave p c, None)] -> v_send v0 = CbCall (length (v_calls v)) ->
  FInv ops' (grow Here [g] G) (facted f Here b ev 0) -> Z.of_nat (started Here (n_log (f_net (facted f Here b ev 0)))) <= 16777216 ->
  t_type g = 0 -> t_path g = p -> t_rest g = c -> t_size g = CHUNK_SEND -> ev = [Sysex (smsg g); SendProgress (t_path g) 0 (t_amount g) (t_type g =? 0); Sysex (dmsg g 0)] ->
  DInv (ops ++ [o]) (on_event v0 (SendProgress (t_path g) 0 (t_amount g) (t_type g =? 0))) (facted f Here b ev 0) (grow Here [g] G).
Proof.
  intros Ha Ec Cb HF Hst Ty Ep Er Sz Ev. assert (news Here ev = [smsg g; dmsg g 0]) as Nw by (rewrite Ev; reflexivity).
  assert (forall x, In x (asks v) -> ~ open x) as No by (intros x; apply not_open; exact Ha). destruct (closed_all No) as [Rn Cl]. assert (forall x, In x (saves v) -> ~ open x) as Ns by (intros x; apply not_open; exact Ha).
  destruct (ord_start' _ _ _ _ _ _ _ _ _ f_now (i_o _ _ _ _ H) HF Hst (sent_all Ns) Ev) as [O [Cg Cn]]; [intros m []|].
  assert (In g (grow Here [g] G Here)) as Hg by (rewrite grow_same; apply in_elt). pose proof (f_pos _ _ _ _ _ HF _ _ Hg) as Pos.
  set (f' := facted f Here b ev 0) in *. set (r := if 2 * t_amount g <=? cn f' Here g then Some Saved else None).
  set (v' := on_event v0 (SendProgress (t_path g) 0 (t_amount g) (t_type g =? 0))).
  assert (v_calls v' = v_calls v ++ [(CSave p c, r)] /\ v_send v' = v_send v0) as [Ec' Es].
  { unfold v', on_event, r. rewrite Ty, Cb, Cg. change (0 =? 0) with true. rewrite andb_true_l. change (0 + 1) with 1. destruct (Z.eqb_spec 1 (t_amount g)) as [Q|Q]; [replace (2 * t_amount g <=? 2) with true by lia|replace (2 * t_amount g <=? 2) with false by lia].
    - unfold settled. cbn [v_calls v_send]. rewrite Ec, settle_last. auto.
    - rewrite Ec. auto. }
  assert (asks v' = asks v) as Ea. { unfold asks. rewrite Ec', indexed_snoc, filter_app. apply app_nil_r. }
  assert (pending f' Here = pending f Here ++ [smsg g; dmsg g 0]) as Epd by (unfold f'; rewrite (pending_same' _ G) by exact f_now; rewrite Nw; reflexivity).
  assert (filter req (pending f' Here) = []) as Rn' by (rewrite Epd, filter_app, Rn; cbn [filter app]; rewrite req_smsg, req_dmsg; reflexivity).
  constructor; auto.
  - unfold one_open. rewrite Ec'. unfold r. destruct (2 * t_amount g <=? cn f' Here g).
    + exists (v_calls v ++ [(CSave p c, Some Saved)]), []. rewrite app_nil_r. split; [reflexivity|]. split; [apply Forall_app; split; [exact Ha|constructor; [discriminate|constructor]]|left; reflexivity].
    + exists (v_calls v), [(CSave p c, None)]. split; [reflexivity|]. split; [exact Ha|right; eauto].
  - rewrite Ec'. intros Q. destruct (v_calls v); discriminate.
  - rewrite Ea, Rn'. destruct (i_asks _ _ _ _ H) as [B1 [B2 [E1 [E2 [E3 E4]]]]]. exists B1, B2. split; [exact E1|]. rewrite <- E4, Rn. split; [|auto]. change There with (other Here). rewrite grow_other. cbn [other].
    assert (forall h, In h (G There) -> closed f' There h = closed f There h) as Same by (intros h Hh; unfold closed; rewrite Cn; [reflexivity|exact Hh]).
    clear -E2 Same. induction E2 as [|x h l l' [R S] _ IH]; constructor; [|apply IH; intros y Hy; apply Same; right; exact Hy]. split; [apply replied_mono, R|]. rewrite Same by (left; reflexivity). exact S.
  - unfold f'. change There with (other Here). rewrite pending_other. exact (i_noreq _ _ _ _ H).
  - unfold saves. rewrite Ec', indexed_snoc, filter_app, grow_same. cbn [filter fst snd is_save]. apply Forall2_app.
    + pose proof (i_saves _ _ _ _ H) as S. assert (forall h, In h (G Here) -> cn f' Here h = cn f Here h) as Same by (intros h Hh; apply Cn, Hh). unfold saves in S.
      remember (filter _ _) as L eqn:EL in S |- *. clear -S Same. induction S as [|x h l l' [p [c R]] _ IH]; constructor; [|apply IH; intros y Hy; apply Same; right; exact Hy]. exists p, c. rewrite Same by (left; reflexivity). exact R.
    + constructor; [|constructor]. exists p, c. auto 10.
  - apply tail_noreq. exact Rn'.
  - intros old' c' Q. rewrite Ec' in Q. apply app_inj_tail in Q. destruct Q as [<- Q]. injection Q as <- _. rewrite Es. exact Cb.
Qed.

(* the controller answers *)
Lemma obtained_closings s log : obtained s log = flat_map (fun e => match e with RecvFinish _ path data _ => [(path, data)] | _ => [] end) (closings s log).
Proof.
  unfold obtained, closings. induction log as [|[t e] log IH]; [reflexivity|]. cbn [flat_map fst snd]. rewrite flat_map_app, <- IH. f_equal. destruct (side_eqb s t) eqn:S, e; try reflexivity.
Qed.
Lemma saved_saves l : flat_map saved (indexed l) = flat_map saved (filter (fun x => is_save (fst (snd x))) (indexed l)).
Proof. induction (indexed l) as [|[k [c r]] l' IH]; [reflexivity|]. cbn [flat_map filter fst snd]. destruct c; cbn [is_save flat_map]; unfold saved at 1; cbn [fst snd app]; try exact IH. rewrite IH. reflexivity. Qed.
Lemma step_reply b ev rest z p now type path msg G' : o = DNext There now -> pending f Here = rmsg z p :: rest -> FInv ops' G' (facted f There b ev 1) -> Z.of_nat (started There (n_log (f_net (facted f There b ev 1)))) <= 16777216 ->
  starts G G' There type path msg CHUNK_REQUEST ev ->
  (type = 0 /\ path = normal p /\ files There now (normal p) = Some msg \/ type = 1 /\ exists x, msg = err_text x /\ (normal p <> [] -> x = NoFile /\ files There now (normal p) = None)) ->
  DInv (ops ++ [o]) v (facted f There b ev 1) G'.
Proof.
  intros Eo Hp HF Hst [g [-> [Ty [Pa [Ms [Sz Ev]]]]]] Hr. assert (news There ev = [smsg g; dmsg g 0]) as Nw by (rewrite Ev; reflexivity).
  destruct (i_asks _ _ _ _ H) as [B1 [B2 [E1 [E2 [E3 E4]]]]]. rewrite Hp in E4. cbn [filter] in E4. rewrite req_rmsg in E4.
  destruct B2 as [|x B2]; [discriminate|]. cbn [map] in E4. pose proof (f_equal (hd []) E4) as E5. cbn [hd] in E5. apply (f_equal (@tl _)) in E4. cbn [tl] in E4.
  apply rmsg_same in E5. destruct E5 as [Ep _]. apply Forall_cons_iff in E3. destruct E3 as [Ox Ob].
  destruct (only_last _ _ _ _ _ (i_one _ _ _ _ H) E1 Ox) as [-> [old [Ec [Ek [Ho Ef]]]]]. destruct x as [k [c r]]. unfold open in Ox. cbn [fst snd map] in *. subst r k.
  assert (is_save c = false) as Hc. { assert (In (length old, (c, None)) (asks v)) as Q by (rewrite E1; apply in_elt). apply filter_In in Q. destruct Q as [_ Q]. cbn [fst snd] in Q. apply negb_true_iff in Q. exact Q. }
  assert (forall h, In h (G There) -> closed f There h = true) as Cl.
  { intros h Hh. destruct (forall2_at _ _ _ _ E2 Hh) as [a [x [b' [a' [b'' [Q1 [_ [_ [[_ S] _]]]]]]]]]. destruct (closed f There h); [reflexivity|exfalso].
    apply (not_open (fun x => negb (is_save (fst (snd x)))) old Ho x); [|exact S]. unfold entry in *. rewrite Ef, Q1. apply in_elt. }
  assert (saves v = filter (fun x => is_save (fst (snd x))) (indexed old)) as Es by (unfold saves; rewrite Ec, indexed_snoc, filter_app; cbn [filter fst snd]; rewrite Hc; apply app_nil_r).
  assert (forall h, In h (G Here) -> allsent f Here h) as Al by (apply sent_all; rewrite Es; intros x; apply not_open; exact Ho).
  assert (filter isfwd (pending f Here) = []) as Nf.
  { apply filter_none. rewrite Hp. intros m [<-|Hm]; [apply isfwd_rmsg|]. apply (i_tail _ _ _ _ H [] (rmsg z p) rest); [exact Hp|apply req_rmsg|exact Hm]. }
  assert (forall h, In h (G Here) -> closed f Here h = true) as ClH.
  { intros h Hh. apply (cn_facts' _ _ _ f_now Here h Hh); [|apply Al, Hh]. destruct (block f Here h) as [|x l] eqn:B; [reflexivity|exfalso].
    assert (In x (flat_map (block f Here) (G Here))) as Q by (apply in_flat_map; exists h; split; [exact Hh|rewrite B; left; reflexivity]). rewrite <- (o_order _ _ (i_o _ _ _ _ H)), Nf in Q. destruct Q. }
  assert (obtained There (n_log (f_net f)) = flat_map saved (indexed (v_calls v))) as Ob'.
  { rewrite obtained_closings, saved_saves. fold (saves v). change There with (other Here). rewrite (o_close _ _ (i_o _ _ _ _ H)). rewrite filter_all by exact ClH.
    assert (forall h, In h (G Here) -> t_amount h = amount_of (t_size h) (t_rest h)) as Am by (intros h Hh; destruct (i_good _ _ _ _ _ (f_inv _ _ _ _ _ (i_f _ _ _ _ H)) _ _ Hh) as [_ [_ [Q _]]]; exact Q).
    pose proof (i_saves _ _ _ _ H) as S. clear -S Am. induction S as [|x h l l' [p0 [c0 [Q1 [Q2 [Q3 [Q4 [Q5 _]]]]]]] _ IH]; [reflexivity|]. cbn [map flat_map]. rewrite IH by (intros y Hy; apply Am; right; exact Hy). f_equal.
    unfold saved. rewrite Q1. unfold closing. rewrite Q5. cbn [Z.eqb]. unfold content, joined. rewrite (Am h) by (left; reflexivity). rewrite Q2, Q3, Q4. reflexivity. }
  change Here with (other There) in Hp. destruct (pending_head _ _ _ _ Hp) as [P1 [P2 _]].
  destruct (ord_start' _ _ _ _ _ _ _ _ _ f_now (i_o _ _ _ _ H) HF Hst) as [O [Cg Cn]]; [intros h Hh; pose proof (Cl h Hh) as Q; unfold closed, allsent in *; lia|exact Ev|rewrite P1; intros m [<-|[]]; apply isfwd_rmsg|]. cbn [other] in *.
  assert (In g (grow There [g] G There)) as Hg by (rewrite grow_same; apply in_elt). pose proof (f_pos _ _ _ _ _ HF _ _ Hg) as Pos.
  assert (pending (facted f There b ev 1) Here = rest) as Epd by (change Here with (other There); rewrite pending_other; exact P2).
  constructor; auto.
  - exact (i_one _ _ _ _ H).
  - exact (i_off _ _ _ _ H).
  - exists (B1 ++ [(length old, (c, None))]), []. rewrite app_nil_r. split; [exact E1|]. rewrite grow_same, Epd. split; [|split; [constructor|exact E4]]. apply Forall2_app.
    + assert (forall h, In h (G There) -> closed (facted f There b ev 1) There h = closed f There h) as Same by (intros h Hh; unfold closed; rewrite Cn; [reflexivity|exact Hh]).
      clear -E2 Same. induction E2 as [|x h l l' [R S] _ IH]; constructor; [|apply IH; intros y Hy; apply Same; right; exact Hy]. split; [apply replied_mono, R|]. rewrite Same by (left; reflexivity). exact S.
    + constructor; [|constructor]. split; [|cbn [fst snd]; unfold closed; rewrite Cg; replace (2 =? 2 * t_amount g + 1) with false by lia; reflexivity].
      exists ops, now, []. rewrite Eo, Dv. cbn [d_dev d_net fst snd]. split; [reflexivity|]. split; [rewrite Ec, app_length, Nat.add_1_r; reflexivity|]. split; [|exact Ob']. split; [exact Sz|]. rewrite <- Ep.
      destruct Hr as [[T0 [P0 F0]]|[T1 [x [M1 X1]]]]; [left; exists msg; repeat split; congruence|right; exists x; rewrite Ty, Ms; auto].
  - rewrite (pending_same' _ G) by exact f_now. rewrite Nw, filter_app, (i_noreq _ _ _ _ H). cbn [filter app]. rewrite req_smsg, req_dmsg. reflexivity.
  - change Here with (other There). rewrite grow_other. cbn [other]. pose proof (i_saves _ _ _ _ H) as S. assert (forall h, In h (G Here) -> cn (facted f There b ev 1) Here h = cn f Here h) as Same by (intros h Hh; apply Cn, Hh).
    clear -S Same. induction S as [|x h l l' [p0 [c0 R]] _ IH]; constructor; [|apply IH; intros y Hy; apply Same; right; exact Hy]. exists p0, c0. rewrite Same by (left; reflexivity). exact R.
  - rewrite Epd. apply tail_noreq. exact E4.
  - exact (i_cb _ _ _ _ H).
Qed.
End Step.

Lemma orderly_snoc ops o : forall d, orderly files throws d (ops ++ [o]) -> orderly files throws d ops /\ in_turn (fold_left (dstep files throws) ops d) o.
Proof. induction ops as [|x ops IH]; intros d; cbn; [intros [A _]; auto|]. intros [A B]. destruct (IH _ B). auto. Qed.
Lemma drun_snoc ops o : drun (ops ++ [o]) = dstep files throws (drun ops) o. Proof. apply fold_left_app. Qed.
Lemma zero_ext f s b ev : forall t, f_taken (facted f s b ev 0) t = f_taken (mkF (acted (f_net f) s b ev) (f_taken f)) t.
Proof. intros t. cbn [facted f_taken]. destruct (side_cases s t) as [->| ->]; [rewrite set_same; lia|rewrite set_other; reflexivity]. Qed.
Lemma one_ext f s b ev : forall t, f_taken (facted f s b ev 1) t = f_taken (mkF (acted (f_net f) s b ev) (set s (S (f_taken f s)) (f_taken f))) t.
Proof. intros t. cbn [facted f_taken]. rewrite Nat.add_1_r. reflexivity. Qed.
Lemma ask_full c : is_save c = false -> match c with CLoad p => p <> [] | _ => True end -> ask_path c <> [].
Proof. destruct c; intros E Q; [discriminate|exact Q|discriminate E]. Qed.
Lemma request_full p z : p <> [] -> 1 <= z -> request p z = ([Sysex (rmsg z p)], None).
Proof. intros Hp Hz. unfold request. destruct p; [contradiction|]. destruct (Z.ltb_spec z 1); [lia|reflexivity]. Qed.

Lemma head_req ops v f G z p rest : DInv ops v f G -> pending f Here = rmsg z p :: rest -> z mod 16777216 = CHUNK_REQUEST.
Proof.
  intros H Hp. destruct (i_asks _ _ _ _ H) as [B1 [B2 [_ [_ [_ E4]]]]]. rewrite Hp in E4. cbn [filter] in E4. rewrite req_rmsg in E4. destruct B2 as [|x B2]; [discriminate|]. apply (f_equal (hd [])) in E4. cbn [hd map] in E4.
  apply rmsg_same in E4. destruct E4 as [_ E4]. rewrite E4. reflexivity.
Qed.
Lemma dinv_step ops o G : DInv ops (d_dev (drun ops)) (d_net (drun ops)) G -> (forall t, Z.of_nat (started t (n_log (f_net (d_net (drun ops))))) <= 16777216) ->
  short_fop (fop_of o) -> awake_op (d_net (drun ops)) (fop_of o) -> in_turn (drun ops) o -> (forall t, Z.of_nat (started t (n_log (f_net (fstep files throws (d_net (drun ops)) (fop_of o))))) <= 16777216) ->
  exists G', DInv (ops ++ [o]) (d_dev (drun (ops ++ [o]))) (d_net (drun (ops ++ [o]))) G' /\ d_net (drun (ops ++ [o])) = fstep files throws (d_net (drun ops)) (fop_of o).
Proof.
  intros H Hst0 So Haw Ht Hst. rewrite drun_snoc. destruct (drun ops) as [v f] eqn:Dv. cbn [d_dev d_net] in *.
  assert (FInv (map fop_of (ops ++ [o])) G f) as H1. { eapply finv_ops; [|exact (i_f _ _ _ _ H)]. rewrite map_app. apply incl_appl, incl_refl. }
  destruct o as [now c|s now].
  - assert (acts c v = true /\ v_calls (begin c v) = v_calls v ++ [(c, None)] /\ Forall (fun x => snd x <> None) (v_calls v)) as [Ha [Eb Hall]].
    { destruct c; cbn [in_turn d_dev] in Ht; unfold acts, begin.
      - rewrite (i_off _ _ _ _ H Ht). cbn. rewrite Ht. auto.
      - destruct Ht as [-> [_ Q]]. auto.
      - destruct Ht as [-> [_ Q]]. auto. }
    unfold dstep. cbn [d_dev d_net]. rewrite Ha. destruct (is_save c) eqn:Sc.
    + destruct c as [|p|p msg]; try discriminate. destruct Ht as [On [Hm _]]. cbn [d_dev d_net] in *. cbn [fop_of fstep nstep] in *. destruct (send_string now p msg CHUNK_SEND 0 (n_br (f_net f) Here)) as [[b ev] e] eqn:E.
      cbn [act] in *. fold (acted (f_net f) Here b ev) in *.
      destruct (fi_string files throws seed seed_ok files_full _ G f Here now p msg CHUNK_SEND 0 b ev e 0 H1 Haw) as [G' [HF [[_ [_ [Q|Q]]]|Hs]]]; try assumption; [|apply (Hst Here)|apply Nat.le_0_l|intros m []|contradiction|discriminate Q|].
      { intros S1 S2. unfold good. cbn. split; [left; split; [reflexivity|left; exists now; rewrite !map_app; apply in_or_app; right; left; reflexivity]|]. split; [exact S1|]. split; [reflexivity|]. exact So. }
      destruct Hs as [g [-> [Ty [Pa [Ms [Sz Ev]]]]]]. exists (grow Here [g] G). cbn [f_net]. cbn [acted n_log]. rewrite since_here. split; [|reflexivity].
      apply (dinv_ext _ _ (facted f Here b ev 0)); [apply zero_ext|reflexivity|]. rewrite Ev at 1. cbn [fold_left].
      apply (step_save ops v f G H _ (begin (CSave p msg) v) p msg b ev g); auto. unfold begin. rewrite On. reflexivity.
    + assert (ask_path c <> []) as Hp. { apply ask_full; [exact Sc|]. destruct c; auto. apply Ht. }
      assert (fstep files throws f (fop_of (DCall now c)) = mkF (acted (f_net f) Here (n_br (f_net f) Here) [Sysex (rmsg CHUNK_REQUEST (ask_path c))]) (f_taken f)) as Ef.
      { destruct c; try discriminate Sc; cbn [fop_of fstep nstep]; rewrite request_full by first [exact Hp|unfold CHUNK_REQUEST; lia]; reflexivity. }
      rewrite Ef. exists G. cbn [f_net]. cbn [acted n_log]. rewrite since_here. split; [|reflexivity]. cbn [fold_left on_event]. fold (acted (f_net f) Here (n_br (f_net f) Here) [Sysex (rmsg CHUNK_REQUEST (ask_path c))]).
      apply (dinv_ext _ _ (facted f Here (n_br (f_net f) Here) [Sysex (rmsg CHUNK_REQUEST (ask_path c))] 0)); [apply zero_ext|reflexivity|].
      apply (step_ask ops v f G H _ (begin c v) c); auto. destruct c; cbn [in_turn d_dev] in Ht; unfold begin; [rewrite (i_off _ _ _ _ H Ht)|destruct Ht as [-> _]|]; auto.
  - unfold dstep. cbn [d_dev d_net fop_of]. cbn [fop_of awake_op] in *. unfold fstep in *. destruct (Nat.ltb_spec (f_taken f s) (length (wire (other s) (n_log (f_net f))))) as [Hlt|Hge].
    2:{ exists G. rewrite since_none. cbn [fold_left]. split; [apply step_none; assumption|reflexivity]. }
    cbn [nstep f_net f_taken] in *. destruct (nth_error (wire (other s) (n_log (f_net f))) (f_taken f s)) as [m|] eqn:Em; [|apply nth_error_None in Em; lia].
    assert (exists rest, pending f (other s) = m :: rest) as [rest Hp].
    { unfold pending. rewrite other_other. clear -Em. revert Em. generalize (wire (other s) (n_log (f_net f))) as l. generalize (f_taken f s) as k. induction k as [|k IHk]; intros [|x l] Q; try discriminate; cbn in *; [injection Q as <-; eauto|]. apply IHk, Q. }
    destruct (fi_next files throws seed seed_ok files_ok files_full _ G f s now m rest _ H1 Hst0 Haw Hp eq_refl (Hst s)) as [G' [b [ev [e [Er [HF [He [Tk _]]]]]]]]; [rewrite map_app; apply in_or_app; right; left; reflexivity|].
    rewrite Er in *. cbn [act] in *. fold (acted (f_net f) s b ev) in *.
    exists G'. split; [|reflexivity]. apply (dinv_ext _ _ (facted f s b ev 1)); [apply one_ext|reflexivity|]. cbn [f_net acted n_log].
    assert (forall t, NoDup (map t_id (G t))) as N by (intros t; apply (ids_nodup' _ _ _ _ H1), Hst0).
    assert (forall c, closing c = closing c) as _ by reflexivity.
    destruct Tk as [g p a Hg -> -> Ev|g k Hg Hk -> -> Ev|g k Hg Hk -> -> Ev|z p msg -> Fs Sv|z p x -> Hx Hc].
    + replace (fold_left on_event _ v) with v by (destruct s; [rewrite since_here, Ev|rewrite since_there]; reflexivity). eapply step_start; eauto.
    + destruct s.
      * rewrite since_here. destruct (Z.eqb_spec k (t_amount g - 1)) as [E|E].
        -- replace (fold_left on_event ev v) with (on_event v (closing g)) by (rewrite Ev; reflexivity).
           eapply (step_answer ops v f G H (DNext Here now) b ev rest g k); auto. rewrite Ev. replace (k =? t_amount g - 1) with true by lia. reflexivity.
        -- replace (fold_left on_event ev v) with v by (rewrite Ev; reflexivity). eapply (step_data ops v f G H (DNext Here now) Here b ev rest g k); auto. rewrite Ev. replace (k =? t_amount g - 1) with false by lia. reflexivity.
      * rewrite since_there. cbn [fold_left]. eapply (step_data ops v f G H (DNext There now) There b ev rest g k); auto. discriminate.
    + destruct (Z.eqb_spec k (t_amount g - 1)) as [E|E].
      * replace (fold_left on_event _ v) with v by (destruct s; [rewrite since_here, Ev|rewrite since_there]; reflexivity). eapply step_acked; eauto.
      * destruct s.
        -- rewrite since_here. replace (fold_left on_event ev v) with (on_event v (SendProgress (t_path g) (k + 1) (t_amount g) (t_type g =? 0))) by (rewrite Ev; reflexivity).
           eapply (step_progress ops v f G H (DNext Here now) b ev rest g k); auto.
        -- rewrite since_there. cbn [fold_left]. eapply (step_next ops v f G H (DNext There now) b ev rest g k); auto.
    + assert (s = There) as ->. { destruct s; [exfalso|reflexivity]. pose proof (i_noreq _ _ _ _ H) as Q. cbn [other] in Hp. rewrite Hp in Q. cbn [filter] in Q. rewrite req_rmsg in Q. discriminate. }
      rewrite since_there. cbn [fold_left other] in *. rewrite (head_req _ _ _ _ _ _ _ H Hp) in Sv. eapply (step_reply ops v f G H Dv (DNext There now)); eauto.
    + assert (s = There) as ->. { destruct s; [exfalso|reflexivity]. pose proof (i_noreq _ _ _ _ H) as Q. cbn [other] in Hp. rewrite Hp in Q. cbn [filter] in Q. rewrite req_rmsg in Q. discriminate. }
      rewrite since_there. cbn [fold_left other] in *. rewrite (head_req _ _ _ _ _ _ _ H Hp) in Hx. destruct Hc as [[Q _]|[_ Sv]]; [rewrite polite in Q; discriminate|].
      eapply (step_reply ops v f G H Dv (DNext There now)); eauto. right. split; [reflexivity|]. exists x. split; [reflexivity|]. intros Q. apply Hx; [exact Q|unfold CHUNK_REQUEST; lia].
Qed.

Lemma dinv ops : Forall short_fop (map fop_of ops) -> punctual files throws (fstart seed) (map fop_of ops) -> (forall t, Z.of_nat (started t (n_log (f_net (frun files throws seed (map fop_of ops))))) <= 16777216) ->
  orderly files throws (dstart seed) ops -> exists G, DInv ops (d_dev (drun ops)) (d_net (drun ops)) G /\ d_net (drun ops) = frun files throws seed (map fop_of ops).
Proof.
  induction ops as [|ops o IH] using rev_ind_snoc; intros Hs Hpu Hst Ho.
  - destruct (fifo_inv files throws seed seed_ok files_ok files_full [] Hs Hpu Hst) as [G [HF _]]. exists G. split; [|reflexivity].
    assert (forall s, G s = []) as Eg. { intros s. pose proof (f_amount _ _ _ _ _ HF s) as Q. cbn in Q. destruct (G s); [reflexivity|discriminate]. }
    constructor; try (intros; discriminate); auto.
    + constructor; intros s; rewrite ?Eg; try reflexivity; intros [|]; discriminate.
    + exists [], []. auto.
    + exists [], []. rewrite Eg. auto.
    + rewrite Eg. constructor.
    + intros a m b Q. destruct a; discriminate.
    + intros old c Q. destruct old; discriminate.
  - rewrite map_app in *. cbn [map] in *. apply punctual_snoc in Hpu. destruct Hpu as [Hpu Haw]. apply Forall_app in Hs. destruct Hs as [Hs Hso]. apply Forall_inv in Hso. apply orderly_snoc in Ho. destruct Ho as [Ho Ht].
    fold (frun files throws seed (map fop_of ops)) in Haw. rewrite frun_snoc in *.
    assert (forall t, Z.of_nat (started t (n_log (f_net (frun files throws seed (map fop_of ops))))) <= 16777216) as Hst0.
    { intros t. specialize (Hst t). destruct (fstep_log files throws (frun files throws seed (map fop_of ops)) (fop_of o)) as [l El]. rewrite El, started_app in Hst. lia. }
    destruct (IH Hs Hpu Hst0 Ho) as [G [H E]]. rewrite <- E in *. apply (dinv_step ops o G H Hst0 Hso Haw Ht Hst).
Qed.

(* ---- consequences ---- *)
Section Whole.
Variable ops : list dop.
Variable G : ghosts.
Hypothesis H : DInv ops (d_dev (drun ops)) (d_net (drun ops)) G.
Let v := d_dev (drun ops).
Let f := d_net (drun ops).

Lemma amount_good s g : In g (G s) -> t_amount g = amount_of (t_size g) (t_rest g) /\ 1 <= t_size g.
Proof. intros Hg. destruct (i_good _ _ _ _ _ (f_inv _ _ _ _ _ (i_f _ _ _ _ H)) _ _ Hg) as [_ [A [B _]]]. auto. Qed.
Lemma content_is s g : In g (G s) -> (forall k, clean (piece (t_size g) (t_rest g) k)) -> content g (t_amount g) = t_rest g.
Proof. intros Hg Hc. destruct (amount_good _ _ Hg). apply content_clean; assumption. Qed.
Lemma asked k c r : nth_error (v_calls v) k = Some (c, Some r) -> is_save c = false -> exists g, In g (G There) /\ replied ops (k, (c, Some r)) g /\ r = answer c g.
Proof.
  intros Hk Hc. destruct (i_asks _ _ _ _ H) as [B1 [B2 [E1 [E2 [E3 _]]]]]. assert (In (k, (c, Some r)) (asks v)) as Hin. { apply filter_In. split; [apply indexed_in; exact Hk|]. cbn [fst snd]. rewrite Hc. reflexivity. }
  unfold v in Hin. rewrite E1 in Hin. apply in_app_or in Hin. destruct Hin as [Hin|Hin]; [|rewrite Forall_forall in E3; apply E3 in Hin; discriminate].
  clear -E2 Hin. induction E2 as [|x g l l' [R S] _ IH]; [destruct Hin|]. destruct Hin as [->|Hin]; [|destruct (IH Hin) as [g' [A B]]; exists g'; split; [right; exact A|exact B]].
  exists g. split; [left; reflexivity|]. split; [exact R|]. cbn [fst snd] in S. destruct (closed _ _ _); [|discriminate]. injection S as ->. reflexivity.
Qed.
Lemma loaded k path r : nth_error (v_calls v) k = Some (CLoad path, Some r) -> clean path -> path <> [] ->
  exists a now b, ops = a ++ DNext There now :: b /\ length (v_calls (d_dev (drun a))) = S k /\ obtained There (n_log (f_net (d_net (drun a)))) = flat_map saved (indexed (v_calls (d_dev (drun a)))) /\
    match files There now path with Some msg => exists data, r = Loaded data /\ ((forall j, clean (piece CHUNK_REQUEST msg j)) -> data = msg) | None => r = Failed (err_text NoFile) end.
Proof.
  intros Hk Hc Hp. destruct (asked _ _ _ Hk eq_refl) as [g [Hg [[a [now [b [E [L [[Sz R] Ob]]]]]] Er]]]. cbn [fst snd ask_path] in *. rewrite (normal_clean path Hc) in R. exists a, now, b. split; [exact E|]. split; [exact L|]. split; [exact Ob|]. unfold answer in Er.
  destruct R as [[msg [Ef [Ty [_ Ms]]]]|[x [Ty [Ms Hx]]]].
  - rewrite Ef. rewrite Ty in Er. eexists. split; [exact Er|]. intros Q. rewrite <- Ms. apply (content_is There); [exact Hg|]. rewrite Sz, Ms. exact Q.
  - destruct (Hx Hp) as [-> Ef]. rewrite Ef. rewrite Ty in Er. change (1 =? 0) with false in Er. rewrite Er. f_equal. rewrite <- Ms. apply (content_is There); [exact Hg|]. intros j. rewrite Ms. apply plain_clean, plain_piece, (error_plain files files_full).
Qed.
Lemma connected k r : nth_error (v_calls v) k = Some (CConnect, Some r) -> r = Connected.
Proof. intros Hk. destruct (asked _ _ _ Hk eq_refl) as [g [_ [_ Er]]]. exact Er. Qed.

Lemma only_saved k p c r : nth_error (v_calls v) k = Some (CSave p c, Some r) -> r = Saved.
Proof.
  intros Hk. assert (In (k, (CSave p c, Some r)) (saves v)) as Hs by (apply filter_In; split; [apply indexed_in; exact Hk|reflexivity]). pose proof (i_saves _ _ _ _ H) as S. fold v in S.
  clear -S Hs. induction S as [|x g l l' [p0 [q [_ [_ [_ [_ [_ S]]]]]]] _ IH]; [destruct Hs|]. destruct Hs as [->|Hs]; [|apply IH; exact Hs]. cbn [fst snd] in S. destruct (_ <=? _); [|discriminate]. injection S as ->. reflexivity.
Qed.

(* all messages have arrived *)
Hypothesis Arr : arrived f.
Lemma none_pending s : pending f s = [].
Proof. unfold pending. pose proof (Arr (other s)) as Q. rewrite other_other in Q. rewrite Q. apply skipn_all. Qed.
Lemma closed_now s g : In g (G s) -> cn f s g = 2 * t_amount g + 1.
Proof.
  intros Hg. destruct (f_phase _ _ _ _ _ (i_f _ _ _ _ H) _ _ Hg) as [c [e [a [P [Pc _]]]]]. fold f in P, Pc. rewrite !none_pending in P. cbn [filter] in P. unfold cn. rewrite <- Pc. inversion P. reflexivity.
Qed.
Lemma all_settled : Forall (fun x => snd x <> None) (v_calls v).
Proof.
  apply Forall_forall. intros [c r] Hin E. cbn [snd] in E. subst r. apply In_nth_error in Hin. destruct Hin as [k Hk]. apply indexed_in in Hk. destruct (is_save c) eqn:Sc.
  - assert (In (k, (c, None)) (saves v)) as Hs by (apply filter_In; split; [exact Hk|exact Sc]). pose proof (i_saves _ _ _ _ H) as S. fold v f in S. assert (forall g, In g (G Here) -> cn f Here g = 2 * t_amount g + 1) as C by (intros g; apply closed_now).
    clear -S Hs C. induction S as [|x g l l' [p [q [_ [_ [_ [_ [_ S]]]]]]] _ IH]; [destruct Hs|]. destruct Hs as [->|Hs]; [|apply IH; [exact Hs|intros y Hy; apply C; right; exact Hy]].
    cbn [fst snd] in S. rewrite C in S by (left; reflexivity). replace (2 * t_amount g <=? 2 * t_amount g + 1) with true in S by lia. discriminate.
  - assert (In (k, (c, None)) (asks v)) as Ha by (apply filter_In; split; [exact Hk|cbn [fst snd]; rewrite Sc; reflexivity]). destruct (i_asks _ _ _ _ H) as [B1 [B2 [E1 [E2 [_ E4]]]]]. fold v in E1. fold f in E2, E4. rewrite none_pending in E4. destruct B2; [|discriminate].
    rewrite app_nil_r in E1. rewrite E1 in Ha. assert (forall g, In g (G There) -> cn f There g = 2 * t_amount g + 1) as C by (intros g; apply closed_now).
    clear -E2 Ha C. induction E2 as [|x g l l' [_ S] _ IH]; [destruct Ha|]. destruct Ha as [->|Ha]; [|apply IH; [exact Ha|intros y Hy; apply C; right; exact Hy]].
    cbn [fst snd] in S. unfold closed in S. rewrite C, Z.eqb_refl in S by (left; reflexivity). discriminate.
Qed.
Lemma all_saved : obtained There (n_log (f_net f)) = flat_map saved (indexed (v_calls v)).
Proof.
  rewrite obtained_closings, saved_saves. fold (saves v). change There with (other Here). rewrite (o_close _ _ (i_o _ _ _ _ H)). fold f. rewrite filter_all by (intros g Hg; unfold closed; rewrite closed_now by exact Hg; apply Z.eqb_refl).
  pose proof (i_saves _ _ _ _ H) as S. assert (forall h, In h (G Here) -> t_amount h = amount_of (t_size h) (t_rest h)) as Am by (intros h Hh; apply (amount_good Here), Hh). fold v f in S.
  clear -S Am. induction S as [|x h l l' [p0 [c0 [Q1 [Q2 [Q3 [Q4 [Q5 _]]]]]]] _ IH]; [reflexivity|]. cbn [map flat_map]. rewrite IH by (intros y Hy; apply Am; right; exact Hy). f_equal.
  unfold saved. rewrite Q1. unfold closing. rewrite Q5. cbn [Z.eqb]. unfold content, joined. rewrite (Am h) by (left; reflexivity). rewrite Q2, Q3, Q4. reflexivity.
Qed.
End Whole.

(* the calls made so far remain *)
Lemma settle_fst k o l : map fst (settle k o l) = map fst l.
Proof. revert k. induction l as [|[c r] l IH]; intros [|k]; cbn; try reflexivity. rewrite IH. reflexivity. Qed.
Lemma event_fst v e : map fst (v_calls (on_event v e)) = map fst (v_calls v).
Proof. destruct e; cbn [on_event]; try reflexivity; [destruct (file && (chunk + 1 =? amount)); [|reflexivity]; destruct (v_send v)|destruct (v_finish v)|destruct (v_error v)]; try reflexivity; unfold pinged, settled; cbn [v_calls]; apply settle_fst. Qed.
Lemma events_fst l : forall v, map fst (v_calls (fold_left on_event l v)) = map fst (v_calls v).
Proof. induction l as [|e l IH]; intros v; [reflexivity|]. cbn [fold_left]. rewrite IH. apply event_fst. Qed.
Lemma begin_fst c v : exists l, map fst (v_calls (begin c v)) = map fst (v_calls v) ++ l.
Proof. unfold begin. destruct c; destruct (v_on v); cbn [v_calls]; rewrite ?map_app; first [eexists; reflexivity|exists []; rewrite app_nil_r; reflexivity]. Qed.
Lemma drun_fst a b : exists l, map fst (v_calls (d_dev (drun (a ++ b)))) = map fst (v_calls (d_dev (drun a))) ++ l.
Proof.
  induction b as [|b o IH] using rev_ind_snoc; [exists []; rewrite !app_nil_r; reflexivity|]. destruct IH as [l IH]. rewrite app_assoc, drun_snoc. unfold dstep. cbn [d_dev]. rewrite events_fst.
  destruct o as [now c|s now]; [|rewrite IH; eauto]. destruct (begin_fst c (d_dev (drun (a ++ b)))) as [l' ->]. rewrite IH, <- app_assoc. eauto.
Qed.
Definition saved_call (c : call) : list (list Z * list Z) := match c with CSave p c => [(normal p, joined CHUNK_SEND c)] | _ => [] end.
Lemma saved_fst l : flat_map saved (indexed l) = flat_map saved_call (map fst l).
Proof. induction l as [|l x IH] using rev_ind_snoc; [reflexivity|]. rewrite indexed_snoc, map_app, !flat_map_app, IH. reflexivity. Qed.
Lemma joined_clean size msg : 1 <= size -> (forall j, clean (piece size msg j)) -> joined size msg = msg.
Proof. intros Hs Hc. apply (content_clean (mkTx [] 0 [] (amount_of size msg) size msg 0 None)); auto. Qed.
Lemma after_none path l : forall old, (forall x, In x l -> fst x <> path) -> after old path l = old.
Proof. unfold after. induction l as [|x l IH]; intros old Hn; [reflexivity|]. cbn [fold_left]. rewrite (eqb_neq (fst x) path) by (apply Hn; left; reflexivity). apply IH. intros y Hy. apply Hn. right. exact Hy. Qed.
Lemma after_app old path a b : after old path (a ++ b) = after (after old path a) path b. Proof. apply fold_left_app. Qed.
Lemma after_save old path content l1 l2 : clean path -> (forall j, clean (piece CHUNK_SEND content j)) -> (forall p c, In (CSave p c) l2 -> clean p /\ p <> path) ->
  after old path (flat_map saved_call (l1 ++ CSave path content :: l2)) = Some content.
Proof.
  intros Hp Hc Hn. rewrite flat_map_app, after_app. cbn [flat_map saved_call app]. unfold after at 1. cbn [fold_left fst snd]. rewrite (normal_clean path Hp), eqb_refl. rewrite joined_clean; [|unfold CHUNK_SEND; lia|exact Hc].
  apply after_none. intros x Hx. apply in_flat_map in Hx. destruct Hx as [c [Hc' Hx]]. destruct c as [|p|p q]; try (destruct Hx; fail). destruct Hx as [<-|[]]. destruct (Hn _ _ Hc') as [Cp Np]. cbn [fst]. rewrite (normal_clean p Cp). exact Np.
Qed.

Lemma roundtrip disk ops G i k path content s r : DInv ops (d_dev (drun ops)) (d_net (drun ops)) G -> stores files throws seed disk ops -> (i < k)%nat ->
  nth_error (v_calls (d_dev (drun ops))) i = Some (CSave path content, s) -> nth_error (v_calls (d_dev (drun ops))) k = Some (CLoad path, Some r) ->
  (forall j p c t, (i < j < k)%nat -> nth_error (v_calls (d_dev (drun ops))) j = Some (CSave p c, t) -> clean p /\ p <> path) ->
  clean path -> path <> [] -> (forall j, clean (piece CHUNK_SEND content j)) -> (forall j, clean (piece CHUNK_REQUEST content j)) -> r = Loaded content.
Proof.
  intros H Hs Hik Hi Hk Hn Cp Np Cc Cr. destruct (loaded ops G H k path r Hk Cp Np) as [a [now [b [E [L [Ob R]]]]]].
  rewrite (Hs a now b E path), Ob, saved_fst in R. destruct (drun_fst a (DNext There now :: b)) as [l El]. rewrite <- E in El.
  set (ca := map fst (v_calls (d_dev (drun a)))) in *. assert (length ca = S k) as Lc by (unfold ca; rewrite map_length; exact L).
  assert (forall j c, (j < S k)%nat -> nth_error ca j = Some c -> exists t, nth_error (v_calls (d_dev (drun ops))) j = Some (c, t)) as Back.
  { intros j c Hj Q. assert (nth_error (map fst (v_calls (d_dev (drun ops)))) j = Some c) as Q1 by (rewrite El, nth_error_app1 by lia; exact Q). rewrite nth_error_map in Q1.
    destruct (nth_error (v_calls (d_dev (drun ops))) j) as [[c' t]|]; [|discriminate]. cbn in Q1. injection Q1 as ->. eauto. }
  assert (nth_error ca i = Some (CSave path content)) as Hci. { rewrite <- (nth_error_app1 ca l) by lia. rewrite <- El, nth_error_map, Hi. reflexivity. }
  destruct (nth_error_split _ _ Hci) as [l1 [l2 [Ec L1]]]. rewrite Ec in R. rewrite (after_save (disk path) path content l1 l2 Cp Cc) in R.
  - destruct R as [data [-> Rd]]. rewrite (Rd Cr). reflexivity.
  - intros p c Hin. apply In_nth_error in Hin. destruct Hin as [j Hj]. assert (nth_error ca (i + 1 + j) = Some (CSave p c)) as Q.
    { rewrite Ec, nth_error_app2 by lia. replace (i + 1 + j - length l1)%nat with (S j) by lia. exact Hj. }
    assert (i + 1 + j < S k)%nat as Hl by (rewrite <- Lc; apply nth_error_Some; congruence). destruct (Back _ _ Hl Q) as [t Qt]. destruct (Nat.eq_dec (i + 1 + j) k) as [Ek|Ek]; [rewrite Ek in Qt; congruence|].
    apply (Hn (i + 1 + j)%nat p c t); [lia|exact Qt].
Qed.
End Device.

Lemma proper_inv files throws seed ops : proper files throws seed ops -> exists G, DInv files throws seed ops (d_dev (drun files throws seed ops)) (d_net (drun files throws seed ops)) G /\
  d_net (drun files throws seed ops) = frun files throws seed (map fop_of ops) /\ (forall s, 0 <= seed s < 16777216) /\ short_files files /\ (forall s now path, files s now path <> Some []).
Proof. intros [[A [B [C [D [E F]]]]] [O P]]. destruct (dinv files throws seed A B C P ops D E F O) as [G [H Ef]]. exists G. auto. Qed.

(* ---- errors, for all histories ---- *)
Definition no_ping (c : callback) : Prop := forall k, c <> CbPing k.
Record EInv (v : device) : Prop := {
  ei_on : v_on v = true -> no_ping (v_finish v) /\ no_ping (v_error v);
  ei_send : no_ping (v_send v);
  ei_last : forall old c, v_calls v = old ++ [(c, None)] -> c <> CConnect -> v_on v = true /\ v_error v = CbCall (length old)
}.
Lemma settle_pending k o l old c : settle k o l = old ++ [(c, None)] -> exists old', l = old' ++ [(c, None)] /\ length old' = length old.
Proof.
  revert k old. induction l as [|[c' r] l IH]; intros k old E; [destruct k, old; discriminate|]. destruct k as [|k]; cbn [settle] in E.
  - destruct old as [|x old]; cbn in E.
    + destruct r; discriminate.
    + injection E as <- ->. exists ((c', r) :: old). auto.
  - destruct old as [|x old]; cbn in E.
    + destruct l as [|p l]; [|destruct k, p; discriminate]. destruct k; injection E as -> ->; exists []; auto.
    + injection E as <- E. destruct (IH k old E) as (old' & -> & H). exists ((c', r) :: old'). cbn. auto.
Qed.
Lemma einv_settled k o v : EInv v -> EInv (settled k o v).
Proof.
  intros [A B C]. split; cbn; auto. intros old c E Hc. apply settle_pending in E. destruct E as (old' & E & H). rewrite <- H. apply (C old' c E Hc).
Qed.
Lemma einv_event v e : EInv v -> EInv (on_event v e).
Proof.
  intros I. destruct I as [A B C] eqn:EI. clear EI.
  assert (P : forall k, v_on v = true -> v_finish v <> CbPing k /\ v_error v <> CbPing k) by (intros k Hk; destruct (A Hk); auto).
  assert (Q : forall k, (v_finish v = CbPing k \/ v_error v = CbPing k) -> EInv (pinged k v)).
  { intros k Hk. assert (Hoff : v_on v = false) by (destruct (v_on v); [destruct (P k eq_refl); tauto|reflexivity]). split; cbn.
    - intros _. split; intros j; discriminate.
    - exact B.
    - intros old c E Hc. apply settle_pending in E. destruct E as (old' & E & H). destruct (C old' c E Hc). congruence. }
  assert (G : forall cb o, (forall k, cb = CbPing k -> EInv (pinged k v)) -> EInv match cb with CbNone => v | CbPing k => pinged k v | CbCall k => settled k o v end).
  { intros cb o H. destruct cb; auto using einv_settled. }
  destruct e; cbn [on_event]; auto. destruct (file && _); auto. apply G. intros k Hk. destruct (B k Hk).
Qed.
Lemma einv_events l : forall v, EInv v -> EInv (fold_left on_event l v).
Proof. induction l as [|e l IH]; cbn; auto using einv_event. Qed.
Lemma einv_begin c v : EInv v -> EInv (begin c v).
Proof.
  intros I. destruct I as [A B C] eqn:EI. clear EI.
  assert (S : forall old c0 x, v_calls v ++ [x] = old ++ [(c0, None)] -> x = (c0, None) /\ old = v_calls v) by (intros old c0 x E; apply app_inj_tail in E; destruct E; auto).
  destruct c as [|p|p cont]; cbn [begin].
  - destruct (v_on v) eqn:Eo; [exact I|]. split; cbn; [discriminate|exact B|]. intros old c E Hc. apply S in E. destruct E as (E & _). congruence.
  - destruct (v_on v) eqn:Eo; split; cbn; try discriminate; try exact B.
    + intros _. split; intros j; discriminate.
    + intros old c E Hc. apply S in E. destruct E as (_ & ->). auto.
    + intros old c E Hc. apply S in E. destruct E as (E & _). discriminate.
  - destruct (v_on v) eqn:Eo; split; cbn; try discriminate; try exact B.
    + intros _. split; [apply A; reflexivity|intros j; discriminate].
    + intros old c E Hc. apply S in E. destruct E as (_ & ->). auto.
    + intros old c E Hc. apply S in E. destruct E as (E & _). discriminate.
Qed.
Lemma einv_run files throws seed ops : EInv (d_dev (drun files throws seed ops)).
Proof.
  unfold drun. induction ops as [|ops o IH] using rev_ind_snoc.
  - split; cbn; [discriminate|intros k; discriminate|]. intros old c E. destruct old; discriminate.
  - rewrite fold_left_app. cbn [fold_left]. unfold dstep at 1. cbn [d_dev]. apply einv_events. destruct o; [apply einv_begin|]; exact IH.
Qed.
Lemma settle_done k o l old x r : l = old ++ [(x, Some r)] -> exists old', settle k o l = old' ++ [(x, Some r)] /\ length old' = length old.
Proof.
  intros ->. revert k. induction old as [|[c s] old IH]; intros k.
  - destruct k as [|k]; [exists []; auto|]. exists []. destruct k; auto.
  - destruct k as [|k]; cbn [settle app]; [eexists ((_, _) :: old); split; [reflexivity|reflexivity]|]. destruct (IH k) as (old' & -> & H). exists ((c, s) :: old'). cbn. auto.
Qed.
Lemma events_done l : forall v old x r, v_calls v = old ++ [(x, Some r)] -> exists old', v_calls (fold_left on_event l v) = old' ++ [(x, Some r)].
Proof.
  induction l as [|e l IH]; intros v old x r H; [exists old; exact H|]. cbn [fold_left].
  assert (G : exists old', v_calls (on_event v e) = old' ++ [(x, Some r)]).
  { assert (S : forall k o, exists old', settle k o (v_calls v) = old' ++ [(x, Some r)]) by (intros k o; destruct (settle_done k o _ _ _ _ H) as (old' & E & _); eauto).
    destruct e; cbn [on_event]; eauto; [destruct (file && _); eauto; destruct (v_send v)|destruct (v_finish v)|destruct (v_error v)]; cbn [pinged settled v_calls]; eauto. }
  destruct G as (old' & G). exact (IH _ _ _ _ G).
Qed.
Lemma error_reported files throws seed ops now old c text pre rest :
  v_calls (d_dev (drun files throws seed ops)) = old ++ [(c, None)] -> c <> CConnect ->
  since Here (n_log (f_net (d_net (drun files throws seed ops)))) (n_log (f_net (d_net (drun files throws seed (ops ++ [DNext Here now]))))) = pre ++ RecvError text :: rest -> Forall no_answer pre ->
  exists old', v_calls (d_dev (drun files throws seed (ops ++ [DNext Here now]))) = old' ++ [(c, Some (Failed text))].
Proof.
  intros H Hc Hs Hpre. destruct (ei_last _ (einv_run files throws seed ops) old c H Hc) as (_ & He). unfold drun in *. rewrite fold_left_app in *. cbn [fold_left] in *.
  set (d := fold_left (dstep files throws) ops (dstart seed)) in *. unfold dstep in Hs |- *. cbn [d_dev d_net] in *. rewrite Hs, fold_left_app.
  assert (P : fold_left on_event pre (d_dev d) = d_dev d) by (clear -Hpre; induction Hpre as [|e pre H1 H2 IH]; [reflexivity|]; cbn [fold_left]; destruct e; try contradiction; exact IH).
  rewrite P. cbn [fold_left on_event]. rewrite He. cbn [settled].
  eapply events_done. cbn [settled v_calls]. rewrite H. apply settle_last.
Qed.
