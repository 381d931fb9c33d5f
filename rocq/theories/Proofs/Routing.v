From Verif.Lib Require Import Base.
From Verif.Model Require Import Midi Routing.
From Verif.Spec Require Import Routing.
Open Scope nat_scope.

Lemma existsb_in d l : existsb (Nat.eqb d) l = true <-> In d l.
Proof.
  rewrite existsb_exists. split.
  - intros (x & Hin & E). apply Nat.eqb_eq in E. congruence.
  - intros H. exists d. split; auto. apply Nat.eqb_refl.
Qed.
Lemma existsb_notin d l : existsb (Nat.eqb d) l = false <-> ~ In d l.
Proof. rewrite <- existsb_in. destruct (existsb (Nat.eqb d) l); intuition congruence. Qed.

Definition has_source (rs : list routing) (d : nat) : Prop := exists r, In r rs /\ source r = Dev d.


(* the position function is only determined pointwise *)
Lemma read_sources_spec inp rs : forall pos S R p S' R' ev, read_sources inp pos rs S R = (p, S', R', ev) ->
  exists ds, S' = S ++ ds /\ R' = R ++ map (fun d => inp d (pos d)) ds /\ ev = map (fun d => RRead true d (inp d (pos d))) ds /\
    NoDup ds /\ (forall d, In d ds <-> has_source rs d /\ ~ In d S) /\
    (forall k, p k = if existsb (Nat.eqb k) ds then Datatypes.S (pos k) else pos k).
Proof.
  induction rs as [|r rs IH]; intros pos S R p S' R' ev H; cbn in H.
  - inv H. exists []. rewrite !app_nil_r. split; auto. split; auto. split; auto. split; [constructor|]. split; [|reflexivity].
    intros d. split; [intros []|]. intros ((r & [] & _) & _).
  - destruct (source r) as [|d] eqn:Es.
    { destruct (IH _ _ _ _ _ _ _ H) as (ds & A & B & C & D & E & F). exists ds. split; auto. split; auto. split; auto. split; auto. split; auto.
      intros d9. rewrite E. split; intros ((r' & Hin & Hr) & Hn); (split; [|exact Hn]).
      - exists r'. split; auto. right. auto.
      - destruct Hin as [<-|Hin]; [congruence|]. exists r'. auto. }
    destruct (existsb (Nat.eqb d) S) eqn:Ex.
    { apply existsb_in in Ex. destruct (IH _ _ _ _ _ _ _ H) as (ds & A & B & C & D & E & F). exists ds. split; auto. split; auto. split; auto. split; auto. split; auto.
      intros d9. rewrite E. split; intros ((r' & Hin & Hr) & Hn); (split; [|exact Hn]).
      - exists r'. split; auto. right. auto.
      - destruct Hin as [<-|Hin]; [congruence|]. exists r'. auto. }
    apply existsb_notin in Ex.
    destruct (read_sources inp (bump pos d) rs (S ++ [d]) (R ++ [inp d (pos d)])) as [[[p1 s1] t1] ev1] eqn:Er. inv H.
    destruct (IH _ _ _ _ _ _ _ Er) as (ds & A & B & C & D & E & F).
    assert (Hnd : ~ In d ds) by (intros X; apply E in X; apply (proj2 X); apply in_or_app; right; left; auto).
    assert (Hpos : forall k, In k ds -> bump pos d k = pos k).
    { intros k Hk. unfold bump. destruct (k =? d)%nat eqn:Ek; auto. apply Nat.eqb_eq in Ek. congruence. }
    exists (d :: ds). rewrite A, B, C, <- !app_assoc. cbn [app map].
    assert (M1 : map (fun k => inp k (bump pos d k)) ds = map (fun k => inp k (pos k)) ds) by (apply map_ext_in; intros k Hk; rewrite Hpos; auto).
    assert (M2 : map (fun k => RRead true k (inp k (bump pos d k))) ds = map (fun k => RRead true k (inp k (pos k))) ds) by (apply map_ext_in; intros k Hk; rewrite Hpos; auto).
    rewrite M1, M2. split; auto. split; auto. split; auto. split; [constructor; auto|]. split.
    + intros d0. split.
      { intros [<-|H]; [split; auto; exists r; split; auto; left; auto|]. apply E in H. destruct H as ((r' & Hin & Hr) & Hn). split.
        - exists r'. split; auto. right. auto.
        - intros X. apply Hn. apply in_or_app. auto. }
      intros ((r' & [<-|Hin] & Hr) & Hn); [left; congruence|]. destruct (Nat.eq_dec d d0) as [->|Hne]; [left; auto|]. right. apply E. split; [exists r'; auto|].
      intros X. apply in_app_or in X. destruct X as [X|[X|[]]]; auto.
    + intros k. rewrite F. cbn [existsb]. unfold bump. destruct (k =? d)%nat eqn:Ek; cbn [orb].
      * apply Nat.eqb_eq in Ek. subst k. replace (existsb (Nat.eqb d) ds) with false; auto. symmetry. apply existsb_notin. auto.
      * reflexivity.
Qed.

Lemma passing_forwardable x : passing [x] = match forwardable x with Some m => [m] | None => [] end.
Proof. destruct x as [[| | |[s|]|]|]; reflexivity. Qed.

Lemma distribute_spec s t f ds : NoDup ds ->
  distribute s t ds (map f ds) = if existsb (Nat.eqb s) ds then map (RSend s t) (passing [f s]) else [].
Proof.
  induction ds as [|d ds IH]; intros Hd; [reflexivity|]. apply NoDup_cons_iff in Hd. destruct Hd as [Hn Hd]. cbn [distribute map existsb].
  rewrite (IH Hd), (Nat.eqb_sym s d). destruct (d =? s)%nat eqn:E; cbn [orb]; auto. apply Nat.eqb_eq in E. subst d.
  rewrite passing_forwardable. destruct (forwardable (f s)); auto. replace (existsb (Nat.eqb s) ds) with false; auto. symmetry. apply existsb_notin. auto.
Qed.

Lemma external_in rs r : In r (external rs) <-> In r rs /\ exists s t, source r = Dev s /\ target r = Dev t.
Proof.
  unfold external. rewrite filter_In. destruct (source r) as [|s], (target r) as [|t]; cbn; split; intros [H1 H2]; split; auto; try discriminate;
    try (destruct H2 as (? & ? & ? & ?); discriminate). exists s, t. auto.
Qed.

Lemma forward_external rs inp pos : flat_map (fun r => match source r, target r with Dev s, Dev t => map (RSend s t) (passing [inp s (pos s)]) | _, _ => [] end) (external rs) = forward_all rs inp pos.
Proof.
  unfold forward_all, external. induction rs as [|r rs IH]; auto. cbn [filter flat_map]. rewrite <- IH. destruct (source r) as [|s] eqn:Es, (target r) as [|t] eqn:Et; cbn [is_app negb andb flat_map app]; auto.
  rewrite Es, Et. reflexivity.
Qed.

Lemma flat_map_ext_in {A B} (f g : A -> list B) l : (forall x, In x l -> f x = g x) -> flat_map f l = flat_map g l.
Proof. induction l as [|x l IH]; intros H; cbn; auto. rewrite (H x) by (left; auto). rewrite IH; auto. intros y Hy. apply H. right. auto. Qed.

Lemma process_external_spec rs inp pos p ev : process_external rs inp pos = (p, ev) ->
  exists ds, NoDup ds /\ (forall d, In d ds <-> is_ext_source rs d) /\
    ev = map (fun d => RRead true d (inp d (pos d))) ds ++ forward_all rs inp pos /\
    (forall k, p k = if existsb (Nat.eqb k) ds then S (pos k) else pos k).
Proof.
  unfold process_external. intros H. destruct (read_sources inp pos (external rs) [] []) as [[[p1 s1] t1] ev1] eqn:Er. inv H.
  destruct (read_sources_spec _ _ _ _ _ _ _ _ _ Er) as (ds & -> & -> & -> & D & E & F). cbn [app]. exists ds. split; auto. split; [|split; auto].
  - intros d. rewrite E. split.
    + intros ((r & Hin & Hs) & _). apply external_in in Hin. destruct Hin as [Hin (s & t & H1 & H2)]. exists r, t. rewrite Hs in H1. inv H1. auto.
    + intros (r & t & Hin & Hs & Ht). split; [|auto]. exists r. split; auto. apply external_in. split; auto. exists d, t. auto.
  - f_equal. rewrite <- forward_external. apply flat_map_ext_in. intros r Hin. destruct (source r) as [|s] eqn:Es, (target r) as [|t] eqn:Et; auto.
    rewrite distribute_spec by auto. replace (existsb (Nat.eqb s) ds) with true; auto. symmetry. apply existsb_in. apply E. split; auto. exists r. auto.
Qed.

Lemma poll_appl_spec inp : forall l pos p x ev, (forall r, In r l -> target r = App) -> poll_appl l inp pos = Ok (p, x, ev) ->
  exists ds1 rest, appl_sources l = ds1 ++ rest /\
    ((x = None /\ rest = [] /\ ev = map (fun d => RRead false d None) ds1) \/
     (exists d m rest', rest = d :: rest' /\ x = Some m /\ ev = map (fun d => RRead false d None) ds1 ++ [RRead false d (Some m); RDeliver m])) /\
    forall k, pos k <= p k /\ reads_of k ev = window inp k (pos k) (p k - pos k).
Proof.
  induction l as [|r l IH]; intros pos p x ev Hl H; cbn in H.
  - inv H. exists [], []. split; auto. split; auto. intros k. split; auto. rewrite Nat.sub_diag. reflexivity.
  - destruct (source r) as [|d] eqn:Es; [discriminate|]. assert (Ht : target r = App) by (apply Hl; left; auto).
    unfold appl_sources. cbn [flat_map]. fold (appl_sources l). rewrite Es, Ht.
    destruct (inp d (pos d)) as [m|] eqn:Ei.
    + inv H. exists [], (d :: appl_sources l). split; auto. split; [right; exists d, m, (appl_sources l); auto|].
      intros k. unfold bump. cbn. rewrite (Nat.eqb_sym d k). destruct (k =? d) eqn:Ek.
      * apply Nat.eqb_eq in Ek. subst k. split; [lia|]. replace (S (pos d) - pos d) with 1 by lia. cbn. rewrite Ei. reflexivity.
      * split; auto. rewrite Nat.sub_diag. reflexivity.
    + destruct (poll_appl l inp (bump pos d)) as [[[p1 y] ev1]|] eqn:Ep; [|discriminate]. inv H.
      destruct (IH _ _ _ _ (fun r0 h => Hl r0 (or_intror h)) Ep) as (ds1 & rest & A & B & C). exists (d :: ds1), rest. split; [cbn; congruence|]. split.
      * destruct B as [(-> & -> & ->)|(d9 & m & rest' & -> & -> & ->)]; [left; auto|]. right. exists d9, m, rest'. auto.
      * intros k. destruct (C k) as [C1 C2]. cbn [reads_of flat_map]. fold (reads_of k ev1). rewrite C2. unfold bump in *. rewrite (Nat.eqb_sym d k).
        destruct (k =? d) eqn:Ek; [|split; auto]. apply Nat.eqb_eq in Ek. subst k. split; [lia|].
        replace (p d - pos d) with (S (p d - S (pos d))) by lia. cbn [window seq map app]. unfold window. cbn. rewrite Ei. reflexivity.
Qed.

Lemma appl_sources_to rs : appl_sources (to_appl rs) = appl_sources rs.
Proof.
  unfold appl_sources, to_appl. induction rs as [|r rs IH]; auto. cbn. destruct (target r) eqn:Et; cbn; rewrite ?Et, IH; auto.
Qed.

Lemma reads_forward k rs inp pos : reads_of k (forward_all rs inp pos) = [].
Proof.
  unfold forward_all, reads_of. induction rs as [|r rs IH]; auto. cbn [flat_map]. rewrite flat_map_app, IH, app_nil_r.
  destruct (source r), (target r); auto. induction (passing [inp d (pos d)]) as [|y l IHl]; auto.
Qed.

Lemma poll_spec rs inp pos p x ev : midi_receive rs inp pos = Ok (p, x, ev) ->
  exists ds e_app, NoDup ds /\ (forall d, In d ds <-> is_ext_source rs d) /\
    ev = map (fun d => RRead true d (inp d (pos d))) ds ++ forward_all rs inp pos ++ e_app /\
    (exists ds1 rest, appl_sources rs = ds1 ++ rest /\
      ((x = None /\ rest = [] /\ e_app = map (fun d => RRead false d None) ds1) \/
       (exists d m rest', rest = d :: rest' /\ x = Some m /\ e_app = map (fun d => RRead false d None) ds1 ++ [RRead false d (Some m); RDeliver m]))) /\
    forall k, pos k <= p k /\ reads_of k ev = window inp k (pos k) (p k - pos k).
Proof.
  unfold midi_receive. intros H. destruct (process_external rs inp pos) as [p1 e1] eqn:Ee.
  destruct (poll_appl (to_appl rs) inp p1) as [[[p2 y] e2]|] eqn:Ep; [|discriminate]. inv H.
  destruct (process_external_spec _ _ _ _ _ Ee) as (ds & D & E & -> & F).
  apply poll_appl_spec in Ep; [|intros r Hr; unfold to_appl in Hr; apply filter_In in Hr; destruct (target r); [auto|destruct Hr; discriminate]].
  destruct Ep as (ds1 & rest & A & B & C). rewrite appl_sources_to in A. exists ds, e2. split; auto. split; auto. rewrite <- app_assoc. split; auto.
  split; [exists ds1, rest; auto|]. intros k. destruct (C k) as [C1 C2]. rewrite F in *. clear - D C1 C2.
  assert (Hf : reads_of k (forward_all rs inp pos) = []) by apply reads_forward.
  unfold reads_of in *. rewrite !flat_map_app, C2, Hf. cbn [app].
  assert (Hr : flat_map (fun e => match e with RRead _ d' x => if d' =? k then [x] else [] | _ => [] end) (map (fun d => RRead true d (inp d (pos d))) ds)
             = if existsb (Nat.eqb k) ds then [inp k (pos k)] else []).
  { clear - D. induction ds as [|d ds IH]; auto. apply NoDup_cons_iff in D. destruct D as [Hn D]. cbn. rewrite (IH D), (Nat.eqb_sym k d). destruct (d =? k) eqn:E; auto.
    apply Nat.eqb_eq in E. subst d. replace (existsb (Nat.eqb k) ds) with false; auto. symmetry. apply existsb_notin. auto. }
  rewrite Hr. destruct (existsb (Nat.eqb k) ds); [|auto]. split; [lia|].
  replace (p k - pos k) with (S (p k - S (pos k))) by lia. reflexivity.
Qed.

Lemma window_app inp d p a b : window inp d p a ++ window inp d (p + a) b = window inp d p (a + b).
Proof. unfold window. rewrite seq_app, map_app. reflexivity. Qed.
Lemma reads_of_app k a b : reads_of k (a ++ b) = reads_of k a ++ reads_of k b.
Proof. apply flat_map_app. Qed.

Lemma polls_streams n rs inp : forall pos p evss k, polls n rs inp pos = Ok (p, evss) ->
  pos k <= p k /\ reads_of k (concat evss) = window inp k (pos k) (p k - pos k).
Proof.
  induction n as [|n IH]; intros pos p evss k H; cbn in H.
  - inv H. rewrite Nat.sub_diag. auto.
  - destruct (midi_receive rs inp pos) as [[[p1 x] e1]|] eqn:Er; [|discriminate]. destruct (polls n rs inp p1) as [[p2 es]|] eqn:Ep; [|discriminate]. inv H.
    destruct (poll_spec _ _ _ _ _ _ Er) as (ds & ea & _ & _ & _ & _ & Hk). destruct (Hk k) as [A B]. destruct (IH _ _ _ k Ep) as [C D].
    split; [lia|]. cbn [concat]. rewrite reads_of_app, B, D. replace (p1 k) with (pos k + (p1 k - pos k)) at 2 by lia. rewrite window_app. f_equal. lia.
Qed.

Lemma passing_app a b : passing (a ++ b) = passing a ++ passing b.
Proof. induction a as [|[[| | |[s|]|]|] a IH]; cbn; rewrite ?IH; auto. Qed.
Lemma messages_app a b : messages (a ++ b) = messages a ++ messages b.
Proof. induction a as [|[m|] a IH]; cbn; rewrite ?IH; auto. Qed.

Lemma ext_reads_poll s rs inp pos ds ea : NoDup ds -> (forall d, In d ds <-> is_ext_source rs d) ->
  Forall (fun e => match e with RRead b _ _ => b = false | RSend _ _ _ => False | RDeliver _ => True end) ea ->
  ext_reads_of s (map (fun d => RRead true d (inp d (pos d))) ds ++ forward_all rs inp pos ++ ea) = if existsb (Nat.eqb s) ds then [inp s (pos s)] else [].
Proof.
  intros D E F. unfold ext_reads_of. rewrite !flat_map_app.
  assert (flat_map (fun e => match e with RRead true d' x => if d' =? s then [x] else [] | _ => [] end) (forward_all rs inp pos) = []) as ->.
  { unfold forward_all. clear. induction rs as [|r rs IH]; auto. cbn [flat_map]. rewrite flat_map_app, IH, app_nil_r.
    destruct (source r), (target r); auto. induction (passing [inp d (pos d)]) as [|y l IHl]; auto. }
  assert (flat_map (fun e => match e with RRead true d' x => if d' =? s then [x] else [] | _ => [] end) ea = []) as ->.
  { clear - F. induction F as [|e es He F IH]; auto. cbn. rewrite IH. destruct e as [[|] d x| |]; auto. discriminate. }
  rewrite !app_nil_r. clear - D. induction ds as [|d ds IH]; auto. apply NoDup_cons_iff in D. destruct D as [Hn D]. cbn. rewrite (IH D), (Nat.eqb_sym s d). destruct (d =? s) eqn:E; auto.
  apply Nat.eqb_eq in E. subst d. replace (existsb (Nat.eqb s) ds) with false; auto. symmetry. apply existsb_notin. auto.
Qed.

Lemma app_part_kinds ds1 e_app (x : option msg) rest :
  ((x = None /\ rest = [] /\ e_app = map (fun d => RRead false d None) ds1) \/
   (exists (d : nat) m rest', rest = d :: rest' /\ x = Some m /\ e_app = map (fun d => RRead false d None) ds1 ++ [RRead false d (Some m); RDeliver m])) ->
  Forall (fun e => match e with RRead b _ _ => b = false | RSend _ _ _ => False | RDeliver _ => True end) e_app /\
  delivered e_app = messages (app_reads e_app) /\ delivered e_app = match x with Some m => [m] | None => [] end.
Proof.
  assert (A : forall ds, Forall (fun e => match e with RRead b _ _ => b = false | RSend _ _ _ => False | RDeliver _ => True end) (map (fun d => RRead false d None) ds)).
  { intros ds. apply Forall_forall. intros e He. apply in_map_iff in He. destruct He as (d & <- & _). reflexivity. }
  assert (B : forall ds, delivered (map (fun d => RRead false d None) ds) = [] /\ messages (app_reads (map (fun d => RRead false d None) ds)) = []).
  { induction ds as [|d ds [I1 I2]]; auto. }
  destruct (B ds1) as [B1 B2].
  intros [(-> & _ & ->)|(d & m & rest' & _ & -> & ->)].
  - rewrite B1, B2. auto.
  - split; [apply Forall_app; split; auto; repeat constructor|]. unfold delivered, app_reads in *. rewrite !flat_map_app, messages_app, B1, B2. auto.
Qed.

Lemma sends_forward s t rs inp pos : sends_of s t (forward_all rs inp pos) = flat_map (fun m => repeat m (routes rs s t)) (passing [inp s (pos s)]).
Proof.
  assert (Hx : forall x, exists l, passing [x] = l /\ (length l <= 1)).
  { intros [[| | |[q|]|]|]; eexists; (split; [reflexivity|cbn; lia]). }
  destruct (Hx (inp s (pos s))) as (l & El & Hl). rewrite El.
  unfold forward_all, sends_of, routes. induction rs as [|r rs IH]; cbn [flat_map filter length].
  - destruct l as [|m [|]]; cbn in Hl; try lia; reflexivity.
  - rewrite flat_map_app, IH. destruct (source r) as [|s'] eqn:Es, (target r) as [|t'] eqn:Et; cbn [endpoint_eqb andb app flat_map]; rewrite ?andb_false_r; auto.
    destruct (s' =? s) eqn:E1; cbn [andb].
    + apply Nat.eqb_eq in E1. subst s'. rewrite El. destruct (t' =? t) eqn:E2.
      * apply Nat.eqb_eq in E2. subst t'. destruct l as [|m [|]]; cbn in Hl; try lia; cbn; rewrite ?Nat.eqb_refl; cbn; auto.
      * destruct l as [|m [|]]; cbn in Hl; try lia; cbn; rewrite ?Nat.eqb_refl, ?E2; cbn; auto.
    + assert (flat_map (fun e => match e with RSend s'0 t'0 m => if (s'0 =? s) && (t'0 =? t) then [m] else [] | _ => [] end) (map (RSend s' t') (passing [inp s' (pos s')])) = []) as ->; auto.
      induction (passing [inp s' (pos s')]) as [|y k IHk]; auto. cbn. rewrite E1. exact IHk.
Qed.

Lemma sends_poll s t rs inp pos p x ev : midi_receive rs inp pos = Ok (p, x, ev) ->
  sends_of s t ev = flat_map (fun m => repeat m (routes rs s t)) (passing (ext_reads_of s ev)) /\
  (is_ext_source rs s -> ext_reads_of s ev = [inp s (pos s)]) /\ (~ is_ext_source rs s -> ext_reads_of s ev = []) /\
  delivered ev = messages (app_reads ev) /\ delivered ev = match x with Some m => [m] | None => [] end.
Proof.
  intros H. destruct (poll_spec _ _ _ _ _ _ H) as (ds & ea & D & E & -> & (ds1 & rest & _ & Ha) & _).
  destruct (app_part_kinds _ _ _ _ Ha) as (F & G1 & G2). rewrite (ext_reads_poll s rs inp pos ds ea D E F).
  assert (Z1 : sends_of s t (map (fun d => RRead true d (inp d (pos d))) ds) = []) by (clear; induction ds; auto).
  assert (Z2 : sends_of s t ea = []) by (clear - F; induction F as [|e es He F IH]; auto; cbn; destruct e; auto; destruct He).
  assert (Z3 : app_reads (map (fun d => RRead true d (inp d (pos d))) ds) = [] /\ delivered (map (fun d => RRead true d (inp d (pos d))) ds) = []) by (clear; induction ds as [|d ds [I1 I2]]; auto).
  assert (Z4 : app_reads (forward_all rs inp pos) = [] /\ delivered (forward_all rs inp pos) = []).
  { unfold forward_all, app_reads, delivered. clear. induction rs as [|r rs [I1 I2]]; auto. cbn [flat_map]. rewrite !flat_map_app, I1, I2, !app_nil_r.
    destruct (source r), (target r); auto. induction (passing [inp d (pos d)]) as [|y l IHl]; auto. }
  assert (S3 : forall a b c, sends_of s t (a ++ b ++ c) = sends_of s t a ++ sends_of s t b ++ sends_of s t c) by (intros; unfold sends_of; rewrite !flat_map_app; auto).
  assert (S4 : forall a b c, app_reads (a ++ b ++ c) = app_reads a ++ app_reads b ++ app_reads c) by (intros; unfold app_reads; rewrite !flat_map_app; auto).
  assert (S5 : forall a b c, delivered (a ++ b ++ c) = delivered a ++ delivered b ++ delivered c) by (intros; unfold delivered; rewrite !flat_map_app; auto).
  rewrite S3, S4, S5, Z1, Z2, (proj1 Z3), (proj2 Z3), (proj1 Z4), (proj2 Z4). cbn [app]. rewrite app_nil_r, sends_forward. repeat split; auto.
  - destruct (existsb (Nat.eqb s) ds) eqn:Ex; auto. replace (flat_map (fun m => repeat m (routes rs s t)) (passing [])) with (@nil msg) by reflexivity. assert (routes rs s t = 0) as ->.
    { apply existsb_notin in Ex. unfold routes. destruct (filter _ rs) as [|r l] eqn:Ef; auto. exfalso. apply Ex. apply E.
      assert (Hin : In r (filter (fun r => endpoint_eqb (source r) (Dev s) && endpoint_eqb (target r) (Dev t)) rs)) by (rewrite Ef; left; auto).
      apply filter_In in Hin. destruct Hin as [Hin He]. apply andb_true_iff in He. destruct He as [H1 H2].
      destruct (source r) as [|s'] eqn:Es; [discriminate|]. destruct (target r) as [|t'] eqn:Et; [discriminate|]. cbn in *. apply Nat.eqb_eq in H1. subst s'. exists r, t'. auto. }
    clear. induction (passing [inp s (pos s)]) as [|y l IHl]; auto.
  - intros Hs. apply E in Hs. apply existsb_in in Hs. rewrite Hs. auto.
  - intros Hs. replace (existsb (Nat.eqb s) ds) with false; auto. symmetry. apply existsb_notin. rewrite E. auto.
Qed.

Lemma polls_sends n rs inp s t : forall pos p evss, polls n rs inp pos = Ok (p, evss) ->
  sends_of s t (concat evss) = flat_map (fun m => repeat m (routes rs s t)) (passing (ext_reads_of s (concat evss))) /\
  delivered (concat evss) = messages (app_reads (concat evss)).
Proof.
  induction n as [|n IH]; intros pos p evss H; cbn in H.
  - inv H. auto.
  - destruct (midi_receive rs inp pos) as [[[p1 x] e1]|] eqn:Er; [|discriminate]. destruct (polls n rs inp p1) as [[p2 es]|] eqn:Ep; [|discriminate]. inv H.
    destruct (sends_poll s t _ _ _ _ _ _ Er) as (A & _ & _ & B & _). destruct (IH _ _ _ Ep) as [C D]. cbn [concat].
    unfold sends_of, ext_reads_of, delivered, app_reads in *. rewrite !flat_map_app, passing_app, messages_app, flat_map_app, A, B, C, D. auto.
Qed.

Lemma polls_ext_once n rs inp s : forall pos p evss, polls n rs inp pos = Ok (p, evss) ->
  length evss = n /\
  (is_ext_source rs s -> Forall (fun ev => length (ext_reads_of s ev) = 1) evss) /\
  (~ is_ext_source rs s -> Forall (fun ev => ext_reads_of s ev = []) evss).
Proof.
  induction n as [|n IH]; intros pos p evss H; cbn in H.
  - inv H. repeat split; auto.
  - destruct (midi_receive rs inp pos) as [[[p1 x] e1]|] eqn:Er; [|discriminate]. destruct (polls n rs inp p1) as [[p2 es]|] eqn:Ep; [|discriminate]. inv H.
    destruct (sends_poll s 0 _ _ _ _ _ _ Er) as (_ & A & B & _). destruct (IH _ _ _ Ep) as (C & D & E). cbn [length]. split; [auto|]. split; intros Hs.
    + constructor; [rewrite A; auto|]. auto.
    + constructor; [apply B; auto|]. auto.
Qed.

(* a device that is no source of the application is read only by the external routings *)
Lemma poll_app_reads rs inp pos p x ev d : midi_receive rs inp pos = Ok (p, x, ev) -> ~ is_app_source rs d -> ext_reads_of d ev = reads_of d ev.
Proof.
  intros H Hd. destruct (poll_spec _ _ _ _ _ _ H) as (ds & ea & D & E & -> & (ds1 & rest & Hs & Ha) & _).
  assert (Hin : forall k, In k (appl_sources rs) -> is_app_source rs k).
  { intros k Hk. unfold appl_sources in Hk. apply in_flat_map in Hk. destruct Hk as (r & Hr & Hk). destruct (target r) eqn:Et; [|destruct Hk].
    destruct (source r) as [|k'] eqn:Es; [destruct Hk|]. destruct Hk as [<-|[]]. exists r. auto. }
  assert (Hz : reads_of d ea = [] /\ ext_reads_of d ea = []).
  { assert (Hn : forall k, In k (ds1 ++ rest) -> k <> d) by (intros k Hk ->; apply Hd; apply Hin; rewrite Hs; auto). clear - Ha Hn.
    assert (Hm : forall l, (forall k, In k l -> k <> d) -> reads_of d (map (fun d => RRead false d None) l) = [] /\ ext_reads_of d (map (fun d => RRead false d None) l) = []).
    { induction l as [|k l IH]; intros Hl; auto. destruct IH as [I1 I2]; [intros; apply Hl; right; auto|]. cbn. replace (k =? d) with false; auto.
      symmetry. apply Nat.eqb_neq. apply Hl. left. auto. }
    destruct (Hm ds1) as [M1 M2]; [intros; apply Hn; apply in_or_app; auto|].
    destruct Ha as [(_ & _ & ->)|(k & m & rest' & -> & _ & ->)]; auto. unfold reads_of, ext_reads_of in *. rewrite !flat_map_app, M1, M2. cbn.
    replace (k =? d) with false; auto. symmetry. apply Nat.eqb_neq. apply Hn. apply in_or_app. right. left. auto. }
  destruct Hz as [Z1 Z2]. unfold reads_of, ext_reads_of in *. rewrite !flat_map_app, Z1, Z2, !app_nil_r. f_equal.
  - clear. induction ds; auto. cbn. rewrite IHds. auto.
  - pose proof (reads_forward d rs inp pos) as X. unfold reads_of in X. rewrite X. clear. unfold forward_all. induction rs as [|r rs IH]; auto. cbn [flat_map]. rewrite flat_map_app, IH, app_nil_r.
    destruct (source r), (target r); auto. induction (passing [inp d0 (pos d0)]) as [|y l IHl]; auto.
Qed.

Lemma external_exact n rs inp pos p evss s t : polls n rs inp pos = Ok (p, evss) -> is_ext_source rs s -> ~ is_app_source rs s ->
  sends_of s t (concat evss) = flat_map (fun m => repeat m (routes rs s t)) (passing (window inp s (pos s) n)).
Proof.
  intros H Hs Hn. destruct (polls_sends n rs inp s t _ _ _ H) as [-> _]. f_equal. f_equal.
  revert pos p evss H. induction n as [|n IH]; intros pos p evss H; cbn in H.
  - inv H. reflexivity.
  - destruct (midi_receive rs inp pos) as [[[p1 x] e1]|] eqn:Er; [|discriminate]. destruct (polls n rs inp p1) as [[p2 es]|] eqn:Ep; [|discriminate]. inv H.
    destruct (sends_poll s t _ _ _ _ _ _ Er) as (_ & A & _). pose proof (poll_app_reads _ _ _ _ _ _ s Er Hn) as B.
    destruct (poll_spec _ _ _ _ _ _ Er) as (ds & ea & _ & _ & _ & _ & Hk). destruct (Hk s) as [C1 C2]. rewrite (A Hs) in B. rewrite <- B in C2.
    apply (f_equal (@length _)) in C2. unfold window in C2. rewrite map_length, seq_length in C2. cbn [length] in C2.
    cbn [concat]. unfold ext_reads_of in *. rewrite flat_map_app. rewrite (A Hs), (IH _ _ _ Ep). replace (p1 s) with (S (pos s)) by lia. reflexivity.
Qed.

Lemma polls_total n rs inp : sane rs -> forall pos, polls n rs inp pos <> Raise.
Proof.
  intros Hs. induction n as [|n IH]; intros pos; cbn; [discriminate|]. destruct (midi_receive rs inp pos) as [[[p1 x] e1]|] eqn:Er.
  - specialize (IH p1). destruct (polls n rs inp p1) as [[p2 es]|]; congruence.
  - exfalso. unfold midi_receive in Er. destruct (process_external rs inp pos) as [p1 e1]. destruct (poll_appl (to_appl rs) inp p1) as [[[p2 y] e2]|] eqn:Ep; [discriminate|].
    clear Er. revert p1 Ep. assert (Hl : forall r, In r (to_appl rs) -> source r <> App).
    { intros r Hr. apply filter_In in Hr. destruct Hr as [Hr Ht]. intros Ha. apply (Hs r Hr). split; auto. destruct (target r); auto. discriminate. }
    induction (to_appl rs) as [|r l IHl]; intros p1 Ep; cbn in Ep; [discriminate|]. destruct (source r) as [|d] eqn:Es; [apply (Hl r); auto; left; auto|].
    destruct (inp d (p1 d)); [discriminate|]. destruct (poll_appl l inp (bump p1 d)) as [[[? ?] ?]|] eqn:E; [discriminate|]. apply (IHl (fun r0 h => Hl r0 (or_intror h)) _ E).
Qed.

Lemma send_exact rs m : sane rs ->
  midi_send rs m = Ok (flat_map (fun r => match source r, target r with App, Dev d => [(d, m)] | _, _ => [] end) rs).
Proof.
  unfold midi_send, from_appl. induction rs as [|r rs IH]; intros Hs; auto. assert (Hs' : sane rs) by (intros r0 Hr; apply Hs; right; auto).
  cbn [filter flat_map]. destruct (source r) as [|s] eqn:Es; cbn [is_app app]; auto. destruct (target r) as [|t] eqn:Et.
  - exfalso. apply (Hs r); auto. left. auto.
  - cbn [send_all]. rewrite Et, (IH Hs'). reflexivity.
Qed.

(* an application source that always has something starves the ones after it *)
Lemma starves n rs inp d e rest : appl_sources rs = d :: rest -> e <> d -> ~ is_ext_source rs e -> (forall k, inp d k <> None) ->
  forall pos p evss, polls n rs inp pos = Ok (p, evss) -> reads_of e (concat evss) = [].
Proof.
  intros Hd Hne Hx Hi. induction n as [|n IH]; intros pos p evss H; cbn in H.
  - inv H. reflexivity.
  - destruct (midi_receive rs inp pos) as [[[p1 x] e1]|] eqn:Er; [|discriminate]. destruct (polls n rs inp p1) as [[p2 es]|] eqn:Ep; [|discriminate]. inv H.
    cbn [concat]. rewrite reads_of_app, (IH _ _ _ Ep), app_nil_r.
    destruct (poll_spec _ _ _ _ _ _ Er) as (ds & ea & D & E & -> & (ds1 & rest1 & Hs & Ha) & Hk).
    (* the first application source delivers *)
    assert (Hds1 : ds1 = []).
    { destruct ds1 as [|k ds1]; auto. rewrite Hd in Hs. cbn in Hs. injection Hs as <- Hs. exfalso.
      destruct (Hk d) as [K1 K2]. assert (Hin : In None (reads_of d (map (fun d => RRead true d (inp d (pos d))) ds ++ forward_all rs inp pos ++ ea))).
      { rewrite !reads_of_app. apply in_or_app. right. apply in_or_app. right. destruct Ha as [(_ & _ & ->)|(k & m & r' & _ & _ & ->)]; cbn; rewrite Nat.eqb_refl; left; auto. }
      rewrite K2 in Hin. unfold window in Hin. apply in_map_iff in Hin. destruct Hin as (k & Hk' & _). apply (Hi k Hk'). }
    subst ds1. cbn [app] in Hs. rewrite Hd in Hs. destruct Ha as [(_ & -> & _)|(k & m & r' & -> & _ & ->)]; [discriminate|]. injection Hs as <- _.
    rewrite !reads_of_app, reads_forward. cbn. replace (d =? e) with false by (symmetry; apply Nat.eqb_neq; auto). rewrite app_nil_r.
    assert (Hn : ~ In e ds) by (rewrite E; auto). clear - Hn. unfold reads_of. induction ds as [|k ds IH]; auto. cbn [map flat_map]. rewrite IH by (intros X; apply Hn; right; auto).
    replace (k =? e) with false; auto. symmetry. apply Nat.eqb_neq. intros ->. apply Hn. left. auto.
Qed.

(* C18: one device, routed to device 1 and to the application; its n-th message is control change n *)
Definition shared_rs : list routing := [mkRouting (Dev 0) (Dev 1); mkRouting (Dev 0) App].
Definition shared_inp : input := fun _ k => Some (CC (Z.of_nat k) 0).
Lemma shared_splits n : forall pos p evss, polls n shared_rs shared_inp pos = Ok (p, evss) ->
  sends_to 1 (concat evss) = map (fun i => CC (Z.of_nat (pos 0 + 2 * i)) 0) (seq 0 n) /\
  delivered (concat evss) = map (fun i => CC (Z.of_nat (pos 0 + 2 * i + 1)) 0) (seq 0 n).
Proof.
  induction n as [|n IH]; intros pos p evss H; cbn [polls] in H.
  - inv H. auto.
  - assert (E : midi_receive shared_rs shared_inp pos = Ok (bump (bump pos 0) 0, Some (CC (Z.of_nat (S (pos 0))) 0),
        [RRead true 0 (Some (CC (Z.of_nat (pos 0)) 0)); RSend 0 1 (CC (Z.of_nat (pos 0)) 0); RRead false 0 (Some (CC (Z.of_nat (S (pos 0))) 0)); RDeliver (CC (Z.of_nat (S (pos 0))) 0)])) by reflexivity.
    rewrite E in H. destruct (polls n shared_rs shared_inp (bump (bump pos 0) 0)) as [[p2 es]|] eqn:Ep; [|discriminate]. inv H.
    destruct (IH _ _ _ Ep) as [A B]. cbn [concat]. unfold sends_to, delivered in *. rewrite !flat_map_app, A, B. cbn [flat_map app Nat.eqb seq map].
    rewrite <- seq_shift, !map_map. split; f_equal; try (do 2 f_equal; lia); apply map_ext; intros i; unfold bump; cbn [Nat.eqb]; do 2 f_equal; lia.
Qed.

Lemma shared_splits_ex : exists rs inp, sane rs /\ is_ext_source rs 0 /\ is_app_source rs 0 /\
  forall n pos p evss, polls n rs inp pos = Ok (p, evss) ->
  sends_to 1 (concat evss) = map (fun i => CC (Z.of_nat (pos 0 + 2 * i)) 0) (seq 0 n) /\
  delivered (concat evss) = map (fun i => CC (Z.of_nat (pos 0 + 2 * i + 1)) 0) (seq 0 n).
Proof.
  exists shared_rs, shared_inp. split; [intros r [<-|[<-|[]]] [H1 H2]; discriminate|].
  split; [exists (mkRouting (Dev 0) (Dev 1)), 1; cbn; auto|]. split; [exists (mkRouting (Dev 0) App); cbn; auto|]. apply shared_splits.
Qed.
