From Coq Require Import String.
From Verif.Lib Require Import Base.
From Verif.Model Require Import Midi Period Mapping Client KemperMappings.
From Verif.Spec Require Import Mapping Client ClientSafe Wire KemperMappings.
From Verif.Proofs Require ClientSafe.
Open Scope Z_scope.

(* ---- enumeration ---- *)
Definition slots := [SlotA; SlotB; SlotC; SlotD; SlotX; SlotMOD; SlotDLY; SlotREV; SlotDLYns; SlotREVns].
Definition all : list kparam :=
  map EffectState slots ++ map EffectType slots ++ map DlyRevMix slots ++ map RotarySpeed slots ++ map Freeze slots ++
  map SelectRig [Rig1; Rig2; Rig3; Rig4; Rig5] ++ map EffectButton [ButtonI; ButtonII; ButtonIII; ButtonIV] ++
  [RigDate; RigName; TunerMode; TunerNote; TunerDeviance; Sense; RigId; AmpName; AmpState; AmpGain; CabName; CabState; RigComment;
   RigVolume; RigTranspose; NextBank; PrevBank; SelectBank; FreezeAll; FixTranspose; FixGate; FixComp; FixBoost; FixWah; FixChorus;
   FixAir; FixTracker; LoopRec; LoopStop; LoopTrigger; LoopReverse; LoopHalf; LoopCancel; LoopErase; MorphButton; MorphPedal;
   Wah; Volume; Pitch; DelayMix; DelayFeedback; ReverbMix; ReverbTime; OutputVolume; MainVolume; MonitorVolume; LooperVolume;
   SpaceIntensity; TapTempo; TempoPulse; TempoBpm].

Lemma kparam_dec (p q : kparam) : {p = q} + {p <> q}.
Proof. decide equality; decide equality. Defined.
Lemma all_in p : In p all.
Proof.
  assert (E : existsb (fun q => if kparam_dec p q then true else false) all = true).
  { destruct p; try match goal with x : slot |- _ => destruct x | x : rigno |- _ => destruct x | x : button |- _ => destruct x end;
      vm_compute; reflexivity. }
  apply existsb_exists in E as (q & Hq & E). destruct (kparam_dec p q) as [->|]; [exact Hq|discriminate].
Qed.
Lemma by_pairs (f : kparam -> kparam -> bool) :
  forallb (fun p => forallb (f p) all) all = true -> forall p q, f p q = true.
Proof.
  intros H p q. rewrite forallb_forall in H. specialize (H p (all_in p)). rewrite forallb_forall in H. exact (H q (all_in q)).
Qed.

(* ---- addresses ---- *)
Definition addrb (x y : msg) : bool :=
  match x, y with
  | CC c _, CC c' _ => c =? c'
  | PC _, PC _ => true
  | SysEx man d, SysEx man' d' => bytes_eqb man man' && bytes_eqb (firstn 4 (skipn 2 d)) (firstn 4 (skipn 2 d'))
  | _, _ => false
  end.
Lemma bytes_eqb_eq a : forall b, bytes_eqb a b = true <-> a = b.
Proof.
  induction a as [|x a IH]; intros [|y b]; cbn; split; intros H; try discriminate; auto.
  - apply andb_true_iff in H as [H1 H2]. apply Z.eqb_eq in H1. apply IH in H2. congruence.
  - injection H as -> ->. apply andb_true_iff. split; [apply Z.eqb_refl|apply IH; reflexivity].
Qed.
Lemma addrb_spec x y : addrb x y = true <-> addressed x y.
Proof.
  destruct x, y; cbn; split; intros H; try discriminate; try (inversion H; fail); try (constructor; fail).
  - apply Z.eqb_eq in H. subst. constructor.
  - inv H. apply Z.eqb_refl.
  - apply andb_true_iff in H as [H1 H2]. apply bytes_eqb_eq in H1, H2. subst. constructor. exact H2.
  - inversion H; subst. apply andb_true_iff. split; apply bytes_eqb_eq; auto.
Qed.
Lemma addressed_sym x y : addressed x y -> addressed y x.
Proof. intros H. inv H; constructor; auto. Qed.
Lemma addressed_trans x y z : addressed x y -> addressed y z -> addressed x z.
Proof. intros H1 H2. inv H1; inv H2; constructor; congruence. Qed.

Definition ktemplates (p : kparam) : list msg :=
  match k_response (kemper p) with
  | TNone => []
  | TOne r => [r]
  | TMany l => flat_map (fun o => match o with Some r => [r] | None => [] end) l
  end.
Lemma templates_k p d : templates (kmapping p d) = ktemplates p.
Proof. reflexivity. Qed.

Definition eqp (p q : kparam) : bool := if kparam_dec p q then true else false.
Lemma eqp_eq p q : eqp p q = true <-> p = q.
Proof. unfold eqp. destruct (kparam_dec p q); split; auto; discriminate. Qed.
Lemma eqp_neq p q : eqp p q = false <-> p <> q.
Proof. unfold eqp. destruct (kparam_dec p q); split; auto; try discriminate. intros H. contradiction. Qed.

Definition meets (p q : kparam) : bool := existsb (fun r => existsb (addrb r) (ktemplates q)) (ktemplates p).
(* every template of p is a template of q *)
Definition covers (p q : kparam) : bool := forallb (fun r => existsb (addrb r) (ktemplates q)) (ktemplates p).

Lemma meets_reports p q : meets p q = true -> reports p = reports q.
Proof.
  intros H. assert (E : (if meets p q then eqp (reports p) (reports q) else true) = true).
  { revert p q H. intros p q _. revert p q. apply (by_pairs (fun p q => if meets p q then eqp (reports p) (reports q) else true)).
    vm_compute. reflexivity. }
  rewrite H in E. apply eqp_eq. exact E.
Qed.
Lemma reports_covers p q : reports p = reports q -> covers p q = true.
Proof.
  intros H. assert (E : (if eqp (reports p) (reports q) then covers p q else true) = true).
  { clear H. revert p q. apply (by_pairs (fun p q => if eqp (reports p) (reports q) then covers p q else true)).
    vm_compute. reflexivity. }
  apply eqp_eq in H. rewrite H in E. exact E.
Qed.

Theorem c63_reports p q d e x : hears x (kmapping p d) -> (hears x (kmapping q e) <-> reports p = reports q).
Proof.
  intros (r & Hr & Ha). rewrite templates_k in Hr. split.
  - intros (r' & Hr' & Ha'). rewrite templates_k in Hr'. apply meets_reports. apply existsb_exists. exists r. split; [exact Hr|].
    apply existsb_exists. exists r'. split; [exact Hr'|]. apply addrb_spec. eapply addressed_trans; [apply addressed_sym; exact Ha|exact Ha'].
  - intros H. apply reports_covers in H. unfold covers in H. rewrite forallb_forall in H. specialize (H r Hr).
    apply existsb_exists in H as (r' & Hr' & E). exists r'. split; [exact Hr'|]. apply addrb_spec in E. eapply addressed_trans; eauto.
Qed.

Theorem c63_commands p q d e x y :
  In x (messages (set_t (kmapping p d))) -> In y (messages (set_t (kmapping q e))) -> (addressed x y <-> changes p = changes q).
Proof.
  intros Hx Hy. cbn in Hx, Hy.
  assert (E : forallb (fun x => forallb (fun y => Bool.eqb (addrb x y) (eqp (changes p) (changes q))) (messages (k_set (kemper q)))) (messages (k_set (kemper p))) = true).
  { clear. revert p q. apply (by_pairs (fun p q => forallb (fun x => forallb (fun y => Bool.eqb (addrb x y) (eqp (changes p) (changes q))) (messages (k_set (kemper q)))) (messages (k_set (kemper p))))).
    vm_compute. reflexivity. }
  rewrite forallb_forall in E. specialize (E x Hx). rewrite forallb_forall in E. specialize (E y Hy). apply Bool.eqb_prop in E.
  rewrite <- addrb_spec, E. apply eqp_eq.
Qed.

(* ---- answers ---- *)
Definition req_shape (p : kparam) : bool :=
  match k_request (kemper p) with
  | TNone => true
  | TOne (SysEx man [_; _; f; i; page; number]) =>
      negb (k_two (kemper p)) &&
      match k_response (kemper p) with
      | TOne (SysEx man' [_; _; f'; i'; page'; number']) =>
          bytes_eqb man man' && (i =? i') && (page =? page') && (number =? number') &&
          match k_type (kemper p) with Numeric => (f =? 0x41) && (f' =? 0x01) | Str => (f =? 0x43) && (f' =? 0x03) end
      | _ => false
      end
  | _ => false
  end.
Lemma req_shapes p : req_shape p = true.
Proof. revert p. intros p. exact (by_pairs (fun p _ => req_shape p) eq_refl p p). Qed.

Lemma skip6 a b c d e f (l : list Z) : skipn 6 ([a; b; c; d; e; f] ++ l) = l.
Proof. reflexivity. Qed.

Theorem c63_answer p d m q v x :
  name m = name (kmapping p d) -> request_t m = request_t (kmapping p d) -> response_t m = response_t (kmapping p d) ->
  typ m = typ (kmapping p d) -> two_part m = two_part (kmapping p d) ->
  request_t m = TOne q -> answers q v x -> parse m x = Ok (with_val m (Some v), true).
Proof.
  intros _ Hq Hr Ht H2 Eq Ha. pose proof (req_shapes p) as S. unfold req_shape in S. rewrite Hq in Eq. cbn in Hq, Hr, Ht, H2, Eq.
  rewrite Eq in S. destruct q as [| |man data| |]; try discriminate S. inversion Ha as [man0 p0 d0 i pg n p' d' hi lo E1 E2 E3|man0 p0 d0 i pg n p' d' ch E1 E2 E3]; subst.
  all: apply andb_true_iff in S as [S2 S]; apply negb_true_iff in S2; destruct (k_response (kemper p)) as [|r|] eqn:Er; try discriminate S;
    destruct r as [| |man' data'| |]; try discriminate S; do 6 (destruct data' as [|? data']; try discriminate S); destruct data'; try discriminate S;
    apply andb_true_iff in S as [S S6]; apply andb_true_iff in S as [S S5]; apply andb_true_iff in S as [S S4]; apply andb_true_iff in S as [S S3];
    apply bytes_eqb_eq in S; apply Z.eqb_eq in S3, S4, S5; subst man' ; subst;
    unfold parse, parse_plain; rewrite H2, S2, Hr, Ht; destruct (k_type (kemper p)); apply andb_true_iff in S6 as [S6 S7]; apply Z.eqb_eq in S6, S7; try discriminate S6; subst.
  - unfold parse_against. rewrite (proj2 (bytes_eqb_eq man man) eq_refl). cbn [negb].
    change (slice [p'; d'; 1; z2; z3; z4; hi; lo] 2 6) with [1; z2; z3; z4].
    change (slice [z; z0; 1; z2; z3; z4] 2 6) with [1; z2; z3; z4].
    rewrite (proj2 (bytes_eqb_eq [1; z2; z3; z4] _) eq_refl). cbn [negb]. unfold last_two. cbn [rev app]. do 4 f_equal. f_equal. lia.
  - unfold parse_against. rewrite (proj2 (bytes_eqb_eq man man) eq_refl). cbn [negb].
    change (slice ([p'; d'; 3; z2; z3; z4] ++ ch ++ [0]) 2 6) with [3; z2; z3; z4].
    change (slice [z; z0; 3; z2; z3; z4] 2 6) with [3; z2; z3; z4].
    rewrite (proj2 (bytes_eqb_eq [3; z2; z3; z4] _) eq_refl). cbn [negb]. rewrite skip6, removelast_last. reflexivity.
Qed.

(* ---- objects ---- *)
Lemma names_distinct p q : k_name (kemper p) = k_name (kemper q) -> p = q.
Proof.
  intros H. assert (E : (if String.eqb (k_name (kemper p)) (k_name (kemper q)) then eqp p q else true) = true).
  { clear H. revert p q. apply (by_pairs (fun p q => if String.eqb (k_name (kemper p)) (k_name (kemper q)) then eqp p q else true)).
    vm_compute. reflexivity. }
  rewrite H, String.eqb_refl in E. apply eqp_eq. exact E.
Qed.
Lemma names_nonempty p : String.eqb (k_name (kemper p)) ""%string = false.
Proof.
  assert (H : negb (String.eqb (k_name (kemper p)) ""%string) = true) by exact (by_pairs (fun p _ => negb (String.eqb (k_name (kemper p)) ""%string)) eq_refl p p).
  apply negb_true_iff. exact H.
Qed.
Lemma date_dep : k_dep (kemper RigDate) = false.
Proof. reflexivity. Qed.

(* registries built from the catalogue *)
Definition fresh (r : registry) (p : kparam) (m : mapping) : Prop :=
  exists d, m = kmapping p d /\ (k_dep (kemper p) = true -> nth_error r d = Some (kmapping RigDate 0)).
Definition good (r : registry) : Prop :=
  (forall i m, nth_error r i = Some m -> exists p, fresh r p m) /\
  (forall i j p m m', nth_error r i = Some m -> nth_error r j = Some m' -> fresh r p m -> fresh r p m' -> i = j).

Lemma find_name_some n : forall r k i, find_name n r k = Some i -> exists m, nth_error r (i - k) = Some m /\ name m = n /\ (k <= i)%nat.
Proof.
  induction r as [|m r IH]; intros k i H; [discriminate|]. cbn in H. destruct (String.eqb (name m) n) eqn:E.
  - injection H as <-. rewrite Nat.sub_diag. apply String.eqb_eq in E. exists m. repeat split; auto.
  - apply IH in H as (m' & H1 & H2 & H3). exists m'. replace (i - k)%nat with (S (i - S k)) by lia. repeat split; auto. lia.
Qed.
Lemma find_name_none n : forall r k, find_name n r k = None -> forall i m, nth_error r i = Some m -> name m <> n.
Proof.
  induction r as [|m r IH]; intros k H i m' Hi; [destruct i; discriminate|]. cbn in H. destruct (String.eqb (name m) n) eqn:E; [discriminate|].
  destruct i as [|i]; [injection Hi as <-; apply String.eqb_neq; exact E|eapply IH; eauto].
Qed.
Lemma fresh_name r p m : fresh r p m -> name m = k_name (kemper p).
Proof. intros (d & -> & _). reflexivity. Qed.
Lemma fresh_app r x p m : fresh r p m -> fresh (r ++ [x]) p m.
Proof.
  intros (d & -> & H). exists d. split; [reflexivity|]. intros Hd. specialize (H Hd). rewrite nth_error_app1; [exact H|].
  apply nth_error_Some. congruence.
Qed.
Lemma nth_snoc (r : registry) x i m : nth_error (r ++ [x]) i = Some m -> nth_error r i = Some m \/ (i = length r /\ m = x).
Proof.
  intros H. destruct (Nat.lt_ge_cases i (length r)) as [L|L].
  - rewrite nth_error_app1 in H by exact L. left. exact H.
  - rewrite nth_error_app2 in H by exact L. right. destruct (i - length r)%nat as [|k] eqn:E; cbn in H.
    + injection H as <-. split; [lia|reflexivity].
    + destruct k; discriminate.
Qed.

(* one call of get for a parameter of the catalogue *)
Lemma get_ok r p d : good r -> (k_dep (kemper p) = true -> nth_error r d = Some (kmapping RigDate 0)) ->
  exists r' i m, get r (kargs p d) = Ok (r', i) /\ good r' /\ nth_error r' i = Some m /\ fresh r' p m /\
    (forall j x, nth_error r j = Some x -> nth_error r' j = Some x) /\ (forall q x, fresh r q x -> fresh r' q x).
Proof.
  intros [G1 G2] Hd. unfold get. cbn [g_two_part g_name kargs]. rewrite names_nonempty, andb_false_r.
  destruct (find_name (k_name (kemper p)) r 0) as [i|] eqn:F.
  - apply find_name_some in F as (m & Hm & Hn & _). rewrite Nat.sub_0_r in Hm. exists r, i, m.
    destruct (G1 _ _ Hm) as (q & Hq). pose proof (fresh_name _ _ _ Hq) as E. rewrite Hn in E. apply names_distinct in E. subst q.
    repeat split; auto.
  - exists (r ++ [new_mapping (kargs p d)]), (length r), (kmapping p d).
    assert (N : nth_error (r ++ [new_mapping (kargs p d)]) (length r) = Some (kmapping p d)).
    { rewrite nth_error_app2, Nat.sub_diag by lia. reflexivity. }
    assert (FP : fresh (r ++ [new_mapping (kargs p d)]) p (kmapping p d)).
    { exists d. split; [reflexivity|]. intros H. rewrite nth_error_app1; [auto|]. apply nth_error_Some. rewrite Hd; [discriminate|exact H]. }
    split; [reflexivity|]. split; [|split; [exact N|split; [exact FP|split]]].
    + split.
      * intros i m Hi. apply nth_snoc in Hi as [Hi|[-> ->]].
        -- destruct (G1 _ _ Hi) as (q & Hq). exists q. apply fresh_app. exact Hq.
        -- exists p. exact FP.
      * intros i j q m m' Hi Hj Fi Fj. apply fresh_name in Fi, Fj.
        apply nth_snoc in Hi as [Hi|[-> ->]]; apply nth_snoc in Hj as [Hj|[-> ->]]; auto.
        -- destruct (G1 _ _ Hi) as (q1 & F1). destruct (G1 _ _ Hj) as (q2 & F2).
           pose proof (fresh_name _ _ _ F1) as N1. pose proof (fresh_name _ _ _ F2) as N2.
           assert (q1 = q2) by (apply names_distinct; congruence). subst q2. eapply G2; eauto.
        -- exfalso. eapply find_name_none in F; [|exact Hi]. apply F. rewrite Fi, <- Fj. reflexivity.
        -- exfalso. eapply find_name_none in F; [|exact Hj]. apply F. rewrite Fj, <- Fi. reflexivity.
    + intros j x Hj. rewrite nth_error_app1; [exact Hj|]. apply nth_error_Some. congruence.
    + intros q x. apply fresh_app.
Qed.

Lemma kget_ok r p : good r -> exists r' i m, kget r p = Ok (r', i) /\ good r' /\ nth_error r' i = Some m /\ fresh r' p m /\
    (forall j x, nth_error r j = Some x -> nth_error r' j = Some x) /\ (forall q x, fresh r q x -> fresh r' q x).
Proof.
  intros G. unfold kget. destruct (k_dep (kemper p)) eqn:D.
  - destruct (get_ok r RigDate 0 G) as (r1 & d & m & E & G1 & Hm & Fm & K & Fk); [discriminate|]. rewrite E.
    assert (m = kmapping RigDate 0) as -> by (destruct Fm as (d' & -> & _); reflexivity).
    destruct (get_ok r1 p d G1) as (r2 & i & m2 & E2 & G2 & Hm2 & Fm2 & K2 & Fk2); [auto|]. rewrite E2.
    exists r2, i, m2. split; [reflexivity|]. split; [exact G2|]. split; [exact Hm2|]. split; [exact Fm2|]. split; auto.
  - apply get_ok; [exact G|]. rewrite D. discriminate.
Qed.

Lemma kgets_ok ps : forall r, good r -> exists r' is, kgets r ps = Ok (r', is) /\ good r' /\ map fst is = ps /\
    (forall p i, In (p, i) is -> exists m, nth_error r' i = Some m /\ fresh r' p m) /\
    (forall j x, nth_error r j = Some x -> nth_error r' j = Some x) /\ (forall q x, fresh r q x -> fresh r' q x).
Proof.
  induction ps as [|p ps IH]; intros r G.
  - exists r, []. cbn. repeat split; auto; try apply G; contradiction.
  - cbn. destruct (kget_ok r p G) as (r1 & i & m & E & G1 & Hm & Fm & K & Fk). rewrite E.
    destruct (IH r1 G1) as (r2 & is & E2 & G2 & Hf & Hi & K2 & Fk2). rewrite E2. exists r2, ((p, i) :: is).
    split; [reflexivity|]. split; [exact G2|]. split; [cbn; congruence|]. split; [|split; auto].
    intros q j [Hj|Hj]; [|eauto]. injection Hj as -> ->. exists m. split; auto.
Qed.
Lemma good_nil : good [].
Proof. split; intros [|i]; discriminate. Qed.

Theorem c63_objects ps : exists r is, kgets [] ps = Ok (r, is) /\ map fst is = ps /\
  (forall p i, In (p, i) is -> exists d, nth_error r i = Some (kmapping p d) /\
     (k_dep (kemper p) = true -> nth_error r d = Some (kmapping RigDate 0))) /\
  (forall p i q j, In (p, i) is -> In (q, j) is -> (i = j <-> p = q)).
Proof.
  destruct (kgets_ok ps [] good_nil) as (r & is & E & [G1 G2] & Hf & Hi & _ & _). exists r, is. split; [exact E|]. split; [exact Hf|]. split.
  - intros p i H. destruct (Hi p i H) as (m & Hm & d & -> & Hd). eauto.
  - intros p i q j H1 H2. destruct (Hi _ _ H1) as (m & Hm & F1). destruct (Hi _ _ H2) as (m' & Hm' & F2). split.
    + intros ->. rewrite Hm in Hm'. injection Hm' as <-. apply names_distinct. rewrite <- (fresh_name _ _ _ F1). apply fresh_name in F2. exact F2.
    + intros ->. eapply G2; eauto.
Qed.

(* ---- client ---- *)
Definition propb (r : msg) : bool := match r with SysEx _ rd => Nat.leb 3 (length rd) | _ => true end.
Definition soundb (p : kparam) : bool :=
  forallb propb (ktemplates p) &&
  (if k_two (kemper p) then match k_response (kemper p), k_type (kemper p) with TMany [Some _; Some _], Numeric => true | _, _ => false end else true).
Lemma k_sound p d : sound (kmapping p d).
Proof.
  pose proof (by_pairs (fun p _ => soundb p) eq_refl p p) as S. cbn beta in S. unfold soundb in S. apply andb_true_iff in S as [S1 S2].
  assert (P : Forall proper_template (templates (kmapping p d))).
  { rewrite templates_k. apply Forall_forall. intros r Hr. rewrite forallb_forall in S1. specialize (S1 r Hr).
    destruct r; cbn in *; auto. apply Nat.leb_le. exact S1. }
  destruct (k_two (kemper p)) eqn:E2.
  - destruct (k_response (kemper p)) as [| |l] eqn:Er; try discriminate. destruct l as [|[r0|] [|[r1|] [|? l]]]; try discriminate.
    destruct (k_type (kemper p)) eqn:Et; try discriminate. eapply sound_two; eauto.
  - apply sound_plain; auto.
Qed.
Lemma unused_sound : sound unused.
Proof. apply sound_plain; try reflexivity. constructor. Qed.

Lemma dep_not_date p : k_dep (kemper p) = true -> reports p <> reports RigDate.
Proof.
  intros H. assert (E : (if k_dep (kemper p) then negb (eqp (reports p) (reports RigDate)) else true) = true)
    by exact (by_pairs (fun p _ => if k_dep (kemper p) then negb (eqp (reports p) (reports RigDate)) else true) eq_refl p p).
  rewrite H in E. apply negb_true_iff, eqp_neq in E. exact E.
Qed.

Lemma good_object r m : good r -> (exists p, fresh r p (objects r m)) \/ objects r m = unused.
Proof.
  intros [G1 _]. unfold objects. destruct (nth_error r m) as [x|] eqn:E.
  - left. apply nth_error_nth with (d := unused) in E as E'. rewrite E'. eauto.
  - right. apply nth_overflow. apply nth_error_None. exact E.
Qed.
Lemma good_client r : good r ->
  no_self_dependency (objects r) /\ (forall m, sound (objects r m)) /\ told_apart (objects r).
Proof.
  intros G. assert (D : forall d p, depends (objects r d) = Some p -> exists q e, objects r d = kmapping q e /\ objects r p = kmapping RigDate 0 /\ k_dep (kemper q) = true).
  { intros d p H. destruct (good_object r d G) as [(q & e & E & He)|E]; rewrite E in H; [|discriminate].
    cbn in H. destruct (k_dep (kemper q)) eqn:K; [|discriminate]. injection H as <-. exists q, e. split; [exact E|]. split; [|exact K].
    unfold objects. apply nth_error_nth with (d := unused). auto. }
  repeat split.
  - intros m H. destruct (D _ _ H) as (q & e & E1 & E2 & K). rewrite E2 in H. discriminate H.
  - intros m. destruct (good_object r m G) as [(q & e & -> & _)| -> ]; [apply k_sound|apply unused_sound].
  - intros d p x H H1 H2. destruct (D _ _ H) as (q & e & E1 & E2 & K). rewrite E1 in H1. rewrite E2 in H2.
    apply (dep_not_date q K). eapply c63_reports; eauto.
Qed.
Theorem c63_client ps r is bi lt ops : kgets [] ps = Ok (r, is) -> orderly bi (objects r) ops -> exists c evs, reached bi (objects r) lt ops c evs.
Proof.
  intros E Ho. destruct (kgets_ok ps [] good_nil) as (r' & is' & E' & G & _). rewrite E in E'. injection E' as <- <-.
  destruct (good_client r G) as (Hn & Hs & Ha). destruct (ClientSafe.c58_history bi (objects r) lt Hn Hs Ha ops Ho) as (c & evs & H).
  exists c, evs. split; auto.
Qed.
