(* The loop over the requests terminates: the fuel of the model is never exhausted. *)
From Verif.Lib Require Import Base.
From Verif.Model Require Import Midi Period Mapping Client.
From Verif.Spec Require Import Client.
From Verif.Proofs Require Import Client.
Open Scope Z_scope.

Definition has_req (c : client) (d : mid) : bool := match find_req d (reqs c) with Some _ => true | None => false end.
Definition missing (c : client) : nat := length (filter (fun d => negb (has_req c d)) (map fst (deps c))).
Definition measure (c : client) : nat := length (reqs c) + missing c.

Lemma set_dep_last_keys d v l : map fst (set_dep_last d v l) = map fst l.
Proof. induction l as [|[k [o li]] l IH]; cbn; auto. destruct (k =? d)%nat; cbn; congruence. Qed.
Lemma find_dep_in d l x : find_dep d l = Some x -> In d (map fst l).
Proof.
  induction l as [|[k y] l IH]; cbn; [discriminate|]. destruct (k =? d)%nat eqn:E; auto.
  intros _. left. apply Nat.eqb_eq. auto.
Qed.

Lemma filter_le {A} (p q : A -> bool) l : (forall x, In x l -> q x = true -> p x = true) ->
  (length (filter q l) <= length (filter p l))%nat.
Proof.
  induction l as [|x l IH]; cbn; auto. intros H. assert (IH' := IH (fun y Hy => H y (or_intror Hy))).
  destruct (q x) eqn:Eq; [rewrite (H x (or_introl eq_refl) Eq); cbn; lia|]. destruct (p x); cbn; lia.
Qed.
Lemma filter_lt {A} (p q : A -> bool) l d : (forall x, In x l -> q x = true -> p x = true) -> In d l -> p d = true -> q d = false ->
  (length (filter q l) < length (filter p l))%nat.
Proof.
  induction l as [|x l IH]; [intros _ []|]. intros H [->|Hin] Hp Hq.
  - cbn. rewrite Hp, Hq. cbn. assert (length (filter q l) <= length (filter p l))%nat; [|lia]. apply filter_le. intros y Hy. apply H. right. auto.
  - assert (IH' := IH (fun y Hy => H y (or_intror Hy)) Hin Hp Hq). cbn. destruct (q x) eqn:Eq; [rewrite (H x (or_introl eq_refl) Eq); cbn; lia|].
    destruct (p x); cbn; lia.
Qed.

Lemma has_req_maps c c' d : map r_map (reqs c') = map r_map (reqs c) -> has_req c' d = has_req c d.
Proof.
  intros H. unfold has_req. destruct (find_req d (reqs c)) as [r|] eqn:E; destruct (find_req d (reqs c')) as [r'|] eqn:E'; auto.
  - apply find_req_none in E'. apply find_req_some in E. destruct E as [Hin <-]. exfalso. apply E'. rewrite H. apply in_map. auto.
  - apply find_req_none in E. apply find_req_some in E'. destruct E' as [Hin <-]. exfalso. apply E. rewrite <- H. apply in_map. auto.
Qed.

Lemma measure_same c c' : map r_map (reqs c') = map r_map (reqs c) -> map fst (deps c') = map fst (deps c) -> measure c' = measure c.
Proof.
  intros H1 H2. unfold measure, missing. rewrite H2. f_equal; [rewrite <- (map_length r_map), H1, map_length; auto|].
  f_equal. apply filter_ext. intros d. rewrite (has_req_maps c c' d H1). reflexivity.
Qed.

Definition grows (c c' : client) : Prop :=
  (length (reqs c) <= length (reqs c'))%nat /\ (measure c' <= measure c)%nat /\ map fst (deps c') = map fst (deps c).
Lemma grows_refl c : grows c c. Proof. repeat split; lia. Qed.
Lemma grows_trans a b c : grows a b -> grows b c -> grows a c.
Proof. intros (A & B & C) (D & E & F). repeat split; try lia. congruence. Qed.
Lemma grows_same c c' : map r_map (reqs c') = map r_map (reqs c) -> map fst (deps c') = map fst (deps c) -> grows c c'.
Proof.
  intros H1 H2. assert (E := measure_same c c' H1 H2). repeat split; try lia; auto.
  rewrite <- (map_length r_map (reqs c')), H1, map_length. auto.
Qed.

Lemma register_grows c now d l send c' evs : In d (map fst (deps c)) -> register_mapping c now d l send = Ok (c', evs) -> grows c c'.
Proof.
  intros Hin H. unfold register_mapping in H. destruct (find_req d (reqs c)) as [r|] eqn:Ef.
  - destruct l as [l|]; [|inv H; apply grows_refl]. destruct (r_listeners r) as [ls|]; [|discriminate].
    destruct (existsb (listener_eqb l) ls); inv H; [apply grows_refl|]. apply grows_same; [|reflexivity]. cbn. apply upd_req_maps. auto.
  - set (r := match l with Some _ => _ | None => _ end) in *. assert (r_map r = d) as Hr by (unfold r; destruct l; reflexivity).
    injection H as <- _. clearbody r. unfold grows, measure. cbn [reqs with_reqs deps]. rewrite app_length. cbn [length].
    split; [lia|]. split; [|reflexivity].
    assert (missing (with_reqs c (reqs c ++ [r])) < missing c)%nat; [|unfold measure; lia].
    unfold missing. cbn [deps with_reqs]. apply (filter_lt _ _ _ d); auto; unfold has_req; cbn [reqs with_reqs].
    + intros x _. rewrite find_req_app. destruct (find_req x (reqs c)); auto.
    + rewrite Ef. reflexivity.
    + rewrite find_req_app, Ef. cbn. rewrite Hr, Nat.eqb_refl. reflexivity.
Qed.

Lemma notify_grows c now m l c' evs : notify c now m l = Ok (c', evs) -> grows c c'.
Proof.
  intros H. unfold notify in H. destruct l as [x|d]; [inv H; apply grows_refl|].
  destruct (find_dep d (deps c)) as [[last inner]|] eqn:Ed; [|inv H; apply grows_refl].
  destruct (value_eqb _ _); [inv H; apply grows_refl|].
  destruct (register_mapping _ now d _ true) as [[c3 e3]|] eqn:Er; [|discriminate]. inv H.
  eapply grows_trans; [|eapply register_grows; [|exact Er]].
  - apply grows_same; [reflexivity|]. cbn. apply set_dep_last_keys.
  - cbn. rewrite set_dep_last_keys. eapply find_dep_in; eauto.
Qed.
Lemma notify_all_grows ls : forall c now m c' evs, notify_all c now m ls = Ok (c', evs) -> grows c c'.
Proof.
  induction ls as [|l ls IH]; intros c now m c' evs H; cbn in H; [inv H; apply grows_refl|].
  destruct (notify c now m l) as [[c1 e1]|] eqn:E1; [|discriminate].
  destruct (notify_all c1 now m ls) as [[c2 e2]|] eqn:E2; [|discriminate]. inv H.
  eapply grows_trans; [eapply notify_grows; eauto|eapply IH; eauto].
Qed.
Lemma parse_request_grows c now i x c1 e1 p1 : parse_request c now i x = Ok (c1, e1, p1) -> grows c c1.
Proof.
  intros H. unfold parse_request in H. destruct (nth_error (reqs c) i) as [r|]; [|inv H; apply grows_refl].
  destruct (negb _); [inv H; apply grows_refl|]. destruct (r_listeners r) as [ls|]; [|inv H; apply grows_refl].
  destruct (parse _ x) as [[m' [|]]|]; [|inv H; apply grows_refl|discriminate].
  destruct (negb _); [inv H; apply grows_same; reflexivity|].
  destruct (notify_all _ now _ ls) as [[c2 ev]|] eqn:En; [|discriminate]. apply notify_all_grows in En.
  destruct (r_life r); inv H.
  - eapply grows_trans; [exact En|]. apply grows_same; [|reflexivity]. cbn. apply upd_req_maps. auto.
  - exact En.
Qed.

Lemma receive_loop_total fuel : forall c now i x, (measure c - i < fuel)%nat -> receive_loop fuel c now i x <> None.
Proof.
  induction fuel as [|fuel IH]; intros c now i x H; [lia|]. cbn.
  destruct (length (reqs c) <=? i)%nat eqn:E; [discriminate|].
  destruct (parse_request c now i x) as [[[c1 e1] p1]|] eqn:Ep; [|discriminate].
  pose proof (parse_request_grows _ _ _ _ _ _ _ Ep) as (G1 & G2 & _).
  specialize (IH c1 now (S i) x). destruct (receive_loop fuel c1 now (S i) x) as [[[[[c2 e2] p2] f2]|]|]; try discriminate.
  intros _. apply IH; [|reflexivity]. unfold measure in *. lia.
Qed.

Lemma receive_total c now x : receive c now x <> None.
Proof.
  unfold receive. destruct (timeouts c now) as [c1 e1]. destruct x as [x|]; [|discriminate].
  pose proof (receive_loop_total (S (length (reqs c1) + length (deps c1))) c1 now 0 x) as H.
  destruct (receive_loop _ c1 now 0 x) as [[[[[c2 e2] p2] f2]|]|]; try discriminate.
  intros _. apply H; [|reflexivity]. unfold measure, missing.
  assert (forall A (p : A -> bool) l, (length (filter p l) <= length l)%nat) as Hf.
  { clear. intros A p l. induction l as [|a l IH]; cbn; auto. destruct (p a); cbn; lia. }
  specialize (Hf _ (fun d => negb (has_req c1 d)) (map fst (deps c1))). rewrite map_length in Hf. lia.
Qed.
