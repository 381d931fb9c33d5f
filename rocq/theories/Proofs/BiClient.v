(* C65: the client together with its bidirectional protocol *)
From Coq Require Import String.
From Verif.Lib Require Import Base.
From Verif.Model Require Import Midi Period Mapping Client Protocol KemperMappings BiClient.
From Verif.Spec Require Import Mapping Client ClientSafe Protocol KemperMappings BiClient.
From Verif.Proofs Require Import Mapping Client ClientTotal ClientHist ClientProps ClientSafe Protocol KemperMappings.

Lemma bdrun_app bi ops1 : forall s ops2, bdrun bi s (ops1 ++ ops2) =
  match bdrun bi s ops1 with Raise => Raise | Ok (s1, e1) => match bdrun bi s1 ops2 with Raise => Raise | Ok (s2, e2) => Ok (s2, e1 ++ e2) end end.
Proof.
  induction ops1 as [|o ops1 IH]; intros s ops2; cbn; [destruct (bdrun bi s ops2) as [[? ?]|]; auto|].
  destruct (bdstep bi s o) as [[s1 e1]|]; auto. rewrite IH. destruct (bdrun bi s1 ops1) as [[s2 es]|]; auto.
  destruct (bdrun bi s2 ops2) as [[s3 e3]|]; auto.
Qed.
Lemma bdrun_snoc bi ops o s : bdrun bi s (ops ++ [o]) =
  match bdrun bi s ops with Raise => Raise | Ok (s1, es) => match bdstep bi s1 o with Raise => Raise | Ok (s2, e) => Ok (s2, es ++ [e]) end end.
Proof. rewrite bdrun_app. destruct (bdrun bi s ops) as [[s1 es]|]; auto. cbn. destruct (bdstep bi s1 o) as [[s2 e]|]; auto. Qed.
Lemma bdrun_length bi ops : forall s s' evs, bdrun bi s ops = Ok (s', evs) -> length evs = length ops.
Proof.
  induction ops as [|o ops IH]; intros s s' evs H; cbn in H; [injection H as <- <-; auto|].
  destruct (bdstep bi s o) as [[s1 e1]|]; [|discriminate]. destruct (bdrun bi s1 ops) as [[s2 es]|] eqn:E; [|discriminate].
  injection H as <- <-. cbn. f_equal. eauto.
Qed.

Lemma client_ops_snoc ops o e : forall evs, length evs = length ops -> client_ops (ops ++ [o]) (evs ++ [e]) = client_ops ops evs ++ client_op o e.
Proof.
  induction ops as [|o' ops IH]; intros [|e' evs] H; try discriminate H; cbn; [apply app_nil_r|].
  injection H as H. rewrite IH by auto. apply app_assoc.
Qed.
Lemma proto_ops_snoc ops o : proto_ops (ops ++ [o]) = proto_ops ops ++ proto_op o.
Proof. unfold proto_ops. rewrite flat_map_app. cbn. rewrite app_nil_r. reflexivity. Qed.
Lemma client_evs_app a b : client_evs (a ++ b) = client_evs a ++ client_evs b.
Proof. apply flat_map_app. Qed.
Lemma proto_evs_app a b : proto_evs (a ++ b) = proto_evs a ++ proto_evs b.
Proof. apply flat_map_app. Qed.
Lemma client_evs_client e : client_evs (map OfClient e) = e.
Proof. induction e as [|x e IH]; cbn; auto. f_equal. exact IH. Qed.
Lemma client_evs_proto e : client_evs (map OfProto e) = [].
Proof. induction e as [|x e IH]; cbn; auto. Qed.
Lemma proto_evs_client e : proto_evs (map OfClient e) = [].
Proof. induction e as [|x e IH]; cbn; auto. Qed.
Lemma proto_evs_proto e : proto_evs (map OfProto e) = e.
Proof. induction e as [|x e IH]; cbn; auto. f_equal. exact IH. Qed.
Lemma concat_snoc {A} (l : list (list A)) x : concat (l ++ [x]) = concat l ++ x.
Proof. rewrite concat_app. cbn. rewrite app_nil_r. reflexivity. Qed.

(* ---- one update ---- *)

Lemma update_shape p now : snd (p_update p now) = [] \/ snd (p_update p now) = [POffline now] \/
  (exists i w, snd (p_update p now) = [PSend now i w]) \/ (exists w, snd (p_update p now) = [PLost now; PSend now true w]).
Proof.
  unfold p_update. destruct (negb (running p)).
  - destruct (p_exceeded (init_period p) now) as [ex ip]. destruct ex; [|auto]. cbn. destruct (has_been_running p); cbn; eauto 10.
  - destruct (p_exceeded (sensing_period p) now) as [ex sp]. destruct ex; [auto|].
    destruct (p_exceeded _ now) as [ex2 rp]. destruct ex2; cbn; eauto 10.
Qed.

Lemma step_update bi s now : bdstep bi s (BUpdate now) =
  if existsb is_lost (snd (p_update (bd_proto s) now)) then
    match cstep bi (bd_client s) Lost with
    | Raise => Raise
    | Ok (c, ev) => Ok (mkBidev c (fst (p_update (bd_proto s) now)),
        OfProto (PLost now) :: map OfClient ev ++ map OfProto (tl (snd (p_update (bd_proto s) now))))
    end
  else Ok (mkBidev (bd_client s) (fst (p_update (bd_proto s) now)), map OfProto (snd (p_update (bd_proto s) now))).
Proof.
  pose proof (update_shape (bd_proto s) now) as H. unfold bdstep. destruct (p_update (bd_proto s) now) as [p pevs]. cbn [fst snd] in *.
  destruct H as [-> |[-> |[(i & w & ->)|(w & ->)]]]; cbn -[cstep]; auto.
  destruct (cstep bi (bd_client s) Lost) as [[c ev]|]; auto.
Qed.
Lemma loss_client ev pevs : reports_loss (map OfClient ev ++ map OfProto pevs) = existsb is_lost pevs.
Proof.
  unfold reports_loss. rewrite existsb_app. assert (existsb (fun e => match e with OfProto (PLost _) => true | _ => false end) (map OfClient ev) = false) as ->
    by (induction ev; cbn; auto).
  cbn. induction pevs as [|e pevs IH]; cbn; auto. rewrite IH. destruct e; reflexivity.
Qed.

(* ---- the client's side ---- *)

Lemma step_client bi s o s' ev : bdstep bi s o = Ok (s', ev) ->
  match client_op o ev with
  | [] => bd_client s' = bd_client s /\ client_evs ev = []
  | [c] => cstep bi (bd_client s) c = Ok (bd_client s', client_evs ev)
  | _ => False
  end.
Proof.
  intros H. destruct o as [now m l|now m l|now m a|m v|now x|now]; cbn [client_op].
  1,2,3,4: unfold bdstep, bcall in H; destruct (cstep bi (bd_client s) _) as [[c e]|]; [|discriminate];
    injection H as <- <-; rewrite client_evs_client; reflexivity.
  - unfold bdstep in H. destruct (cstep bi (bd_client s) (Receive now x)) as [[c e]|]; [|discriminate].
    destruct x as [x|]; [|injection H as <- <-; rewrite client_evs_client; reflexivity].
    destruct (unparsed e); [|injection H as <- <-; rewrite client_evs_client; reflexivity].
    destruct (p_receive (bd_proto s) now x) as [[p pe] b]. injection H as <- <-.
    rewrite client_evs_app, client_evs_client, client_evs_proto, app_nil_r. reflexivity.
  - rewrite step_update in H. destruct (existsb is_lost _) eqn:El.
    + destruct (cstep bi (bd_client s) Lost) as [[c e]|] eqn:Ec; [|discriminate]. injection H as <- <-. cbn [reports_loss existsb orb].
      cbn [client_evs flat_map app]. fold (client_evs (map OfClient e ++ map OfProto (tl (snd (p_update (bd_proto s) now))))).
      rewrite client_evs_app, client_evs_client, client_evs_proto, app_nil_r. exact Ec.
    + injection H as <- <-. pose proof (loss_client [] (snd (p_update (bd_proto s) now))) as Hl. cbn [map app] in Hl. rewrite Hl, El.
      rewrite client_evs_proto. auto.
Qed.

Lemma c65_client_gen bi maps0 lt lease tuner t0 ops : forall s evs, bd_reached bi maps0 lt lease tuner t0 ops s evs ->
  exists cevs, reached bi maps0 lt (client_ops ops evs) (bd_client s) cevs /\ concat cevs = client_evs (concat evs).
Proof.
  induction ops as [|ops o IH] using rev_ind_snoc; intros s evs (Hn & H).
  - injection H as <- <-. exists []. split; [split; [exact Hn|reflexivity]|reflexivity].
  - rewrite bdrun_snoc in H. destruct (bdrun _ _ ops) as [[s1 es]|] eqn:E; [|discriminate].
    destruct (bdstep bi s1 o) as [[s2 e]|] eqn:Es; [|discriminate]. injection H as <- <-.
    destruct (IH s1 es (conj Hn E)) as (cevs & Hr & Hc). pose proof (step_client _ _ _ _ _ Es) as Hs.
    rewrite client_ops_snoc by (eapply bdrun_length; eauto). rewrite concat_snoc, client_evs_app.
    destruct (client_op o e) as [|c [|]]; [| |contradiction].
    + destruct Hs as [-> ->]. rewrite !app_nil_r. eauto.
    + exists (cevs ++ [client_evs e]). rewrite concat_snoc, Hc. split; [|reflexivity]. split; [exact Hn|].
      destruct Hr as [_ Hr]. rewrite crun_snoc, Hr, Hs. reflexivity.
Qed.

(* ---- the protocol's side ---- *)

Lemma parse_unchanged m x m' : parse m x = Ok (m', false) -> m' = m.
Proof.
  unfold parse. destruct (two_part m).
  - unfold parse_two. destruct (response_t m) as [|r|[|r0 [|r1 l]]]; try discriminate; try congruence.
    all: repeat match goal with |- context [match ?x with _ => _ end] => destruct x end; intros; congruence.
  - unfold parse_plain. repeat match goal with |- context [match ?x with _ => _ end] => destruct x end; intros; congruence.
Qed.
Lemma receive_none bi c now : exists c' e, cstep bi c (Receive now None) = Ok (c', e).
Proof. cbn. unfold receive. destruct (timeouts c now) as [c1 e1]. eauto. Qed.
Lemma p_receive_other p now x : ~ sensing x -> p_receive p now x = (p, [], false).
Proof.
  intros H. rewrite p_receive_eq. destruct (sensingb x) eqn:E; [exfalso; apply H, sensing_spec, E|]. rewrite andb_false_r. reflexivity.
Qed.

Section Wired.
Variable bi : mid -> bool.
Variable maps0 : mid -> mapping.
Variables lt lease : Z.
Variable tuner : bool.
Variable t0 : Z.
Hypothesis Hsound : forall m, sound (maps0 m).
Hypothesis Happart : told_apart maps0.
Notation R := (bd_reached bi maps0 lt lease tuner t0).

Lemma sensing_unused ops c evs now x c' e : sensing_free maps0 -> reached bi maps0 lt ops c evs -> sensing x ->
  cstep bi c (Receive now (Some x)) = Ok (c', e) -> unparsed e = true.
Proof.
  intros Hf Hr Hx H. destruct (reached_safe bi maps0 lt (proj1 Hr) Hsound Happart _ _ _ Hr) as (_ & HM & _).
  destruct (receive_none bi c now) as (c1 & e1 & E1).
  assert (Hc : forall m, has_request c m -> ~ concerns x (maps c m)).
  { intros m _ (_ & Hp). destruct (parse_total (maps0 m) (maps c m) x (Hsound m) (HM m)) as (m' & b & Ep & _ & Hb).
    destruct b; [exact (Hf m x Hx (Hb eq_refl))|]. rewrite Ep in Hp. apply Hp. rewrite (parse_unchanged _ _ _ Ep). reflexivity. }
  rewrite (c10 _ _ _ _ _ _ _ _ _ _ Hr Hc E1) in H. injection H as _ <-. unfold unparsed. rewrite existsb_app. cbn. apply orb_true_r.
Qed.

Lemma step_proto ops s evs o s' ev : sensing_free maps0 -> R ops s evs -> bdstep bi s o = Ok (s', ev) ->
  run pstep (bd_proto s) (proto_op o) = (bd_proto s', proto_evs ev).
Proof.
  intros Hf HR H. destruct o as [now m l|now m l|now m a|m v|now x|now]; cbn [proto_op].
  1,2,3,4: unfold bdstep, bcall in H; destruct (cstep bi (bd_client s) _) as [[c e]|]; [|discriminate];
    injection H as <- <-; rewrite proto_evs_client; reflexivity.
  - unfold bdstep in H. destruct (cstep bi (bd_client s) (Receive now x)) as [[c e]|] eqn:E; [|discriminate].
    destruct x as [x|]; [|injection H as <- <-; rewrite proto_evs_client; reflexivity].
    unfold run. cbn -[p_receive]. destruct (unparsed e) eqn:Eu.
    + destruct (p_receive (bd_proto s) now x) as [[p pe] b]. injection H as <- <-. cbn.
      rewrite proto_evs_app, proto_evs_client, proto_evs_proto. reflexivity.
    + injection H as <- <-. cbn [bd_proto]. destruct (sensingb x) eqn:Ex.
      * apply sensing_spec in Ex. destruct (c65_client_gen _ _ _ _ _ _ _ _ _ HR) as (cevs & Hr & _).
        rewrite (sensing_unused _ _ _ _ _ _ _ Hf Hr Ex E) in Eu. discriminate.
      * rewrite p_receive_other by (intros Hx; apply sensing_spec in Hx; congruence). rewrite proto_evs_client. reflexivity.
  - rewrite step_update in H. unfold run. cbn -[p_update]. pose proof (update_shape (bd_proto s) now) as Hs.
    destruct (p_update (bd_proto s) now) as [p pevs]. cbn [fst snd app] in *. destruct (existsb is_lost pevs) eqn:El.
    + destruct (cstep bi (bd_client s) Lost) as [[c e]|]; [|discriminate]. injection H as <- <-. cbn [bd_proto].
      cbn [proto_evs flat_map app]. fold (proto_evs (map OfClient e ++ map OfProto (tl pevs))).
      rewrite proto_evs_app, proto_evs_client, proto_evs_proto. cbn [app].
      destruct Hs as [-> |[-> |[(i & w & ->)|(w & ->)]]]; try discriminate El. reflexivity.
    + injection H as <- <-. rewrite proto_evs_proto. reflexivity.
Qed.

Lemma c65_protocol ops : sensing_free maps0 -> forall s evs, R ops s evs ->
  p_reached lease tuner t0 (proto_ops ops) (bd_proto s) (proto_evs (concat evs)).
Proof.
  intros Hf. induction ops as [|ops o IH] using rev_ind_snoc; intros s evs (Hn & H).
  - injection H as <- <-. reflexivity.
  - rewrite bdrun_snoc in H. destruct (bdrun _ _ ops) as [[s1 es]|] eqn:E; [|discriminate].
    destruct (bdstep bi s1 o) as [[s2 e]|] eqn:Es; [|discriminate]. injection H as <- <-.
    pose proof (IH s1 es (conj Hn E)) as Hp. pose proof (step_proto _ _ _ _ _ _ Hf (conj Hn E) Es) as Hs. unfold p_reached in *.
    rewrite proto_ops_snoc, run_app, Hp. cbn [fst snd]. rewrite Hs. cbn [fst snd]. rewrite concat_snoc, proto_evs_app. reflexivity.
Qed.

(* ---- the loss of the connection ---- *)

Lemma terminated_val ls : forall f m k, val (fold_left (fun f l => terminated f m l) ls f k) = val (f k) \/ val (fold_left (fun f l => terminated f m l) ls f k) = None.
Proof.
  induction ls as [|l ls IH]; intros f m k; cbn; auto. destruct (IH (terminated f m l) m k) as [-> | -> ]; auto.
  destruct l as [[i cl]|d]; cbn; auto. destruct cl; auto. unfold upd. destruct (k =? m)%nat; cbn; auto.
Qed.
Lemma terminated_clears ls : forall f m i, In (LExt (mkExt i true)) ls -> val (fold_left (fun f l => terminated f m l) ls f m) = None.
Proof.
  induction ls as [|l ls IH]; intros f m i H; [destruct H|]. cbn. destruct H as [-> |H]; [|eauto].
  destruct (terminated_val ls (terminated f m (LExt (mkExt i true))) m m) as [-> | -> ]; auto. cbn. unfold upd. rewrite Nat.eqb_refl. reflexivity.
Qed.
Lemma lost_keeps rs : forall f f' e k, connection_lost bi f rs = Ok (f', e) -> val (f k) = None -> val (f' k) = None.
Proof.
  induction rs as [|r rs IH]; intros f f' e k H Hk; cbn in H; [injection H as <- _; auto|].
  destruct (bi (r_map r)); [|eauto]. destruct (r_listeners r) as [ls|]; [|discriminate].
  destruct (connection_lost bi _ rs) as [[f2 e2]|] eqn:E; [|discriminate]. injection H as <- _. eapply IH; [exact E|].
  destruct (terminated_val ls f (r_map r) k) as [-> | -> ]; auto.
Qed.
Lemma lost_clears rs : forall f f' e m i, connection_lost bi f rs = Ok (f', e) -> bi m = true ->
  (exists r ls, In r rs /\ r_map r = m /\ r_listeners r = Some ls /\ In (LExt (mkExt i true)) ls) -> val (f' m) = None.
Proof.
  induction rs as [|r rs IH]; intros f f' e m i H Hb (r0 & ls0 & Hin & Hm & Hl & Hi); [destruct Hin|]. cbn in H.
  destruct (bi (r_map r)) eqn:Eb.
  - destruct (r_listeners r) as [ls|] eqn:El; [|discriminate]. destruct (connection_lost bi _ rs) as [[f2 e2]|] eqn:E; [|discriminate].
    injection H as <- _. destruct Hin as [-> |Hin]; [|eapply IH; [exact E|exact Hb|exists r0, ls0; repeat split; eauto]].
    eapply lost_keeps; [exact E|]. rewrite El in Hl. injection Hl as ->. rewrite <- Hm. eapply terminated_clears; eauto.
  - destruct Hin as [-> |Hin]; [congruence|]. eapply IH; [exact H|exact Hb|]. exists r0, ls0. repeat split; eauto.
Qed.
Lemma enlisted_in c m l : In l (enlisted c m) -> exists r ls, In r (reqs c) /\ r_map r = m /\ r_listeners r = Some ls /\ In l ls.
Proof.
  unfold enlisted. destruct (find _ (reqs c)) as [r|] eqn:E; [|intros []]. apply find_some in E. destruct E as [E1 E2]. apply Nat.eqb_eq in E2.
  destruct r as [k [ls|] p]; [|intros []]. intros H. exists (mkReq k (Some ls) p), ls. auto.
Qed.

Lemma is_lost_shape p now : existsb is_lost (snd (p_update p now)) = true -> exists w, snd (p_update p now) = [PLost now; PSend now true w].
Proof. intros H. destruct (update_shape p now) as [E|[E|[(i & w & E)|E]]]; auto; rewrite E in H; discriminate H. Qed.

Lemma c65_lost ops s evs now s' ev : R ops s evs -> bdstep bi s (BUpdate now) = Ok (s', ev) ->
  (reports_loss ev = true -> exists tev w, ev = OfProto (PLost now) :: map OfClient tev ++ [OfProto (PSend now true w)] /\
     Forall (fun e => exists l m, e = EvTerminated l m) tev /\
     (forall l m, count (is_terminated l m) tev = if bi m && existsb (listener_eqb l) (enlisted (bd_client s) m) then 1%nat else 0%nat) /\
     reqs (bd_client s') = reqs (bd_client s) /\
     (forall m i, bi m = true -> In (LExt (mkExt i true)) (enlisted (bd_client s) m) -> val (maps (bd_client s') m) = None)) /\
  (reports_loss ev = false -> bd_client s' = bd_client s /\ client_evs ev = []).
Proof.
  intros HR H. destruct (c65_client_gen _ _ _ _ _ _ _ _ _ HR) as (cevs & Hr & _). rewrite step_update in H.
  destruct (existsb is_lost _) eqn:El.
  - destruct (c13 _ _ _ _ _ _ Hr) as (c' & te & Ec & Hq & Ht & Hk). rewrite Ec in H. injection H as <- <-. split; [|discriminate]. intros _.
    destruct (is_lost_shape _ _ El) as (w & Ew). rewrite Ew. exists te, w. split; [reflexivity|]. split; [exact Hk|]. split; [exact Ht|]. split; [exact Hq|].
    intros m i Hb Hi. cbn [bd_client]. cbn in Ec. destruct (connection_lost bi (maps (bd_client s)) (reqs (bd_client s))) as [[f e2]|] eqn:Ecl; [|discriminate].
    injection Ec as <- _. cbn. eapply lost_clears; [exact Ecl|exact Hb|]. apply enlisted_in. exact Hi.
  - injection H as <- <-. pose proof (loss_client [] (snd (p_update (bd_proto s) now))) as Hl. cbn [map app] in Hl. rewrite Hl, El.
    split; [discriminate|]. intros _. rewrite client_evs_proto. auto.
Qed.

Lemma c65_when ops s evs now s' ev : sensing_free maps0 -> R ops s evs -> bdstep bi s (BUpdate now) = Ok (s', ev) ->
  (reports_loss ev = true <-> connected (proto_evs (concat evs)) = false /\ existsb is_online (proto_evs (concat evs)) = true /\
     last_time is_init (proto_evs (concat evs)) + 5000 < now).
Proof.
  intros Hf HR H. pose proof (c65_protocol _ Hf _ _ HR) as Hp. destruct (update_exact _ _ _ _ _ _ now Hp) as [U1 U2].
  assert (Hl : reports_loss ev = existsb is_lost (snd (p_update (bd_proto s) now))).
  { rewrite step_update in H. destruct (existsb is_lost _) eqn:El.
    - destruct (cstep bi (bd_client s) Lost) as [[c e]|]; [|discriminate]. injection H as <- <-. reflexivity.
    - injection H as <- <-. pose proof (loss_client [] (snd (p_update (bd_proto s) now))) as Hl. cbn [map app] in Hl. rewrite Hl, El. reflexivity. }
  rewrite Hl. destruct (connected (proto_evs (concat evs))).
  - destruct (U2 eq_refl) as (t & _ & ->). split; [|intros [? _]; discriminate]. repeat case_if; discriminate.
  - rewrite (U1 eq_refl). destruct (_ + 5000 <? now) eqn:E.
    + apply Z.ltb_lt in E. destruct (existsb is_online _); cbn; intuition discriminate.
    + apply Z.ltb_ge in E. cbn. split; [discriminate|]. intros (_ & _ & ?). lia.
Qed.

(* ---- silence ---- *)

Lemma last_sensed_unique ops t t' : last_sensed ops t -> last_sensed ops t' -> t = t'.
Proof.
  intros (a & x & b & E & Hx & F) (a' & x' & b' & E' & Hx' & F'). subst ops. revert a' E'.
  induction a as [|o a IH]; intros [|o' a'] E'; cbn in E'; injection E' as E1 E2.
  - congruence.
  - exfalso. rewrite Forall_forall in F. apply (F (PReceive t' x')); [|exact Hx']. rewrite E2. apply in_or_app. right. left. reflexivity.
  - exfalso. rewrite Forall_forall in F'. apply (F' (PReceive t x)); [|exact Hx]. rewrite <- E2. apply in_or_app. right. left. reflexivity.
  - eapply IH; eauto.
Qed.

Lemma connected_online evs : connected evs = true -> existsb is_online evs = true.
Proof.
  induction evs as [|evs e IH] using rev_ind_snoc; [discriminate|]. rewrite connected_snoc, existsb_app. cbn. intros H.
  destruct e; cbn in H; try discriminate; cbn; rewrite ?orb_true_r, ?orb_false_r; auto.
Qed.

(* No sensing message among the steps of the protocol. *)
Definition quiet (ops : list pop) : Prop := forall now x, In (PReceive now x) ops -> ~ sensing x.
Definition waits (t last : Z) (was : bool) (ops : list pop) (evs : list pevent) : Prop :=
  last_time is_init evs = last /\ existsb is_online evs = true /\ (connected evs = true -> was = true /\ last_sensed ops t).

Lemma quiet_step ops p evs o t last was : p_reached lease tuner t0 ops p evs -> waits t last was ops evs -> quiet [o] ->
  exists p' e, pstep p o = (p', e) /\ p_reached lease tuner t0 (ops ++ [o]) p' (evs ++ e) /\
    (existsb is_lost e = true \/
     waits t last (match o with PUpdate u => if t + 1500 <? u then false else was | _ => was end) (ops ++ [o]) (evs ++ e)) /\
    (forall u, o = PUpdate u -> connected evs = false -> last + 5000 < u -> existsb is_lost e = true).
Proof.
  intros Hp (W1 & W2 & W3) Hq. destruct (pstep p o) as [p' e] eqn:Es. exists p', e. split; [reflexivity|].
  split; [unfold p_reached in *; rewrite run_snoc, Hp; cbn [fst snd]; rewrite Es; reflexivity|].
  destruct o as [u|u x]; cbn in Es.
  - destruct (update_exact _ _ _ _ _ _ u Hp) as [U1 U2]. rewrite Es in U1, U2. cbn [snd] in U1, U2. destruct (connected evs) eqn:Ec.
    + destruct (U2 eq_refl) as (t' & Ht' & E). destruct (W3 eq_refl) as (Hw & Ht). rewrite (last_sensed_unique _ _ _ Ht' Ht) in E.
      split; [|intros ? ? ?; discriminate]. right. subst was e. unfold waits. rewrite last_time_snoc, existsb_app, connected_snoc, W2, W1, Ec.
      destruct (t + 1500 <? u); [cbn; split; [auto|]; split; [auto|discriminate]|].
      assert (last_sensed (ops ++ [PUpdate u]) t) by (apply last_sensed_snoc_upd; auto).
      destruct (_ <? u); cbn; repeat split; auto.
    + pose proof (U1 eq_refl) as E. rewrite W1, W2 in E. destruct (last + 5000 <? u) eqn:E1.
      * subst e. split; [left; reflexivity|reflexivity].
      * apply Z.ltb_ge in E1. split; [|intros u' Hu _ Hl; injection Hu as ->; lia]. right. subst e. rewrite app_nil_r. split; [auto|]. split; [auto|].
        rewrite Ec. discriminate.
  - rewrite p_receive_other in Es by (apply (Hq u x); left; reflexivity). injection Es as <- <-. rewrite app_nil_r.
    split; [|discriminate]. right. split; [auto|]. split; [auto|]. intros Hc. destruct (W3 Hc) as (? & ?). split; [auto|].
    apply last_sensed_snoc_rcv; auto. apply (Hq u x). left. reflexivity.
Qed.

Lemma quiet_run ops2 : forall ops p evs t last was, p_reached lease tuner t0 ops p evs -> waits t last was ops evs -> quiet ops2 ->
  exists p' e, run pstep p ops2 = (p', e) /\ p_reached lease tuner t0 (ops ++ ops2) p' (evs ++ e) /\
   (existsb is_lost e = true \/ waits t last was (ops ++ ops2) (evs ++ e)).
Proof.
  induction ops2 as [|o ops2 IH]; intros ops p evs t last was Hp HW Hq.
  - exists p, []. rewrite !app_nil_r. split; [reflexivity|auto].
  - destruct (quiet_step _ _ _ o _ _ _ Hp HW) as (p1 & e1 & Es & Hp1 & Hor & _); [intros n x [Hi|[]]; apply (Hq n x); left; auto|].
    rewrite run_cons, Es. cbn [fst snd].
    destruct Hor as [Hl|HW1].
    + exists (fst (run pstep p1 ops2)), (e1 ++ snd (run pstep p1 ops2)). split; [reflexivity|]. split.
      * unfold p_reached in *. rewrite run_app, Hp, run_cons. cbn [fst snd]. rewrite Es. cbn [fst snd]. reflexivity.
      * left. rewrite existsb_app, Hl. reflexivity.
    + assert (HW2 : waits t last was (ops ++ [o]) (evs ++ e1)).
      { destruct HW1 as (? & ? & H3). split; [auto|]. split; [auto|]. intros Hc. destruct (H3 Hc) as [Hw ?]. split; auto.
        destruct o; auto. destruct (_ <? _); [discriminate|auto]. }
      destruct (IH _ _ _ _ _ _ Hp1 HW2) as (p2 & e2 & Er & Hp2 & Ho2); [intros n x Hi; apply (Hq n x); right; auto|].
      rewrite Er. cbn [fst snd]. rewrite <- !app_assoc in *. cbn [app] in *. exists p2, (e1 ++ e2). split; [reflexivity|]. split; [exact Hp2|].
      destruct Ho2 as [Ho2|Ho2]; [left; rewrite existsb_app, Ho2; apply orb_true_r|auto].
Qed.

Lemma quiet_lost ops p evs t a u1 b u2 : p_reached lease tuner t0 ops p evs -> connected evs = true -> last_sensed ops t ->
  quiet a -> quiet b -> t + 1500 < u1 -> last_time is_init evs + 5000 < u2 ->
  existsb is_lost (snd (run pstep p (a ++ PUpdate u1 :: b ++ [PUpdate u2]))) = true.
Proof.
  intros Hp Hc Ht Ha Hb H1 H2.
  destruct (quiet_run a ops p evs t (last_time is_init evs) true Hp) as (p1 & e1 & Ea & Hp1 & Ho1); [split; [auto|]; split; [apply connected_online; auto|auto]|auto|].
  rewrite run_app, Ea. cbn [fst snd]. rewrite existsb_app. destruct Ho1 as [-> |HW1]; [reflexivity|]. apply orb_true_iff. right.
  destruct (quiet_step _ _ _ (PUpdate u1) _ _ _ Hp1 HW1) as (p2 & e2 & Eu & Hp2 & Ho2 & _); [intros n x [Hi|[]]; discriminate Hi|].
  rewrite run_cons, Eu. cbn [fst snd]. rewrite existsb_app. destruct Ho2 as [-> |HW2]; [reflexivity|]. apply orb_true_iff. right.
  assert (t + 1500 <? u1 = true) as E1 by (apply Z.ltb_lt; auto). rewrite E1 in HW2.
  destruct (quiet_run b _ _ _ _ _ _ Hp2 HW2 Hb) as (p3 & e3 & Eb & Hp3 & Ho3).
  rewrite run_app, Eb. cbn [fst snd]. rewrite existsb_app. destruct Ho3 as [-> |HW3]; [reflexivity|]. apply orb_true_iff. right.
  destruct (quiet_step _ _ _ (PUpdate u2) _ _ _ Hp3 HW3) as (p4 & e4 & Eu2 & _ & _ & Hfin); [intros n x [Hi|[]]; discriminate Hi|].
  rewrite run_cons, Eu2. cbn [fst snd run fold_left]. rewrite app_nil_r. eapply Hfin; [reflexivity| |exact H2].
  match goal with |- connected ?E = false => destruct (connected E) eqn:Ec end; [|reflexivity]. destruct HW3 as (_ & _ & H3). destruct (H3 Ec) as [Hx _]. discriminate Hx.
Qed.

Lemma proto_ops_app a b : proto_ops (a ++ b) = proto_ops a ++ proto_ops b.
Proof. apply flat_map_app. Qed.
Lemma silent_quiet a : silent a -> quiet (proto_ops a).
Proof.
  intros H n x Hi. unfold proto_ops in Hi. apply in_flat_map in Hi. destruct Hi as (o & Ho & Hi).
  destruct o as [| | | |n' [y|]|n']; cbn in Hi; try contradiction; destruct Hi as [Hi|[]]; try discriminate Hi. injection Hi as -> ->. eauto.
Qed.
Lemma lost_in evs : existsb is_lost (proto_evs evs) = true -> exists t, In (OfProto (PLost t)) evs.
Proof.
  intros H. apply existsb_exists in H. destruct H as (e & Hi & He). unfold proto_evs in Hi. apply in_flat_map in Hi. destruct Hi as (d & Hd & Hi).
  destruct d as [|e']; [destruct Hi|]. destruct Hi as [-> |[]]. destruct e; try discriminate He. eauto.
Qed.

Lemma c65_silence ops s evs t a u1 b u2 s' evs' : sensing_free maps0 -> R ops s evs ->
  connected (proto_evs (concat evs)) = true -> last_sensed (proto_ops ops) t ->
  silent a -> silent b -> t + 1500 < u1 -> last_time is_init (proto_evs (concat evs)) + 5000 < u2 ->
  bdrun bi s (a ++ BUpdate u1 :: b ++ [BUpdate u2]) = Ok (s', evs') -> exists u, In (OfProto (PLost u)) (concat evs').
Proof.
  intros Hf HR Hc Ht Ha Hb H1 H2 H. apply lost_in. pose proof (c65_protocol _ Hf _ _ HR) as Hp.
  assert (HR' : R (ops ++ a ++ BUpdate u1 :: b ++ [BUpdate u2]) s' (evs ++ evs')).
  { destruct HR as [Hn HR]. split; [exact Hn|]. rewrite bdrun_app, HR, H. reflexivity. }
  pose proof (c65_protocol _ Hf _ _ HR') as Hp'. unfold p_reached in Hp, Hp'. rewrite proto_ops_app, run_app, Hp in Hp'. cbn [fst snd] in Hp'.
  rewrite concat_app, proto_evs_app in Hp'.
  assert (E : proto_evs (concat evs') = snd (run pstep (bd_proto s) (proto_ops (a ++ BUpdate u1 :: b ++ [BUpdate u2])))).
  { injection Hp' as _ Hp'. apply app_inv_head in Hp'. auto. }
  rewrite E, proto_ops_app. change (BUpdate u1 :: b ++ [BUpdate u2]) with ([BUpdate u1] ++ b ++ [BUpdate u2]). rewrite !proto_ops_app.
  apply (quiet_lost (proto_ops ops) (bd_proto s) (proto_evs (concat evs)) t); auto using silent_quiet.
Qed.

(* ---- no exception ---- *)

Definition heard (o : op) : bool := match o with Lost => false | _ => true end.
Lemma heard_calls ops : forall evs, length evs = length ops -> filter heard (client_ops ops evs) = calls ops.
Proof.
  induction ops as [|o ops IH]; intros [|e evs] H; try discriminate H; [reflexivity|]. injection H as H. cbn [client_ops]. rewrite filter_app, IH by auto.
  unfold calls. cbn [flat_map]. f_equal. destruct o; cbn; auto. destruct (reports_loss e); reflexivity.
Qed.
Lemma orderly_heard ops : orderly bi maps0 (filter heard ops) -> orderly bi maps0 ops.
Proof.
  intros [H1 H2]. split.
  - intros now m a Hi. apply (H1 now m a). apply filter_In. auto.
  - intros pre o post m -> Hb (n & a & Hs) Hu. assert (Ho : heard o = true) by (destruct o; auto).
    destruct (H2 (filter heard pre) o (filter heard post) m) as (t & l & Hi); auto.
    + rewrite filter_app. cbn. rewrite Ho. reflexivity.
    + exists n, a. apply filter_In. auto.
    + apply filter_In in Hi. exists t, l. tauto.
Qed.
Lemma orderly_prefix a b : orderly bi maps0 (a ++ b) -> orderly bi maps0 a.
Proof.
  intros [H1 H2]. split.
  - intros now m x Hi. apply (H1 now m x). apply in_or_app. auto.
  - intros pre o post m -> Hb (n & x & Hs) Hu. apply (H2 pre o (post ++ b) m); auto.
    + rewrite <- app_assoc. reflexivity.
    + exists n, x. apply in_or_app. auto.
Qed.
Lemma calls_app a b : calls (a ++ b) = calls a ++ calls b.
Proof. apply flat_map_app. Qed.

Lemma c65_history ops : no_self_dependency maps0 -> orderly bi maps0 (calls ops) -> exists s evs, R ops s evs.
Proof.
  intros Hn. induction ops as [|ops o IH] using rev_ind_snoc; intros Ho; [exists (bdinit maps0 lt lease tuner t0), []; split; auto|].
  rewrite calls_app in Ho. destruct (IH (orderly_prefix _ _ Ho)) as (s & evs & HR). pose proof HR as (_ & Hb).
  destruct (c65_client_gen _ _ _ _ _ _ _ _ _ HR) as (cevs & Hr & _).
  assert (exists s' e, bdstep bi s o = Ok (s', e)) as (s' & e & Es).
  { destruct (bd_call o) as [c|] eqn:Ec.
    - assert (Hh : orderly bi maps0 (client_ops ops evs ++ [c])).
      { apply orderly_heard. rewrite filter_app, heard_calls by (eapply bdrun_length; eauto). unfold calls in Ho at 2. cbn [flat_map] in Ho.
        rewrite Ec in Ho. cbn [app] in Ho. destruct o; try discriminate Ec; injection Ec as <-; exact Ho. }
      destruct (c58_history bi maps0 lt Hn Hsound Happart _ Hh) as (c1 & ev1 & Er). rewrite crun_snoc, (proj2 Hr) in Er.
      destruct (cstep bi (bd_client s) c) as [[c2 e2]|] eqn:Es; [|discriminate].
      destruct o as [| | | |now x|]; try discriminate Ec; injection Ec as <-; cbn [bdstep]; unfold bcall; rewrite Es; eauto.
      destruct x as [x|]; eauto. destruct (unparsed e2); eauto. destruct (p_receive (bd_proto s) now x) as [[p pe] q]. eauto.
    - destruct o as [| | | | |now]; try discriminate Ec. rewrite step_update. destruct (existsb is_lost _); eauto.
      destruct (c13 _ _ _ _ _ _ Hr) as (c' & te & -> & _). eauto. }
  exists s', (evs ++ [e]). split; [exact Hn|]. rewrite bdrun_snoc, Hb, Es. reflexivity.
Qed.

End Wired.

(* ---- the device ---- *)

Definition sense_like (r : msg) : bool := match r with SysEx _ d => bytes_eqb (firstn 3 (skipn 2 d)) [126; 0; 127] | _ => false end.
Lemma sensing_like x r : sensing x -> addressed x r -> sense_like r = true.
Proof.
  intros Hs Ha. destruct Hs as [a b rest]. inversion Ha as [| |man d d' E]; subst. cbn [sense_like]. apply bytes_eqb_spec.
  revert E. generalize (skipn 2 d'). intros [|c0 [|c1 [|c2 l]]] E; cbn in E; try discriminate E. injection E as <- <- <- _. reflexivity.
Qed.
Lemma kemper_sensing p d x : sensing x -> hears x (kmapping p d) -> p = Sense.
Proof.
  intros Hs (r & Hr & Ha). rewrite templates_k in Hr. pose proof (sensing_like _ _ Hs Ha) as Hl.
  pose proof (by_pairs (fun p _ => eqp p Sense || forallb (fun r => negb (sense_like r)) (ktemplates p)) eq_refl p p) as H. cbn beta in H.
  apply orb_true_iff in H. destruct H as [H|H]; [apply eqp_eq; exact H|]. rewrite forallb_forall in H. specialize (H r Hr). rewrite Hl in H. discriminate.
Qed.

Lemma get_new r p d r' i : get r (kargs p d) = Ok (r', i) -> forall x, In x r' -> In x r \/ x = kmapping p d.
Proof.
  unfold get. cbn [g_two_part g_name kargs]. rewrite names_nonempty, andb_false_r.
  destruct (find_name (k_name (kemper p)) r 0) as [j|]; intros H; injection H as <- _; auto.
  intros x Hx. apply in_app_or in Hx. destruct Hx as [Hx|[<-|[]]]; auto.
Qed.
Lemma kget_new r p r' i : kget r p = Ok (r', i) -> forall x, In x r' -> In x r \/ exists q d, x = kmapping q d /\ (q = p \/ q = RigDate).
Proof.
  unfold kget. destruct (k_dep (kemper p)).
  - destruct (get r (kargs RigDate 0)) as [[r1 d]|] eqn:E; [|discriminate]. intros H x Hx.
    destruct (get_new _ _ _ _ _ H x Hx) as [Hy| -> ]; [|eauto 10]. destruct (get_new _ _ _ _ _ E x Hy) as [Hz| -> ]; eauto 10.
  - intros H x Hx. destruct (get_new _ _ _ _ _ H x Hx) as [Hy| -> ]; eauto 10.
Qed.
Lemma kgets_new ps : forall r r' is, kgets r ps = Ok (r', is) -> forall x, In x r' -> In x r \/ exists q d, x = kmapping q d /\ (In q ps \/ q = RigDate).
Proof.
  induction ps as [|p ps IH]; intros r r' is H x Hx; cbn in H; [injection H as <- _; auto|].
  destruct (kget r p) as [[r1 i]|] eqn:E; [|discriminate]. destruct (kgets r1 ps) as [[r2 js]|] eqn:E2; [|discriminate]. injection H as <- _.
  destruct (IH _ _ _ E2 x Hx) as [Hy|(q & d & -> & [Hq| -> ])]; [|right; exists q, d; cbn; auto|right; exists RigDate, d; auto].
  destruct (kget_new _ _ _ _ E x Hy) as [Hz|(q & d & -> & [-> | -> ])]; [auto|right; exists p, d; cbn; auto|right; exists RigDate, d; auto].
Qed.
Lemma kemper_free ps r is : kgets [] ps = Ok (r, is) -> ~ In Sense ps -> sensing_free (objects r).
Proof.
  intros H Hn m x Hx Hh. unfold objects in Hh. destruct (nth_in_or_default m r unused) as [Hi|He].
  - destruct (kgets_new _ _ _ _ H _ Hi) as [[]|(q & d & Eq & Hq)]. rewrite Eq in Hh. pose proof (kemper_sensing _ _ _ Hx Hh) as ->.
    destruct Hq as [Hq|Hq]; [auto|discriminate].
  - rewrite He in Hh. destruct Hh as (y & [] & _).
Qed.
Lemma c65_kemper ps r is bi lt lease tuner t0 ops : kgets [] ps = Ok (r, is) -> ~ In Sense ps -> orderly bi (objects r) (calls ops) ->
  sensing_free (objects r) /\ exists s evs, bd_reached bi (objects r) lt lease tuner t0 ops s evs.
Proof.
  intros E Hn Ho. split; [eapply kemper_free; eauto|].
  destruct (kgets_ok ps [] good_nil) as (r' & is' & E' & G & _). rewrite E in E'. injection E' as <- <-.
  destruct (good_client r G) as (Hd & Hs & Ha). apply c65_history; auto.
Qed.

Lemma handled_name p : existsb (fun q => String.eqb (k_name (kemper q)) (k_name (kemper p))) parameter_set_2 = true <-> reported p.
Proof. destruct p; try match goal with x : slot |- _ => destruct x | x : rigno |- _ => destruct x | x : button |- _ => destruct x end; vm_compute; intuition congruence. Qed.
Lemma handled ps r is p i : kgets [] ps = Ok (r, is) -> In (p, i) is -> (is_bidirectional r i = true <-> reported p).
Proof.
  intros Hk Hi. destruct (KemperMappings.c63_objects ps) as (r' & is' & Hk' & _ & Ho & _). rewrite Hk in Hk'. injection Hk' as <- <-.
  destruct (Ho p i Hi) as (d & Hd & _). unfold is_bidirectional. rewrite Hd. apply handled_name.
Qed.
Lemma not_handled (r : registry) i : nth_error r i = None -> is_bidirectional r i = false.
Proof. intros H. unfold is_bidirectional. rewrite H. reflexivity. Qed.
