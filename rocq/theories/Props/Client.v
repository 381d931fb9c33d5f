(* C05 - C13: the client and its requests. [reached bi maps0 lt ops c evs]: the operations [ops], starting with a new client
   that has the parameters [maps0] and the request lifetime [lt], of which [bi] are handled by a bidirectional protocol,
   lead to [c] without an exception, with the events [evs] (per operation). *)
From Coq Require Import String.
From Verif.Lib Require Import Base.
From Verif.Model Require Import Midi Period Mapping Client.
From Verif.Spec Require Import Mapping Client.
From Verif.Proofs Require Import ClientTotal ClientProps.
Open Scope Z_scope.

(* A set-up used by the examples: 0 a string parameter, 1 a numeric parameter depending on it, 2 a parameter listening to
   CC 20 without request message, 3 a parameter handled by the protocol; the others like 3, with another address. *)
Definition ex_sysex (f a : Z) (tail : list Z) : msg := SysEx [0;32;51] ([2;127;f;0;a;1] ++ tail).
Definition ex_maps (m : mid) : mapping :=
  match m with
  | 0%nat => mkMapping "Rig name" TNone (TOne (ex_sysex 67 0 [])) (TOne (ex_sysex 3 0 [])) None Str None false None
  | 1%nat => mkMapping "Effect type" TNone (TOne (ex_sysex 65 50 [])) (TOne (ex_sysex 1 50 [])) None Numeric (Some 0%nat) false None
  | 2%nat => mkMapping "CC" TNone TNone (TOne (CC 20 0)) None Numeric None false None
  | 3%nat => mkMapping "State" (TOne (ex_sysex 1 51 [0;0])) (TOne (ex_sysex 65 51 [])) (TOne (ex_sysex 1 51 [])) None Numeric None false None
  | _ => mkMapping "Other" (TOne (ex_sysex 1 52 [0;0])) (TOne (ex_sysex 65 52 [])) (TOne (ex_sysex 1 52 [])) None Numeric None false None
  end.
Definition ex_bi (m : mid) : bool := (m =? 3)%nat.
Definition A : ext := mkExt 0 true.
Definition B : ext := mkExt 1 true.
Definition rig_answer (name : list Z) : msg := ex_sysex 3 0 (name ++ [0]).

Lemma ex_no_self : no_self_dependency ex_maps.
Proof. intros [|[|[|[|m]]]]; discriminate. Qed.
Arguments Register _%Z _%nat _. Arguments Request _%Z _%nat _. Arguments Set_ _%Z _%nat _. Arguments mkReq _%nat _ _.
Arguments EvOpened _%nat _%Z. Arguments EvJoined _ _%nat. Arguments EvReqSent _%nat _. Arguments EvSet _%nat _.
Arguments EvChanged _ _%nat _. Arguments EvTerminated _ _%nat. Arguments EvAnswered _%nat _%Z. Arguments EvExpired _%nat _%Z.
Arguments LDep _%nat. Arguments requested _ _ _%Z _%nat. Arguments outstanding _ _%nat. Arguments maps _ _%nat. Arguments ex_maps _%nat.
Arguments ex_bi _%nat. Arguments permanent _ _%nat. Arguments enlisted _ _%nat. Arguments has_request _ _%nat.
Arguments is_sent _%nat _. Arguments is_answered _%nat _. Arguments is_expired _%nat _. Arguments is_notif _ _%nat _.
Ltac reach := split; [exact ex_no_self|vm_compute; reflexivity].

(* ---- C05 ---- *)

Theorem C05_one_request : forall bi maps0 lt ops c evs, reached bi maps0 lt ops c evs ->
  NoDup (map r_map (reqs c)) /\
  Forall (fun r => exists ls, r_listeners r = Some ls /\ NoDup ls) (reqs c).     (* None is the finished state *)
Proof. exact c05. Qed.
Print Assumptions C05_one_request.

Definition ex_ops1 : list op :=
  [ Register 10 2 (Some A); Request 11 0 (Some A); Request 12 0 (Some B); Request 13 0 (Some A); Request 14 4 (Some B) ].
Definition ex_c1 : client := mkClient ex_maps
  [ mkReq 2 (Some [LExt A]) None; mkReq 0 (Some [LExt A; LExt B]) (Some (mkPeriod 2000 11)); mkReq 4 (Some [LExt B]) (Some (mkPeriod 2000 14)) ]
  [] 2000 (mkPeriod 1000 0).
Definition ex_evs1 : list (list event) :=
  [ [EvOpened 2 10; EvJoined (LExt A) 2]; [EvOpened 0 11; EvJoined (LExt A) 0; EvReqSent 0 [ex_sysex 67 0 []]]; [EvJoined (LExt B) 0]; [];
    [EvOpened 4 14; EvJoined (LExt B) 4; EvReqSent 4 [ex_sysex 65 52 []]] ].
Example C05_ex : reached ex_bi ex_maps 2000 ex_ops1 ex_c1 ex_evs1.
Proof. reach. Qed.

(* ---- C06 ---- *)

(* The whole life of the requests for a parameter, over any history, follows the automaton of Spec/Client.v, and ends in
   the state the client's own list of requests shows. *)
Theorem C06_life_of_requests : forall bi maps0 lt ops c evs m, reached bi maps0 lt ops c evs -> requested bi maps0 lt m ->
  arun lt m Idle (concat evs) = Some (outstanding c m).
Proof. exact c06_life. Qed.
Print Assumptions C06_life_of_requests.

(* Asking never raises, and afterwards the asker is enlisted in the outstanding request. *)
Theorem C06_enlisted : forall bi maps0 lt ops c evs now m x, reached bi maps0 lt ops c evs -> requested bi maps0 lt m ->
  truthy (response_t (maps c m)) = true -> depends (maps c m) = None ->
  exists c' ev t ls, cstep bi c (Request now m (Some x)) = Ok (c', ev) /\ outstanding c' m = Waiting t Open ls /\ In (LExt x) ls.
Proof. exact c06_enlisted. Qed.
Print Assumptions C06_enlisted.

(* Whatever happens afterwards: either it has not been told anything and is still enlisted in the same request; or it was
   told exactly once, and not again before it asked again. *)
Theorem C06_told_exactly_once : forall bi maps0 lt ops c evs ops' c' evs' m t ls l,
  reached bi maps0 lt ops c evs -> requested bi maps0 lt m ->
  outstanding c m = Waiting t Open ls -> In l ls -> crun bi c ops' = Ok (c', evs') ->
  (count (is_notif l m) (concat evs') = 0%nat /\ exists ls', outstanding c' m = Waiting t Open ls' /\ In l ls') \/
  (exists e1 n e2, concat evs' = e1 ++ n :: e2 /\ is_notif l m n = true /\ count (is_notif l m) e1 = 0%nat /\
     forall e3 n' e4, e2 = e3 ++ n' :: e4 -> is_notif l m n' = true -> exists j, In j e3 /\ is_join l m j = true).
Proof. exact c06_once. Qed.
Print Assumptions C06_told_exactly_once.

(* The answer arriving in time is told to everybody waiting, with the value it carries, and stored. *)
Theorem C06_answer_is_told : forall bi maps0 lt ops c evs now x c' ev m t ls r,
  reached bi maps0 lt ops c evs -> requested bi maps0 lt m -> depends (maps0 m) = None ->
  outstanding c m = Waiting t Open ls -> now <= t + lt ->
  two_part (maps c m) = false -> response_t (maps c m) = TOne r -> proper_template r -> addressed x r ->
  cstep bi c (Receive now (Some x)) = Ok (c', ev) ->
  exists v, carries (typ (maps c m)) x v /\ val (maps c' m) = Some v /\ changes_of m ev = map (fun l => (l, Some v)) ls.
Proof. exact c06_answer. Qed.
Print Assumptions C06_answer_is_told.

(* And conversely: whoever is told a value while a message is processed, that message was addressed to the parameter and
   carried that value. *)
Theorem C06_only_answers_are_told : forall bi maps0 lt ops c evs now x c' ev l m v r, reached bi maps0 lt ops c evs ->
  cstep bi c (Receive now (Some x)) = Ok (c', ev) -> In (EvChanged l m v) ev ->
  two_part (maps c m) = false -> response_t (maps c m) = TOne r -> proper_template r ->
  addressed x r /\ exists w, v = Some w /\ carries (typ (maps c m)) x w.
Proof. exact c06_value. Qed.
Print Assumptions C06_only_answers_are_told.

(* Asking, an unrelated message, then the answer; one more answer goes to nobody. Parameter 4 is never answered. *)
Definition ex_ops2 : list op :=
  [ Receive 100 (Some (CC 20 5)); Receive 200 (Some (rig_answer [65;66])); Receive 300 (Some (rig_answer [67]));
    Receive 2200 None ].
Example C06_ex_requested : requested ex_bi ex_maps 2000 0 /\ requested ex_bi ex_maps 2000 4 /\
  outstanding ex_c1 0 = Waiting 11 Open [LExt A; LExt B] /\ outstanding ex_c1 4 = Waiting 14 Open [LExt B] /\
  depends (maps ex_c1 0) = None /\ truthy (response_t (maps ex_c1 0)) = true.
Proof. repeat split; reflexivity. Qed.
Example C06_ex : exists c', crun ex_bi ex_c1 ex_ops2 = Ok (c',
  [ [EvChanged (LExt A) 2 (Some (VNum 5))];
    [EvChanged (LExt A) 0 (Some (VStr [65;66])); EvChanged (LExt B) 0 (Some (VStr [65;66])); EvAnswered 0 200];
    [EvUnused (rig_answer [67])];
    [EvTerminated (LExt B) 4; EvExpired 4 2200] ]).
Proof. eexists. vm_compute. reflexivity. Qed.
Example C06_ex_addressed : addressed (rig_answer [65;66]) (ex_sysex 3 0 []) /\ proper_template (ex_sysex 3 0 []).
Proof. split; [constructor; reflexivity|cbn; lia]. Qed.

(* ---- C07 ---- *)

Theorem C07_sent_iff_idle : forall bi maps0 lt ops c evs now m l, reached bi maps0 lt ops c evs -> requested bi maps0 lt m ->
  truthy (response_t (maps c m)) = true -> depends (maps c m) = None ->
  exists c' ev, cstep bi c (Request now m l) = Ok (c', ev) /\
    (outstanding c m = Idle -> filter (is_sent m) ev = [EvReqSent m (wire (request_t (maps c m)))]) /\
    (outstanding c m <> Idle -> count (is_sent m) ev = 0%nat).
Proof. exact c07_ask. Qed.
Print Assumptions C07_sent_iff_idle.

Theorem C07_sent_count : forall bi maps0 lt ops c evs m, reached bi maps0 lt ops c evs -> requested bi maps0 lt m ->
  (count (is_sent m) (concat evs) = count (is_answered m) (concat evs) + count (is_expired m) (concat evs) +
     (if match outstanding c m with Idle => true | _ => false end then 0 else 1))%nat.
Proof. exact c07_count. Qed.
Print Assumptions C07_sent_count.

Definition ex_ops3 : list op := ex_ops1 ++ ex_ops2 ++ [Request 2300 0 (Some B); Request 2301 0 (Some A)].
Example C07_ex : exists c evs, reached ex_bi ex_maps 2000 ex_ops3 c evs /\
  count (is_sent 0) (concat evs) = 2%nat /\ count (is_answered 0) (concat evs) = 1%nat /\ count (is_expired 0) (concat evs) = 0%nat /\
  outstanding c 0 = Waiting 2300 Open [LExt B; LExt A] /\
  count (is_sent 4) (concat evs) = 1%nat /\ count (is_expired 4) (concat evs) = 1%nat /\ outstanding c 4 = Idle.
Proof. eexists _, _. split; [reach|]. vm_compute. auto 10. Qed.

(* ---- C08 ---- *)

(* A request ends by a timeout only more than the lifetime after it was opened. The time is the clock reading of the poll. *)
Theorem C08_never_early : forall bi maps0 lt ops c evs m e1 t' e2, reached bi maps0 lt ops c evs -> requested bi maps0 lt m ->
  concat evs = e1 ++ EvExpired m t' :: e2 ->
  exists e0 t e3, e1 = e0 ++ EvOpened m t :: e3 /\ t + lt < t' /\
    count (is_answered m) e3 = 0%nat /\ count (is_expired m) e3 = 0%nat /\ count (is_opened m) e3 = 0%nat.
Proof. exact c08_never_early. Qed.
Print Assumptions C08_never_early.

(* A termination is always part of such a timeout. *)
Theorem C08_terminated_is_timeout : forall bi maps0 lt ops c evs m l e1 e2, reached bi maps0 lt ops c evs -> requested bi maps0 lt m ->
  concat evs = e1 ++ EvTerminated l m :: e2 ->
  exists e3 t' e4, e2 = e3 ++ EvExpired m t' :: e4 /\
    count (is_opened m) e3 = 0%nat /\ count (is_answered m) e3 = 0%nat /\ count (is_expired m) e3 = 0%nat.
Proof. exact c08_terminated_is_timeout. Qed.
Print Assumptions C08_terminated_is_timeout.

(* At the first poll where both the lifetime and the clean-up period are over, everybody waiting is told. *)
Theorem C08_terminated_at_poll : forall bi maps0 lt ops c evs now x c' ev m t ls, reached bi maps0 lt ops c evs -> requested bi maps0 lt m ->
  outstanding c m = Waiting t Open ls -> t + lt < now -> last_reset (clean c) + Z.quot lt 2 < now ->
  cstep bi c (Receive now x) = Ok (c', ev) ->
  exists pre post, ev = pre ++ map (fun l => EvTerminated l m) ls ++ EvExpired m now :: post.
Proof. exact c08_first_poll. Qed.
Print Assumptions C08_terminated_at_poll.

(* So a client that is polled cannot keep a request for longer than 1.5 lifetimes: of two polls, the first after the
   lifetime, the other more than half a lifetime later, one has ended it. *)
Theorem C08_bounded : forall bi maps0 lt ops c evs m t ls t1 x mid t2 y c' evs', reached bi maps0 lt ops c evs -> requested bi maps0 lt m ->
  outstanding c m = Waiting t Open ls -> last_reset (clean c) <= t1 -> t + lt < t1 ->
  Forall (fun o => forall u, op_time o = Some u -> t1 <= u) mid -> t1 + Z.quot lt 2 < t2 ->
  crun bi c (Receive t1 x :: mid ++ [Receive t2 y]) = Ok (c', evs') ->
  exists e, In e (concat evs') /\ (is_answered m e = true \/ is_expired m e = true).
Proof. exact c08_bounded. Qed.
Print Assumptions C08_bounded.

(* Processing a message always ends: the list of requests may grow while it is traversed, but only by one request per
   dependency. *)
Theorem C08_receive_ends : forall c now x, receive c now x <> None.
Proof. exact receive_total. Qed.
Print Assumptions C08_receive_ends.

(* Exactly at the end of the lifetime nothing is terminated, one millisecond later it is. *)
Example C08_ex : exists c1 c2 e2, cstep ex_bi ex_c1 (Receive 2011 None) = Ok (c1, []) /\
  outstanding c1 0 = Waiting 11 Open [LExt A; LExt B] /\
  cstep ex_bi ex_c1 (Receive 2012 None) = Ok (c2, e2) /\ e2 = [EvTerminated (LExt A) 0; EvTerminated (LExt B) 0; EvExpired 0 2012] /\
  last_reset (clean ex_c1) + Z.quot 2000 2 < 2012.
Proof. eexists _, _, _. vm_compute. auto. Qed.
Example C08_ex_bounded : exists c' evs', crun ex_bi ex_c1 (Receive 2012 None :: [Register 2013 2 (Some B)] ++ [Receive 3013 None]) = Ok (c', evs') /\
  last_reset (clean ex_c1) <= 2012 /\ Forall (fun o => forall u, op_time o = Some u -> 2012 <= u) [Register 2013 2 (Some B)].
Proof.
  eexists _, _. split; [vm_compute; reflexivity|]. split; [vm_compute; discriminate|].
  constructor; [|constructor]. intros u E. injection E as <-. lia.
Qed.

(* ---- C09 ---- *)

(* Registering a parameter without request message, or one handled by the protocol that has no request yet, enlists the
   listener in a permanent registration. *)
Theorem C09_registered : forall bi maps0 lt ops c evs now m x c' ev, reached bi maps0 lt ops c evs ->
  truthy (request_t (maps0 m)) = false \/ (bi m = true /\ ~ has_request c m) -> truthy (response_t (maps c m)) = true ->
  cstep bi c (Register now m (Some x)) = Ok (c', ev) -> permanent c' m /\ In (LExt x) (enlisted c' m).
Proof. exact c09_registered. Qed.
Print Assumptions C09_registered.

(* It is never removed, and neither is any of its listeners: listeners are only added at the end. *)
Theorem C09_forever : forall bi maps0 lt ops c evs ops' c' evs' m,
  reached bi maps0 lt ops c evs -> permanent c m -> crun bi c ops' = Ok (c', evs') ->
  permanent c' m /\ exists more, enlisted c' m = enlisted c m ++ more.
Proof. exact c09_forever. Qed.
Print Assumptions C09_forever.

(* Every matching message notifies each listener once, in order, with the value carried. *)
Theorem C09_delivery : forall bi maps0 lt ops c evs now x c' ev m r,
  reached bi maps0 lt ops c evs -> permanent c m -> depends (maps0 m) = None ->
  two_part (maps c m) = false -> response_t (maps c m) = TOne r -> proper_template r -> addressed x r ->
  cstep bi c (Receive now (Some x)) = Ok (c', ev) ->
  exists v, carries (typ (maps c m)) x v /\ val (maps c' m) = Some v /\ changes_of m ev = map (fun l => (l, Some v)) (enlisted c m).
Proof. exact c09_delivery. Qed.
Print Assumptions C09_delivery.

(* For two-part parameters (C03 gives the values): nobody is notified while the first half waits for the second. *)
Theorem C09_delivery_two_part : forall bi maps0 lt ops c evs now x c' ev m m',
  reached bi maps0 lt ops c evs -> permanent c m -> depends (maps0 m) = None ->
  two_part (maps c m) = true -> parse (maps c m) x = Ok (m', true) ->
  cstep bi c (Receive now (Some x)) = Ok (c', ev) ->
  maps c' m = m' /\ changes_of m ev = match value_1 m' with None => map (fun l => (l, val m')) (enlisted c m) | Some _ => [] end.
Proof. exact c09_delivery_two_part. Qed.
Print Assumptions C09_delivery_two_part.

Definition ex_ops4 : list op := ex_ops1 ++ [Register 20 2 (Some B); Register 21 2 (Some A); Register 22 3 (Some A); Lost; Receive 9000 None].
Example C09_ex : exists c evs c' evs', reached ex_bi ex_maps 2000 ex_ops4 c evs /\ permanent c 2 /\ permanent c 3 /\
  enlisted c 2 = [LExt A; LExt B] /\ enlisted c 3 = [LExt A] /\
  crun ex_bi c [Receive 9001 (Some (CC 20 7)); Receive 99999 (Some (CC 20 8)); Receive 99999 (Some (ex_sysex 1 51 [0;1]))] = Ok (c', evs') /\
  evs' = [ [EvChanged (LExt A) 2 (Some (VNum 7)); EvChanged (LExt B) 2 (Some (VNum 7))];
           [EvChanged (LExt A) 2 (Some (VNum 8)); EvChanged (LExt B) 2 (Some (VNum 8))];
           [EvChanged (LExt A) 3 (Some (VNum 1))] ].
Proof.
  eexists _, _, _, _. split; [reach|]. split; [eexists; split; [left; reflexivity|split; reflexivity]|].
  split; [eexists; split; [right; left; reflexivity|split; reflexivity]|]. vm_compute. auto.
Qed.
Example C09_ex_register : truthy (request_t (ex_maps 2)) = false /\ ex_bi 3 = true /\ ~ has_request ex_c1 3 /\ depends (ex_maps 2) = None.
Proof.
  split; [reflexivity|]. split; [reflexivity|]. split; [|reflexivity].
  intros (r & [<-|[<-|[<-|[]]]] & E); discriminate.
Qed.

(* ---- C10 ---- *)

(* A message no request is waiting for: exactly what a poll without a message would do, and the message is passed on. *)
Theorem C10_foreign_message : forall bi maps0 lt ops c evs now x c1 e1, reached bi maps0 lt ops c evs ->
  (forall m, has_request c m -> ~ concerns x (maps c m)) ->
  cstep bi c (Receive now None) = Ok (c1, e1) -> cstep bi c (Receive now (Some x)) = Ok (c1, e1 ++ [EvUnused x]).
Proof. exact c10. Qed.
Print Assumptions C10_foreign_message.

(* And a poll without a message notifies nobody about a value, and changes no value unless a request has timed out. *)
Theorem C10_empty_poll : forall bi maps0 lt ops c evs now c1 e1 m, reached bi maps0 lt ops c evs -> cstep bi c (Receive now None) = Ok (c1, e1) ->
  count is_changed e1 = 0%nat /\
  ((permanent c m \/ ~ has_request c m \/ (exists t ls, requested bi maps0 lt m /\ outstanding c m = Waiting t Open ls /\ now <= t + lt)) ->
   maps c1 m = maps c m).
Proof. exact c10_poll. Qed.
Print Assumptions C10_empty_poll.

Example C10_ex : (forall m, has_request ex_c1 m -> ~ concerns (ex_sysex 1 51 [0;1]) (maps ex_c1 m)) /\
  exists c1, cstep ex_bi ex_c1 (Receive 50 None) = Ok (c1, []) /\ cstep ex_bi ex_c1 (Receive 50 (Some (ex_sysex 1 51 [0;1]))) = Ok (c1, [EvUnused (ex_sysex 1 51 [0;1])]).
Proof.
  split.
  - intros m (r & Hin & <-) (_ & Hc). apply Hc. destruct Hin as [<-|[<-|[<-|[]]]]; vm_compute; reflexivity.
  - eexists. vm_compute. auto.
Qed.

(* ---- C11 ---- *)

(* Asking for a dependent parameter: the other one is asked for instead, on behalf of it. *)
Theorem C11_asks_dependency : forall bi maps0 lt ops c evs now d p x c' ev, reached bi maps0 lt ops c evs -> depends (maps c d) = Some p ->
  truthy (request_t (maps c d)) = true -> truthy (response_t (maps c d)) = true ->
  cstep bi c (Request now d (Some x)) = Ok (c', ev) ->
  In (LDep d) (enlisted c' p) /\ count (is_sent d) ev = 0%nat /\ count (is_opened d) ev = 0%nat.
Proof. exact c11_asks. Qed.
Print Assumptions C11_asks_dependency.

(* Over any history the requests for the dependent parameter follow the automaton [drun] of Spec/Client.v: sent exactly
   when the other value differs from the one seen last (and no request is outstanding). *)
Theorem C11_when_changed : forall bi maps0 lt ops c evs p d, reached bi maps0 lt ops c evs -> Forall names_listener ops ->
  depends (maps0 d) = Some p -> requested bi maps0 lt d -> (forall k, depends (maps0 k) <> Some d) ->
  exists s, drun p d (mkD None false DRest) (concat evs) = Some s /\ d_ph s = DRest.
Proof. exact c11_when_changed. Qed.
Print Assumptions C11_when_changed.

(* The "only when" part of that, spelled out: a request is preceded by the notification of a value of the other parameter
   that differs from the one of the notification before. *)
Theorem C11_only_when_changed : forall bi maps0 lt ops c evs p d e1 w e2, reached bi maps0 lt ops c evs -> Forall names_listener ops ->
  depends (maps0 d) = Some p -> requested bi maps0 lt d -> (forall k, depends (maps0 k) <> Some d) ->
  concat evs = e1 ++ EvReqSent d w :: e2 ->
  exists e0 v mid, e1 = e0 ++ EvChanged (LDep d) p v :: mid /\ value_eqb v (last_told d e0) = false /\
    Forall (fun e => match e with EvOpened d' _ => d' = d | EvJoined _ d' => d' = d | _ => False end) mid.
Proof. exact c11_only_when_changed. Qed.
Print Assumptions C11_only_when_changed.

(* Rig name AB: requested and answered. The same name again: not requested. Another name: requested again. *)
Definition ex_ops5 : list op :=
  [ Request 10 1 (Some A); Receive 20 (Some (rig_answer [65])); Receive 30 (Some (ex_sysex 1 50 [0;9]));
    Request 40 1 (Some A); Receive 50 (Some (rig_answer [65]));
    Request 60 1 (Some A); Receive 70 (Some (rig_answer [66])); Receive 80 (Some (ex_sysex 1 50 [0;8])) ].
Definition ex_evs5 : list (list event) :=
  [ [EvOpened 0 10; EvJoined (LDep 1) 0; EvReqSent 0 [ex_sysex 67 0 []]];
    [EvChanged (LDep 1) 0 (Some (VStr [65])); EvOpened 1 20; EvJoined (LExt A) 1; EvReqSent 1 [ex_sysex 65 50 []]; EvAnswered 0 20];
    [EvChanged (LExt A) 1 (Some (VNum 9)); EvAnswered 1 30];
    [EvOpened 0 40; EvJoined (LDep 1) 0; EvReqSent 0 [ex_sysex 67 0 []]];
    [EvChanged (LDep 1) 0 (Some (VStr [65])); EvAnswered 0 50];
    [EvOpened 0 60; EvJoined (LDep 1) 0; EvReqSent 0 [ex_sysex 67 0 []]];
    [EvChanged (LDep 1) 0 (Some (VStr [66])); EvOpened 1 70; EvJoined (LExt A) 1; EvReqSent 1 [ex_sysex 65 50 []]; EvAnswered 0 70];
    [EvChanged (LExt A) 1 (Some (VNum 8)); EvAnswered 1 80] ].
Example C11_ex : (exists c, reached ex_bi ex_maps 2000 ex_ops5 c ex_evs5) /\ Forall names_listener ex_ops5 /\
  depends (ex_maps 1) = Some 0%nat /\ requested ex_bi ex_maps 2000 1 /\ (forall k, depends (ex_maps k) <> Some 1%nat).
Proof.
  split; [eexists; reach|]. split; [repeat constructor|]. split; [reflexivity|]. split; [repeat split|].
  intros [|[|[|[|k]]]]; discriminate.
Qed.

(* Finding: of several listeners asking for the same dependent parameter only the first is ever told. Here both ask, the
   dependency is answered, the parameter is answered: B gets nothing and is not waiting for anything. *)
Theorem C11_every_listener_refuted : exists c evs,
  reached ex_bi ex_maps 2000
        [ Request 10 1 (Some A); Request 11 1 (Some B); Receive 20 (Some (rig_answer [65])); Receive 30 (Some (ex_sysex 1 50 [0;9])) ] c evs /\
  count (is_notif (LExt A) 1) (concat evs) = 1%nat /\ count (is_notif (LExt B) 1) (concat evs) = 0%nat /\ reqs c = [].
Proof. eexists _, _. split; [reach|]. vm_compute. auto. Qed.
Print Assumptions C11_every_listener_refuted.

(* Finding: asking again after the dependent parameter's value was asked for does not deliver it either, as long as the
   other value stays the same. *)
Theorem C11_second_ask_refuted : exists c evs,
  reached ex_bi ex_maps 2000
        [ Request 10 1 (Some A); Receive 20 (Some (rig_answer [65])); Receive 2500 None;    (* the answer was lost *)
          Request 2600 1 (Some A); Receive 2700 (Some (rig_answer [65])); Receive 2800 (Some (ex_sysex 1 50 [0;9])) ] c evs /\
  count is_changed (concat evs) = 2%nat /\ count (is_notif (LDep 1) 0) (concat evs) = 2%nat /\ val (maps c 1) = None.
Proof. eexists _, _. split; [reach|]. vm_compute. auto. Qed.
Print Assumptions C11_second_ask_refuted.

(* ---- C12 ---- *)

(* A parameter handled by the protocol: the set message (if any) is sent once, the value stored, every listener of the
   registration told once in order. *)
Theorem C12_feedback : forall bi maps0 lt ops c evs now m a c' ev, reached bi maps0 lt ops c evs -> bi m = true ->
  cstep bi c (Set_ now m a) = Ok (c', ev) ->
  exists z, a = One z /\ val (maps c' m) = Some (VNum z) /\
    changes_of m ev = map (fun l => (l, Some (VNum z))) (enlisted c m) /\
    (truthy (set_t (maps c m)) = true -> exists m', set_value (maps c m) (One z) = (m', true) /\
        filter is_set ev = [EvSet m (wire (set_t m'))] /\ set_t (maps c' m) = set_t m') /\
    (truthy (set_t (maps c m)) = false -> filter is_set ev = []).
Proof. exact c12_feedback. Qed.
Print Assumptions C12_feedback.

(* Other parameters: just the set message; without set message nothing at all. *)
Theorem C12_no_feedback : forall bi c now m a c' ev, bi m = false -> cstep bi c (Set_ now m a) = Ok (c', ev) ->
  (truthy (set_t (maps c m)) = true -> exists m', set_value (maps c m) a = (m', true) /\ ev = [EvSet m (wire (set_t m'))] /\ maps c' m = m') /\
  (truthy (set_t (maps c m)) = false -> ev = [] /\ c' = c).
Proof. exact c12_plain. Qed.
Print Assumptions C12_no_feedback.

Example C12_ex : exists c evs c' ev, reached ex_bi ex_maps 2000 [Register 1 3 (Some A); Register 2 3 (Some B)] c evs /\
  cstep ex_bi c (Set_ 3 3 (One 300)) = Ok (c', ev) /\
  ev = [EvSet 3 [ex_sysex 1 51 [2;44]]; EvChanged (LExt A) 3 (Some (VNum 300)); EvChanged (LExt B) 3 (Some (VNum 300))] /\
  (exists c2, cstep ex_bi c (Set_ 3 4 (One 300)) = Ok (c2, [EvSet 4 [ex_sysex 1 52 [2;44]]])) /\
  cstep ex_bi c (Set_ 3 2 (One 1)) = Ok (c, []).
Proof. eexists _, _, _, _. split; [reach|]. vm_compute. split; eauto. Qed.

(* Finding: setting a parameter handled by the protocol that nobody has registered raises (after sending). *)
Theorem C12_unregistered_refuted : exists ops c evs, reached ex_bi ex_maps 2000 ops c evs /\ ex_bi 3 = true /\
  cstep ex_bi c (Set_ 3 3 (One 300)) = Raise.
Proof. exists [], (init_client ex_maps 2000), []. split; [reach|]. vm_compute. auto. Qed.
Print Assumptions C12_unregistered_refuted.

(* ---- C13 ---- *)

Theorem C13_connection_lost : forall bi maps0 lt ops c evs, reached bi maps0 lt ops c evs ->
  exists c' ev, cstep bi c Lost = Ok (c', ev) /\ reqs c' = reqs c /\
    (forall l m, count (is_terminated l m) ev = if bi m && existsb (listener_eqb l) (enlisted c m) then 1%nat else 0%nat) /\
    Forall (fun e => exists l m, e = EvTerminated l m) ev.
Proof. exact c13. Qed.
Print Assumptions C13_connection_lost.

(* Later messages are delivered again: C09_delivery applies, its hypotheses hold in the state after the loss (here 3). *)
Example C13_ex : exists c evs, reached ex_bi ex_maps 2000 [Register 1 3 (Some A); Register 2 2 (Some B); Lost] c evs /\
  nth 2 evs [] = [EvTerminated (LExt A) 3] /\
  exists c', cstep ex_bi c (Receive 3 (Some (ex_sysex 1 51 [0;1]))) = Ok (c', [EvChanged (LExt A) 3 (Some (VNum 1))]).
Proof. eexists _, _. split; [reach|]. vm_compute. split; eauto. Qed.
