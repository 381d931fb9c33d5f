(* C05-C08: the life of the requests for one parameter, as an automaton over the events.

   A parameter is either idle, or there is one request object, opened at some time, with a list of listeners still to be
   told, in the order they asked. The phases of a request: Unsent, then Open once the request message has been sent, then
   either Answering (listeners are being told the value) or Expiring (listeners are being told about the termination).
   Anything the automaton does not allow is an error:
   - a request is opened only while idle, and its message is sent once;
   - a listener joins only before the telling starts, and only if it is not waiting already;
   - the listener told next is the one waiting longest; all are told the same kind of thing;
   - a request is finished only when nobody is waiting any more, and it times out only after its full lifetime. *)
From Verif.Lib Require Import Base.
From Verif.Model Require Import Midi Period Mapping Client.
Open Scope Z_scope.

Inductive phase := Unsent | Open | Answering | Expiring.
Inductive ast := Idle | Waiting (opened : Z) (ph : phase) (ls : list listener).

(* the listener waiting longest is told *)
Definition told (ok : phase -> bool) (next : phase) (l : listener) (a : ast) : option ast :=
  match a with
  | Waiting t ph (l' :: ls) => if ok ph && listener_eqb l l' then Some (Waiting t next ls) else None
  | _ => None
  end.
Definition open_or_answering (ph : phase) : bool := match ph with Open | Answering => true | _ => false end.
Definition open_or_expiring (ph : phase) : bool := match ph with Open | Expiring => true | _ => false end.

Definition astep (lifetime : Z) (m : mid) (a : ast) (e : event) : option ast :=
  match e with
  | EvOpened m' t => if (m' =? m)%nat then match a with Idle => Some (Waiting t Unsent []) | _ => None end else Some a
  | EvJoined l m' =>
      if (m' =? m)%nat then
        match a with
        | Waiting t Unsent ls => if existsb (listener_eqb l) ls then None else Some (Waiting t Unsent (ls ++ [l]))
        | Waiting t Open ls => if existsb (listener_eqb l) ls then None else Some (Waiting t Open (ls ++ [l]))
        | _ => None
        end
      else Some a
  | EvReqSent m' _ => if (m' =? m)%nat then match a with Waiting t Unsent ls => Some (Waiting t Open ls) | _ => None end else Some a
  | EvChanged l m' _ => if (m' =? m)%nat then told open_or_answering Answering l a else Some a
  | EvTerminated l m' => if (m' =? m)%nat then told open_or_expiring Expiring l a else Some a
  | EvAnswered m' _ =>
      if (m' =? m)%nat then match a with Waiting _ ph [] => if open_or_answering ph then Some Idle else None | _ => None end else Some a
  | EvExpired m' t' =>
      if (m' =? m)%nat then
        match a with Waiting t ph [] => if open_or_expiring ph && (t + lifetime <? t') then Some Idle else None | _ => None end
      else Some a
  | EvSet _ _ | EvUnused _ => Some a
  end.

Fixpoint arun (lifetime : Z) (m : mid) (a : ast) (evs : list event) : option ast :=
  match evs with
  | [] => Some a
  | e :: evs' => match astep lifetime m a e with Some a' => arun lifetime m a' evs' | None => None end
  end.

(* What the client's own list of requests says about a parameter. *)
Definition outstanding (c : client) (m : mid) : ast :=
  match find (fun r => (r_map r =? m)%nat) (reqs c) with
  | Some r => match r_listeners r, r_life r with
              | Some ls, Some p => Waiting (last_reset p) Open ls
              | _, _ => Idle
              end
  | None => Idle
  end.

(* Notifications of a listener about a parameter *)
Definition is_notif (l : listener) (m : mid) (e : event) : bool :=
  match e with
  | EvChanged l' m' _ => listener_eqb l l' && (m =? m')%nat
  | EvTerminated l' m' => listener_eqb l l' && (m =? m')%nat
  | _ => false
  end.
Definition is_join (l : listener) (m : mid) (e : event) : bool :=
  match e with EvJoined l' m' => listener_eqb l l' && (m =? m')%nat | _ => false end.
Definition is_sent (m : mid) (e : event) : bool := match e with EvReqSent m' _ => (m =? m')%nat | _ => false end.
Definition is_opened (m : mid) (e : event) : bool := match e with EvOpened m' _ => (m =? m')%nat | _ => false end.
Definition is_answered (m : mid) (e : event) : bool := match e with EvAnswered m' _ => (m =? m')%nat | _ => false end.
Definition is_expired (m : mid) (e : event) : bool := match e with EvExpired m' _ => (m =? m')%nat | _ => false end.
Definition count (p : event -> bool) (evs : list event) : nat := length (filter p evs).

(* Parameters that are requested: not handled by a bidirectional protocol, with a request message. *)
Definition requested (bi : mid -> bool) (maps0 : mid -> mapping) (lifetime : Z) (m : mid) : Prop :=
  bi m = false /\ truthy (request_t (maps0 m)) = true /\ 0 < lifetime.

(* No parameter depends on itself. *)
Definition no_self_dependency (maps0 : mid -> mapping) : Prop := forall m, depends (maps0 m) <> Some m.

(* C11: what may happen to a parameter [d] that depends on [p]. The listener object that watches [p] on behalf of [d] is
   [LDep d]. The automaton remembers the value of [p] that was seen last and whether a request for [d] is outstanding:
   - [LDep d] is only ever told about [p];
   - when it is told a value different from the one seen last, and no request for [d] is outstanding, the very next thing
     to happen is that a request for [d] is opened and its message sent;
   - a request for [d] is sent in no other situation. *)
Inductive dphase := DRest | DMust | DOpened.
Record dst := mkD { d_last : option value; d_out : bool; d_ph : dphase }.
Definition d_only_at_rest (s : dst) : option dst := match d_ph s with DRest => Some s | _ => None end.
Definition dstep (p d : mid) (s : dst) (e : event) : option dst :=
  match e with
  | EvChanged (LDep d') k v =>
      if (d' =? d)%nat then
        match d_ph s with
        | DRest => if (k =? p)%nat then Some (mkD v (d_out s) (if value_eqb v (d_last s) || d_out s then DRest else DMust)) else None
        | _ => None
        end
      else d_only_at_rest s
  | EvOpened d' _ =>
      if (d' =? d)%nat then match d_ph s with DMust => Some (mkD (d_last s) true DOpened) | _ => None end else d_only_at_rest s
  | EvJoined _ d' => if (d' =? d)%nat then match d_ph s with DMust => None | _ => Some s end else d_only_at_rest s
  | EvReqSent d' _ =>
      if (d' =? d)%nat then match d_ph s with DOpened => Some (mkD (d_last s) true DRest) | _ => None end else d_only_at_rest s
  | EvAnswered d' _ | EvExpired d' _ =>
      if (d' =? d)%nat then match d_ph s with DRest => Some (mkD (d_last s) false DRest) | _ => None end else d_only_at_rest s
  | _ => d_only_at_rest s
  end.
Fixpoint drun (p d : mid) (s : dst) (evs : list event) : option dst :=
  match evs with
  | [] => Some s
  | e :: evs' => match dstep p d s e with Some s' => drun p d s' evs' | None => None end
  end.

(* Every request call names a listener (all callers in the code base do). *)
Definition names_listener (o : op) : Prop := match o with Request _ _ None => False | _ => True end.

(* C08: the clock reading of an operation, and events carrying another time than [now] *)
Definition op_time (o : op) : option Z :=
  match o with Register t _ _ | Request t _ _ | Receive t _ | Set_ t _ _ => Some t | Lost | Assign _ _ => None end.
Definition ev_time (e : event) : option Z :=
  match e with EvOpened _ t | EvAnswered _ t | EvExpired _ t => Some t | _ => None end.

(* C10: a message concerns a parameter if the parameter's mapping listens at all, and parsing the message does anything
   other than reporting it as not used. *)
Definition concerns (x : msg) (m : mapping) : Prop := truthy (response_t m) = true /\ parse m x <> Ok (m, false).

(* C09, C12: the notifications of a parameter among the events, in order *)
Definition changes_of (m : mid) (evs : list event) : list (listener * option value) :=
  flat_map (fun e => match e with EvChanged l m' v => if (m' =? m)%nat then [(l, v)] else [] | _ => [] end) evs.

(* A history from the start, without an exception. *)
Definition reached (bi : mid -> bool) (maps0 : mid -> mapping) (lifetime : Z) (ops : list op) (c : client) (evs : list (list event)) : Prop :=
  no_self_dependency maps0 /\ crun bi (init_client maps0 lifetime) ops = Ok (c, evs).

(* The listeners waiting or registered for a parameter *)
Definition enlisted (c : client) (m : mid) : list listener :=
  match find (fun r => (r_map r =? m)%nat) (reqs c) with
  | Some (mkReq _ (Some ls) _) => ls
  | _ => []
  end.
Definition has_request (c : client) (m : mid) : Prop := exists r, In r (reqs c) /\ r_map r = m.
(* C09: registered without a lifetime *)
Definition permanent (c : client) (m : mid) : Prop := exists r, In r (reqs c) /\ r_map r = m /\ r_life r = None.

Definition is_set (e : event) : bool := match e with EvSet _ _ => true | _ => false end.
Definition is_changed (e : event) : bool := match e with EvChanged _ _ _ => true | _ => false end.
Definition is_terminated (l : listener) (m : mid) (e : event) : bool :=
  match e with EvTerminated l' m' => listener_eqb l l' && (m =? m')%nat | _ => false end.

(* C11: the value the listener watching on behalf of [d] was told last *)
Definition last_told (d : mid) (evs : list event) : option value :=
  fold_left (fun acc e => match e with EvChanged (LDep d') _ v => if (d' =? d)%nat then v else acc | _ => acc end) evs None.
