(* controller/client.py:236-585  Client, ClientRequest, BidirectionalClient *)
From Verif.Lib Require Import Base.
From Verif.Model Require Import Midi Period Mapping.
Open Scope Z_scope.

(* Mappings are identified by a number (object identity). *)
Definition mid := nat.

(* A listener object. [LExt] is one supplied by the application, with [x_clears] telling whether it resets the mapping's
   value when told about a termination, as Callback does (callbacks/__init__.py:51-60); such listeners are assumed not to
   call the client back from within the notification. [LDep d] is the _DependencyListener of mapping d
   (client.py:239-253). *)
Record ext := mkExt { x_id : nat; x_clears : bool }.
Inductive listener := LExt (x : ext) | LDep (d : mid).

Definition listener_eqb (a b : listener) : bool :=
  match a, b with
  | LExt x, LExt y => (x_id x =? x_id y)%nat && Bool.eqb (x_clears x) (x_clears y)
  | LDep i, LDep j => (i =? j)%nat
  | _, _ => false
  end.

(* client.py:430-448 ClientRequest. [r_listeners = None] is the finished state (466). *)
Record request := mkReq { r_map : mid; r_listeners : option (list listener); r_life : option period }.

(* client.py:257-278. [deps] is the dictionary of dependency listeners: mapping, last value, listener. *)
Record client := mkClient {
  maps : mid -> mapping;
  reqs : list request;
  deps : list (mid * (option value * option ext));
  life : Z;
  clean : period
}.

(* client.py:278: int(lifetime / 2) *)
Definition init_client (maps0 : mid -> mapping) (lifetime : Z) : client :=
  mkClient maps0 [] [] lifetime (new_period (Z.quot lifetime 2)).

(* What happens, in order. The first four are the observable effects; the others mark the life of a request (with the
   time of the operation): object created, listener enlisted, finished by an answer, finished by a timeout; and a
   message that was not used, which a bidirectional client gives to the protocol. *)
Inductive event :=
| EvReqSent (m : mid) (w : list msg)       (* request message(s) handed to midi.send *)
| EvSet (m : mid) (w : list msg)           (* set message(s) handed to midi.send *)
| EvChanged (l : listener) (m : mid) (v : option value)   (* listener.parameter_changed(mapping) *)
| EvTerminated (l : listener) (m : mid)                   (* listener.request_terminated(mapping) *)
| EvOpened (m : mid) (t : Z)
| EvJoined (l : listener) (m : mid)
| EvAnswered (m : mid) (t : Z)
| EvExpired (m : mid) (t : Z)
| EvUnused (x : msg).

Definition upd (f : mid -> mapping) (m : mid) (x : mapping) : mid -> mapping :=
  fun k => if (k =? m)%nat then x else f k.
Definition with_maps (c : client) f := mkClient f (reqs c) (deps c) (life c) (clean c).
Definition with_reqs (c : client) r := mkClient (maps c) r (deps c) (life c) (clean c).
Definition with_deps (c : client) d := mkClient (maps c) (reqs c) d (life c) (clean c).
Definition with_clean (c : client) p := mkClient (maps c) (reqs c) (deps c) (life c) p.

Definition finished (r : request) : bool := match r_listeners r with None => true | Some _ => false end.

(* client.py:397-402 get_matching_request *)
Fixpoint find_req (m : mid) (l : list request) : option request :=
  match l with
  | [] => None
  | r :: l' => if (r_map r =? m)%nat then Some r else find_req m l'
  end.
(* change the first request for a mapping in place *)
Fixpoint upd_req (m : mid) (f : request -> request) (l : list request) : list request :=
  match l with
  | [] => []
  | r :: l' => if (r_map r =? m)%nat then f r :: l' else r :: upd_req m f l'
  end.

(* client.py:352-357, 438-448 *)
Definition create_request (c : client) (now : Z) (m : mid) : request :=
  let lt := if truthy (request_t (maps c m)) then life c else 0 in
  mkReq m (Some []) (if 0 <? lt then Some (p_reset (new_period lt) now) else None).

(* client.py:329-349 _register_mapping, 451-461 send; misc.py:96-101 add_listener ("in None" raises TypeError) *)
Definition register_mapping (c : client) (now : Z) (m : mid) (l : option listener) (send : bool) : res (client * list event) :=
  match find_req m (reqs c) with
  | None =>
      let r := create_request c now m in
      let r := match l with None => r | Some l => mkReq m (Some [l]) (r_life r) end in
      Ok (with_reqs c (reqs c ++ [r]),
          EvOpened m now :: (match l with None => [] | Some l => [EvJoined l m] end) ++
          (if send && truthy (request_t (maps c m)) then [EvReqSent m (wire (request_t (maps c m)))] else []))
  | Some r =>
      match l with
      | None => Ok (c, [])
      | Some l =>
          match r_listeners r with
          | None => Raise
          | Some ls =>
              if existsb (listener_eqb l) ls then Ok (c, [])                  (* misc.py:97-98 *)
              else Ok (with_reqs c (upd_req m (fun r => mkReq m (Some (ls ++ [l])) (r_life r)) (reqs c)), [EvJoined l m])
          end
      end
  end.

Fixpoint find_dep (d : mid) (l : list (mid * (option value * option ext))) : option (option value * option ext) :=
  match l with
  | [] => None
  | (k, x) :: l' => if (k =? d)%nat then Some x else find_dep d l'
  end.
Fixpoint set_dep_last (d : mid) (v : option value) (l : list (mid * (option value * option ext))) :=
  match l with
  | [] => []
  | (k, (old, li)) :: l' => if (k =? d)%nat then (k, (v, li)) :: l' else (k, (old, li)) :: set_dep_last d v l'
  end.

Fixpoint codes_eqb (a b : list Z) : bool :=
  match a, b with [], [] => true | x :: a', y :: b' => (x =? y) && codes_eqb a' b' | _, _ => false end.
Definition value_eqb (a b : option value) : bool :=
  match a, b with
  | None, None => true
  | Some (VNum x), Some (VNum y) => x =? y
  | Some (VStr x), Some (VStr y) => codes_eqb x y
  | _, _ => false
  end.

(* listener.parameter_changed(mapping): for a dependency listener client.py:246-250 *)
Definition notify (c : client) (now : Z) (m : mid) (l : listener) : res (client * list event) :=
  let v := val (maps c m) in
  let e := EvChanged l m v in
  match l with
  | LExt _ => Ok (c, [e])
  | LDep d =>
      match find_dep d (deps c) with
      | None => Ok (c, [e])              (* never: a dependency listener is in the dictionary *)
      | Some (last, inner) =>
          if value_eqb v last then Ok (c, [e])
          else match register_mapping (with_deps c (set_dep_last d v (deps c))) now d (option_map LExt inner) true with
               | Raise => Raise
               | Ok (c', ev) => Ok (c', e :: ev)
               end
      end
  end.

(* client.py:502-503, 511-513. The list iterated over is that of the request itself; it would change during the loop
   only if a mapping depended on itself. *)
Fixpoint notify_all (c : client) (now : Z) (m : mid) (ls : list listener) : res (client * list event) :=
  match ls with
  | [] => Ok (c, [])
  | l :: ls' =>
      match notify c now m l with
      | Raise => Raise
      | Ok (c1, e1) =>
          match notify_all c1 now m ls' with
          | Raise => Raise
          | Ok (c2, e2) => Ok (c2, e1 ++ e2)
          end
      end
  end.

(* listener.request_terminated(mapping): client.py:252-253 for dependency listeners, callbacks/__init__.py:51-60 *)
Definition terminated (f : mid -> mapping) (m : mid) (l : listener) : mid -> mapping :=
  match l with LExt (mkExt _ true) => upd f m (with_val (f m) None) | _ => f end.
Definition notify_terminated (f : mid -> mapping) (m : mid) (ls : list listener) : (mid -> mapping) * list event :=
  (fold_left (fun f l => terminated f m l) ls f, map (fun l => EvTerminated l m) ls).

(* client.py:482-509 ClientRequest.parse for the request at position [i]; the result tells whether the message was used *)
Definition parse_request (c : client) (now : Z) (i : nat) (x : msg) : res (client * list event * bool) :=
  match nth_error (reqs c) i with
  | None => Ok (c, [], false)
  | Some r =>
      let m := r_map r in
      if negb (truthy (response_t (maps c m))) then Ok (c, [], false)      (* 485-486 *)
      else match r_listeners r with
      | None => Ok (c, [], false)                                          (* 488-489 *)
      | Some ls =>
          match parse (maps c m) x with                                    (* 491 *)
          | Raise => Raise
          | Ok (_, false) => Ok (c, [], false)
          | Ok (m', true) =>
              let c1 := with_maps c (upd (maps c) m m') in
              if negb (result_finished m') then Ok (c1, [], false)         (* 494-495 *)
              else match notify_all c1 now m ls with
              | Raise => Raise
              | Ok (c2, ev) =>
                  match r_life r with
                  | None => Ok (c2, ev, true)
                  | Some _ => Ok (with_reqs c2 (upd_req m (fun r => mkReq m None (r_life r)) (reqs c2)),
                                  ev ++ [EvAnswered m now], true)
                  end
              end
          end
      end
  end.

(* client.py:374-382: the loop over the live list of requests (requests appended meanwhile are visited too).
   [None] is out of fuel. The last two components are [parsed] and [do_cleanup]. *)
Fixpoint receive_loop (fuel : nat) (c : client) (now : Z) (i : nat) (x : msg) : option (res (client * list event * bool * bool)) :=
  match fuel with
  | O => None
  | S fuel' =>
      if (length (reqs c) <=? i)%nat then Some (Ok (c, [], false, false))
      else match parse_request c now i x with
      | Raise => Some Raise
      | Ok (c1, e1, p1) =>
          let fin := match nth_error (reqs c1) i with Some r => finished r | None => false end in
          match receive_loop fuel' c1 now (S i) x with
          | Some (Ok (c2, e2, p2, f2)) => Some (Ok (c2, e1 ++ e2, p1 || p2, fin || f2))
          | other => other
          end
      end
  end.

(* client.py:405-406 *)
Definition cleanup_requests (l : list request) : list request := filter (fun r => negb (finished r)) l.

(* client.py:409-415 (first loop), 470-478 terminate *)
Fixpoint expire (f : mid -> mapping) (now : Z) (l : list request) : (mid -> mapping) * list request * list event :=
  match l with
  | [] => (f, [], [])
  | r :: l' =>
      let '(f1, r1, e1) :=
        match r_life r with
        | None => (f, r, [])
        | Some p =>
            let '(ex, p') := p_exceeded p now in
            if ex then
              match r_listeners r with
              | None => (f, mkReq (r_map r) None (Some p'), [])
              | Some ls => let '(f', ev) := notify_terminated f (r_map r) ls in
                           (f', mkReq (r_map r) None (Some p'), ev ++ [EvExpired (r_map r) now])
              end
            else (f, mkReq (r_map r) (r_listeners r) (Some p'), [])
        end in
      let '(f2, rs, e2) := expire f1 now l' in (f2, r1 :: rs, e1 ++ e2)
  end.

(* client.py:362-363, 409-415 *)
Definition timeouts (c : client) (now : Z) : client * list event :=
  let '(ex, p) := p_exceeded (clean c) now in
  let c1 := with_clean c p in
  if ex then
    let '(f, rs, ev) := expire (maps c1) now (reqs c1) in
    (with_reqs (with_maps c1 f) (cleanup_requests rs), ev)
  else (c1, []).

(* client.py:361-392 receive, 542-561 *)
Definition receive (c : client) (now : Z) (x : option msg) : option (res (client * list event)) :=
  let '(c1, e1) := timeouts c now in
  match x with
  | None => Some (Ok (c1, e1))
  | Some x =>
      match receive_loop (S (length (reqs c1) + length (deps c1))) c1 now 0 x with
      | None => None
      | Some Raise => Some Raise
      | Some (Ok (c2, e2, parsed, fin)) =>
          let c3 := if fin then with_reqs c2 (cleanup_requests (reqs c2)) else c2 in
          Some (Ok (c3, e1 ++ e2 ++ (if parsed then [] else [EvUnused x])))
      end
  end.

(* client.py:314-325 request *)
Definition request_param (c : client) (now : Z) (m : mid) (l : option ext) : res (client * list event) :=
  if negb (truthy (request_t (maps c m))) || negb (truthy (response_t (maps c m))) then Ok (c, [])
  else match depends (maps c m) with
  | Some p =>
      let c1 := match find_dep m (deps c) with
                | Some _ => c
                | None => with_deps c (deps c ++ [(m, (None, l))])
                end in
      register_mapping c1 now p (Some (LDep m)) true
  | None => register_mapping c now m (option_map LExt l) true
  end.

(* client.py:286-288 register, 533-538; [bi] tells which mappings the bidirectional protocol handles (none for the
   plain client) *)
Definition register (bi : mid -> bool) (c : client) (now : Z) (m : mid) (l : option ext) : res (client * list event) :=
  let c1 := if bi m then with_maps c (upd (maps c) m (without_request (maps c m))) else c in
  if negb (truthy (request_t (maps c1 m))) && truthy (response_t (maps c1 m))
  then register_mapping c1 now m (option_map LExt l) false else Ok (c1, []).

(* client.py:291-310 set, 564-575. A list of values fed back becomes a list valued parameter, which is not
   represented: no protocol handled mapping has more than one set message (clients/kemper/__init__.py:520-580). *)
Definition set_param (bi : mid -> bool) (c : client) (now : Z) (m : mid) (a : setarg) : res (client * list event) :=
  let step1 :=
    if negb (truthy (set_t (maps c m))) then Ok (c, [])
    else let '(m', ok) := set_value (maps c m) a in
         if ok then Ok (with_maps c (upd (maps c) m m'), [EvSet m (wire (set_t m'))]) else Raise in
  match step1 with
  | Raise => Raise
  | Ok (c1, e1) =>
      if bi m then
        match find_req m (reqs c1), a with
        | Some r, One z =>
            let c2 := with_maps c1 (upd (maps c1) m (with_val (maps c1 m) (Some (VNum z)))) in
            match r_listeners r with
            | None => Raise
            | Some ls => match notify_all c2 now m ls with
                         | Raise => Raise
                         | Ok (c3, e3) => Ok (c3, e1 ++ e3)
                         end
            end
        | _, _ => Raise
        end
      else Ok (c1, e1)
  end.

(* client.py:582-585 notify_connection_lost; iterating over None raises TypeError *)
Fixpoint connection_lost (bi : mid -> bool) (f : mid -> mapping) (l : list request) : res ((mid -> mapping) * list event) :=
  match l with
  | [] => Ok (f, [])
  | r :: l' =>
      if bi (r_map r) then
        match r_listeners r with
        | None => Raise
        | Some ls =>
            let '(f1, e1) := notify_terminated f (r_map r) ls in
            match connection_lost bi f1 l' with
            | Raise => Raise
            | Ok (f2, e2) => Ok (f2, e1 ++ e2)
            end
        end
      else connection_lost bi f l'
  end.

(* The operations, with the clock reading where one is taken. [Assign] is an assignment to mapping.value from outside. *)
Inductive op :=
| Register (now : Z) (m : mid) (l : option ext)
| Request (now : Z) (m : mid) (l : option ext)
| Receive (now : Z) (x : option msg)
| Set_ (now : Z) (m : mid) (a : setarg)
| Lost
| Assign (m : mid) (v : option value).

Definition out_of_fuel {A} : res A := Raise.   (* excluded by theorem receive_total *)

Definition cstep (bi : mid -> bool) (c : client) (o : op) : res (client * list event) :=
  match o with
  | Register now m l => register bi c now m l
  | Request now m l => request_param c now m l
  | Receive now x => match receive c now x with Some r => r | None => out_of_fuel end
  | Set_ now m a => set_param bi c now m a
  | Lost => match connection_lost bi (maps c) (reqs c) with Raise => Raise | Ok (f, e) => Ok (with_maps c f, e) end
  | Assign m v => Ok (with_maps c (upd (maps c) m (with_val (maps c m) v)), [])
  end.

(* A history: the list of events per operation, or Raise if one of them raised (the program ends there). *)
Fixpoint crun (bi : mid -> bool) (c : client) (ops : list op) : res (client * list (list event)) :=
  match ops with
  | [] => Ok (c, [])
  | o :: ops' =>
      match cstep bi c o with
      | Raise => Raise
      | Ok (c1, e1) => match crun bi c1 ops' with
                       | Raise => Raise
                       | Ok (c2, es) => Ok (c2, e1 :: es)
                       end
      end
  end.
