(* C81 - C86: texts, pieces of texts, and the network between two MIDI bridges. *)
From Verif.Lib Require Import Base.
From Verif.Model Require Import Midi Bridge.

(* MIDI data bytes; bytes *)
Definition seven (d : list Z) : Prop := Forall (fun x => 0 <= x < 128) d.
Definition eight (d : list Z) : Prop := Forall (fun x => 0 <= x < 256) d.

(* Code units; a text is well-formed if surrogates come in pairs, high before low *)
Definition units (s : list Z) : Prop := Forall (fun u => 0 <= u < 65536) s.
Inductive well_formed : list Z -> Prop :=
  | wf_nil : well_formed []
  | wf_plain u s : (u < 55296 \/ 57343 < u) -> well_formed s -> well_formed (u :: s)
  | wf_pair h l s : 55296 <= h <= 56319 -> 56320 <= l <= 57343 -> well_formed s -> well_formed (h :: l :: s).
(* It does not begin with a byte order mark *)
Definition no_mark (s : list Z) : Prop := hd_error s <> Some 65279.
Definition clean (s : list Z) : Prop := units s /\ well_formed s /\ no_mark s.
(* A text in which every part is clean: no surrogates, no byte order mark. All ASCII texts are plain *)
Definition plain (s : list Z) : Prop := Forall (fun u => 0 <= u < 65536 /\ ~ (55296 <= u <= 57343) /\ u <> 65279) s.
(* The k-th part when a text is cut into parts of [size] code units *)
Definition piece (size : Z) (msg : list Z) (k : nat) : list Z := firstn (Z.to_nat size) (skipn (k * Z.to_nat size) msg).

(* ---- damage on the way: C82 ---- *)

(* One byte of the payload (behind command and checksum, four bytes), or two neighbours in it, are replaced by other MIDI data bytes *)
Inductive damaged : list Z -> list Z -> Prop :=
  | dmg_one h t x x' : (4 <= length h)%nat -> seven [x; x'] -> x <> x' -> damaged (h ++ [x] ++ t) (h ++ [x'] ++ t)
  | dmg_two h t x y x' y' : (4 <= length h)%nat -> seven [x; y; x'; y'] -> x <> x' \/ y <> y' -> damaged (h ++ [x; y] ++ t) (h ++ [x'; y'] ++ t)
  (* or only the checksum is replaced *)
  | dmg_sum c t u u' v v' w w' : [u; v; w] <> [u'; v'; w'] -> damaged (c :: u :: v :: w :: t) (c :: u' :: v' :: w' :: t).

(* ---- two bridges and the cables between them ---- *)

Inductive side := Here | There.
Definition other (s : side) : side := match s with Here => There | There => Here end.
Definition side_eqb (s t : side) : bool := match s, t with Here, Here | There, There => true | _, _ => false end.
Definition set {A} (s : side) (v : A) (f : side -> A) : side -> A := fun t => if side_eqb s t then v else f t.

(* The bridges, and all that they have done so far *)
Record net := mkNet { n_br : side -> bridge; n_log : list (side * bev) }.
Definition net0 (seed : side -> Z) : net := mkNet (fun s => bridge_new (seed s)) [].

(* The messages a side has sent so far *)
Definition wire (s : side) (log : list (side * bev)) : list (list Z) :=
  flat_map (fun e => match e with (t, Sysex m) => if side_eqb s t then [m] else [] | _ => [] end) log.

(* What can happen: a text or a file is sent, a file is requested, any message sent by the other side so far arrives (now, later, twice or never:
   messages can be lost, delayed, doubled and overtaken), or something else arrives *)
Inductive nop :=
  | NSend (s : side) (now : Z) (path msg : list Z) (size : Z)
  | NFile (s : side) (now : Z) (path : list Z) (size : Z)
  | NRequest (s : side) (path : list Z) (size : Z)
  | NDeliver (s : side) (now : Z) (k : nat)
  | NNoise (s : side) (now : Z) (man data : list Z).

Definition act (n : net) (s : side) (r : bridge * list bev * option berr) : net :=
  let '(b, ev, _) := r in mkNet (set s b (n_br n)) (n_log n ++ map (pair s) ev).
(* files: the contents the callback getFile returns, by side, time and path; throws: throwExceptionsOnReceive by side and time *)
Definition nstep (files : side -> Z -> list Z -> option (list Z)) (throws : side -> Z -> bool) (n : net) (o : nop) : net :=
  match o with
  | NSend s now path msg size => act n s (send_string now path msg size 0 (n_br n s))
  | NFile s now path size => act n s (send_file (files s now) now path size (n_br n s))
  | NRequest s path size => act n s (let '(ev, e) := request path size in (n_br n s, ev, e))
  | NDeliver s now k =>
      match nth_error (wire (other s) (n_log n)) k with
      | Some m => act n s (receive (files s now) (throws s now) now MANUFACTURER m (n_br n s))
      | None => n
      end
  | NNoise s now man data => act n s (receive (files s now) (throws s now) now man data (n_br n s))
  end.

Definition nrun files throws seed (ops : list nop) : net := fold_left (nstep files throws) ops (net0 seed).

(* What is not from the other side is either for another manufacturer or damaged so that the checksum shows it *)
Definition noise (o : nop) : Prop :=
  match o with NNoise _ _ man data => man <> MANUFACTURER \/ checksum (skipn 4 data) <> firstn 3 (skipn 1 data) | _ => True end.
(* Number of transmissions started by a side: each reports the progress of its chunk 0 once *)
Definition started (s : side) (log : list (side * bev)) : nat :=
  length (filter (fun e => match e with (t, SendProgress _ k _ _) => side_eqb s t && (k =? 0) | _ => false end) log).
(* Texts and files are shorter than 2^24 code units (the chunk numbers have 24 bits) *)
Definition short_op (o : nop) : Prop := match o with NSend _ _ _ msg _ => Z.of_nat (length msg) < 16777216 | _ => True end.
Definition short_files (files : side -> Z -> list Z -> option (list Z)) : Prop :=
  forall s now path msg, files s now path = Some msg -> Z.of_nat (length msg) < 16777216.
(* A side offers a text under a path *)
Definition offered (files : side -> Z -> list Z -> option (list Z)) (ops : list nop) (s : side) (path msg : list Z) (size : Z) : Prop :=
  (exists now, In (NSend s now path msg size) ops) \/ (exists now, files s now path = Some msg).

(* All that arrives consists of MIDI data bytes *)
Definition data_bytes (o : nop) : Prop := match o with NNoise _ _ _ data => seven data | _ => True end.

(* ---- two bridges with reliable cables: every message arrives once, in the order of sending (C84) ---- *)

(* f_taken: the number of messages which have arrived at a side *)
Record fnet := mkF { f_net : net; f_taken : side -> nat }.
Inductive fop :=
  | FSend (s : side) (now : Z) (path msg : list Z) (size : Z)
  | FFile (s : side) (now : Z) (path : list Z) (size : Z)
  | FRequest (s : side) (path : list Z) (size : Z)
  | FNext (s : side) (now : Z).                                    (* the next message arrives at s, if there is one *)
Definition fstep (files : side -> Z -> list Z -> option (list Z)) (throws : side -> Z -> bool) (f : fnet) (o : fop) : fnet :=
  match o with
  | FSend s now path msg size => mkF (nstep files throws (f_net f) (NSend s now path msg size)) (f_taken f)
  | FFile s now path size => mkF (nstep files throws (f_net f) (NFile s now path size)) (f_taken f)
  | FRequest s path size => mkF (nstep files throws (f_net f) (NRequest s path size)) (f_taken f)
  | FNext s now =>
      if (f_taken f s <? length (wire (other s) (n_log (f_net f))))%nat
      then mkF (nstep files throws (f_net f) (NDeliver s now (f_taken f s))) (set s (S (f_taken f s)) (f_taken f))
      else f
  end.
Definition fstart (seed : side -> Z) : fnet := mkF (net0 seed) (fun _ => O).
Definition frun files throws seed (ops : list fop) : fnet := fold_left (fstep files throws) ops (fstart seed).
(* All messages have arrived *)
Definition arrived (f : fnet) : Prop := forall s, f_taken f s = length (wire (other s) (n_log (f_net f))).

(* Nothing waits for more than five seconds: at no step a side which acts holds an outdated transmission *)
Definition awake (now : Z) (b : bridge) : Prop := Forall (fun t => stale now (t_time t) = false) (b_tx b) /\ Forall (fun r => stale now (r_time r) = false) (b_rx b).
Definition awake_op (f : fnet) (o : fop) : Prop :=
  match o with FSend s now _ _ _ | FFile s now _ _ | FNext s now => awake now (n_br (f_net f) s) | FRequest _ _ _ => True end.
Fixpoint punctual files throws (f : fnet) (ops : list fop) : Prop :=
  match ops with [] => True | o :: r => awake_op f o /\ punctual files throws (fstep files throws f o) r end.
Definition short_fop (o : fop) : Prop := match o with FSend _ _ _ msg _ => Z.of_nat (length msg) < 16777216 | _ => True end.

(* The messages needed: a start, and for each part the data and its acknowledgement; and the requests *)
Definition cost (e : side * bev) : Z :=
  match snd e with
  | SendProgress _ k amount _ => if k =? 0 then 2 * amount + 1 else 0
  | Sysex m => if bytes_eqb (firstn 1 m) [1] then 1 else 0
  | _ => 0
  end.
Definition budget (log : list (side * bev)) : Z := fold_right Z.add 0 (map cost log).
(* How often a side has reported transmission i as received, or as acknowledged *)
Definition finishes (s : side) (i : list Z) (log : list (side * bev)) : nat :=
  length (filter (fun e => match e with (t, RecvFinish j _ _ _) => side_eqb s t && bytes_eqb i j | _ => false end) log).
Definition acknowledgements (s : side) (i : list Z) (log : list (side * bev)) : nat :=
  length (filter (fun e => match e with (t, AckAll j) => side_eqb s t && bytes_eqb i j | _ => false end) log).

(* The conditions: ids are not used up, texts and files are not too long, files are not empty, and no side acts while it holds a transmission which is older than 5 seconds *)
Definition reliable (files : side -> Z -> list Z -> option (list Z)) (throws : side -> Z -> bool) (seed : side -> Z) (ops : list fop) : Prop :=
  (forall s, 0 <= seed s < 16777216) /\ short_files files /\ (forall s now path, files s now path <> Some []) /\ Forall short_fop ops /\
  punctual files throws (fstart seed) ops /\ (forall t, Z.of_nat (started t (n_log (f_net (frun files throws seed ops)))) <= 16777216).

(* ---- transmissions which are not completed (C86) ---- *)

(* The time of what happens at a side *)
Definition at_time (s : side) (o : nop) : option Z :=
  match o with NSend t now _ _ _ | NFile t now _ _ | NDeliver t now _ | NNoise t now _ _ => if side_eqb s t then Some now else None | NRequest _ _ _ => None end.
(* The events of the step o after ops *)
Definition last_events files throws seed (ops : list nop) (o : nop) : list (side * bev) := skipn (length (n_log (nrun files throws seed ops))) (n_log (nrun files throws seed (ops ++ [o]))).
(* At time x the side sent a message with this command (3: a part, 4: an acknowledgement) for transmission i *)
Definition active files throws seed (ops : list nop) (s : side) (command : Z) (i : list Z) (x : Z) : Prop :=
  exists a o b m rest, ops = a ++ o :: b /\ at_time s o = Some x /\ In (s, Sysex m) (last_events files throws seed a o) /\ firstn 1 m = [command] /\ skipn 4 m = i ++ rest.
(* A side starts a transmission (command 2), or another one starts there *)
Definition begins (s : side) (evs : list (side * bev)) : Prop := (exists m, In (s, Sysex m) evs /\ firstn 1 m = [2]) \/ (exists i p a, In (s, RecvStart i p a) evs).
(* A transmission has been active in the last 5 seconds, or (received) no part of it has arrived yet *)
Definition within (now : Z) (last : option Z) : Prop := match last with Some x => now - x <= 5000 | None => True end.
