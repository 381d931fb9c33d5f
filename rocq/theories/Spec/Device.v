(* C85: the web editor (side Here) loads files from a controller and saves files on it (side There), over a reliable connection. *)
From Verif.Lib Require Import Base.
From Verif.Model Require Import Midi Bridge Device.
From Verif.Spec Require Import Bridge.

(* The editor and the network *)
Record dnet := mkD { d_dev : device; d_net : fnet }.
(* A call is made in the editor, or the next message arrives at a side *)
Inductive dop := DCall (now : Z) (c : call) | DNext (s : side) (now : Z).
(* The bridge's part of a call *)
Definition fop_of (o : dop) : fop :=
  match o with
  | DCall _ CConnect => FRequest Here PING CHUNK_REQUEST
  | DCall _ (CLoad path) => FRequest Here path CHUNK_REQUEST
  | DCall now (CSave path content) => FSend Here now path content CHUNK_SEND
  | DNext s now => FNext s now
  end.
(* What has happened at a side since the log was as long as l *)
Definition since (s : side) (l log : list (side * bev)) : list bev := flat_map (fun e => if side_eqb s (fst e) then [snd e] else []) (skipn (length l) log).
Definition dstep (files : side -> Z -> list Z -> option (list Z)) (throws : side -> Z -> bool) (d : dnet) (o : dop) : dnet :=
  let v := match o with DCall _ c => begin c (d_dev d) | DNext _ _ => d_dev d end in
  let f := if match o with DCall _ c => acts c (d_dev d) | DNext _ _ => true end then fstep files throws (d_net d) (fop_of o) else d_net d in
  mkD (fold_left on_event (since Here (n_log (f_net (d_net d))) (n_log (f_net f))) v) f.
Definition dstart (seed : side -> Z) : dnet := mkD device_new (fstart seed).
Definition drun files throws seed (ops : list dop) : dnet := fold_left (dstep files throws) ops (dstart seed).

(* One call after the other: connect is the first call, and each call is made when the earlier ones are settled. Paths of files to be loaded and contents to be saved are not empty *)
Definition in_turn (d : dnet) (o : dop) : Prop :=
  match o with
  | DCall _ CConnect => v_calls (d_dev d) = []
  | DCall _ (CLoad path) => v_on (d_dev d) = true /\ path <> [] /\ Forall (fun x => snd x <> None) (v_calls (d_dev d))
  | DCall _ (CSave path content) => v_on (d_dev d) = true /\ content <> [] /\ Forall (fun x => snd x <> None) (v_calls (d_dev d))
  | DNext _ _ => True
  end.
Fixpoint orderly files throws (d : dnet) (ops : list dop) : Prop :=
  match ops with [] => True | o :: r => in_turn d o /\ orderly files throws (dstep files throws d o) r end.
(* And the connection is reliable; the controller answers with an error message when it does not find a file *)
Definition proper files throws seed (ops : list dop) : Prop :=
  reliable files throws seed (map fop_of ops) /\ orderly files throws (dstart seed) ops /\ (forall now, throws There now = false).

(* The files the controller has received, in this order; and a file as it is after them, if it was [old] before *)
Definition obtained (s : side) (log : list (side * bev)) : list (list Z * list Z) :=
  flat_map (fun e => match e with (t, RecvFinish _ path data _) => if side_eqb s t then [(path, data)] else [] | _ => [] end) log.
Definition after (old : option (list Z)) (path : list Z) (l : list (list Z * list Z)) : option (list Z) :=
  fold_left (fun r x => if bytes_eqb (fst x) path then Some (snd x) else r) l old.
(* The controller stores what it receives *)
Definition stores files throws seed (disk : list Z -> option (list Z)) (ops : list dop) : Prop :=
  forall a now b, ops = a ++ DNext There now :: b -> forall path, files There now path = after (disk path) path (obtained There (n_log (f_net (d_net (drun files throws seed a))))).

(* Events which are no answer: acknowledgements sent, progress of receiving and the like *)
Definition no_answer (e : bev) : Prop := match e with RecvFinish _ _ _ _ | SendProgress _ _ _ _ | RecvError _ => False | _ => True end.
