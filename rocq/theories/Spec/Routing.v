(* C16-C18: independent notions for MIDI routing. *)
From Verif.Lib Require Import Base.
From Verif.Model Require Import Midi Routing.

(* No routing from the application to itself *)
Definition sane (rs : list routing) : Prop := forall r, In r rs -> ~ (source r = App /\ target r = App).

(* What may be forwarded: a message of a known type *)
Definition passes (m : msg) : Prop := match m with UnknownMsg _ | OtherMsg None => False | _ => True end.

(* Observations of a list of events *)
Definition reads_of (d : nat) (evs : list revent) : list (option msg) :=
  flat_map (fun e => match e with RRead _ d' x => if (d' =? d)%nat then [x] else [] | _ => [] end) evs.
Definition ext_reads_of (d : nat) (evs : list revent) : list (option msg) :=
  flat_map (fun e => match e with RRead true d' x => if (d' =? d)%nat then [x] else [] | _ => [] end) evs.
Definition app_reads (evs : list revent) : list (option msg) :=
  flat_map (fun e => match e with RRead false _ x => [x] | _ => [] end) evs.
Definition sends_of (s t : nat) (evs : list revent) : list msg :=
  flat_map (fun e => match e with RSend s' t' m => if (s' =? s)%nat && (t' =? t)%nat then [m] else [] | _ => [] end) evs.
Definition sends_to (t : nat) (evs : list revent) : list msg :=
  flat_map (fun e => match e with RSend _ t' m => if (t' =? t)%nat then [m] else [] | _ => [] end) evs.
Definition delivered (evs : list revent) : list msg :=
  flat_map (fun e => match e with RDeliver m => [m] | _ => [] end) evs.

(* The first [n] reads of a device from position [p] on *)
Definition window (inp : input) (d p n : nat) : list (option msg) := map (inp d) (seq p n).

(* How often a routing from device [s] to device [t] is configured *)
Definition routes (rs : list routing) (s t : nat) : nat :=
  length (filter (fun r => endpoint_eqb (source r) (Dev s) && endpoint_eqb (target r) (Dev t)) rs).
Definition is_ext_source (rs : list routing) (d : nat) : Prop := exists r t, In r rs /\ source r = Dev d /\ target r = Dev t.
Definition is_app_source (rs : list routing) (d : nat) : Prop := exists r, In r rs /\ source r = Dev d /\ target r = App.

(* The messages among some reads that pass, in order *)
Fixpoint passing (l : list (option msg)) : list msg :=
  match l with
  | [] => []
  | Some (UnknownMsg _) :: l' => passing l'
  | Some (OtherMsg None) :: l' => passing l'
  | Some m :: l' => m :: passing l'
  | None :: l' => passing l'
  end.
Fixpoint messages (l : list (option msg)) : list msg :=
  match l with [] => [] | Some m :: l' => m :: messages l' | None :: l' => messages l' end.

(* What one poll forwards, given the positions of the devices: per external routing, in the order of the routings *)
Definition forward_all (rs : list routing) (inp : input) (pos : position) : list revent :=
  flat_map (fun r => match source r, target r with Dev s, Dev t => map (RSend s t) (passing [inp s (pos s)]) | _, _ => [] end) rs.

(* the sources of the routings to the application *)
Definition appl_sources (rs : list routing) : list nat :=
  flat_map (fun r => match target r, source r with App, Dev d => [d] | _, _ => [] end) rs.
