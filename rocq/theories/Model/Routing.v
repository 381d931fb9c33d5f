(* controller/midi.py:35-117  MidiRouting, MidiController *)
From Verif.Lib Require Import Base.
From Verif.Model Require Import Midi.

(* midi.py:35-48. An end point is APPLICATION or a device, identified by a number (object identity). *)
Inductive endpoint := App | Dev (d : nat).
Record routing := mkRouting { source : endpoint; target : endpoint }.

Definition endpoint_eqb (a b : endpoint) : bool :=
  match a, b with App, App => true | Dev i, Dev j => (i =? j)%nat | _, _ => false end.
Definition is_app (e : endpoint) : bool := match e with App => true | Dev _ => false end.

(* midi.py:60-62 *)
Definition from_appl (rs : list routing) : list routing := filter (fun x => is_app (source x)) rs.
Definition to_appl (rs : list routing) : list routing := filter (fun x => is_app (target x)) rs.
Definition external (rs : list routing) : list routing := filter (fun x => negb (is_app (source x)) && negb (is_app (target x))) rs.

(* The devices: [inp d n] is what the n-th call of receive() on device d returns (None: nothing available); the state is the
   number of calls made so far. *)
Definition input := nat -> nat -> option msg.
Definition position := nat -> nat.
Definition bump (pos : position) (d : nat) : position := fun k => if (k =? d)%nat then S (pos k) else pos k.

(* What happens: a read (external or for the application) with its result, a message handed to target.send() on behalf of a
   routing (its source is kept for stating properties), a message returned to the application. *)
Inductive revent :=
| RRead (ext : bool) (d : nat) (x : option msg)
| RSend (src tgt : nat) (m : msg)
| RDeliver (m : msg).

(* midi.py:64-67 send; a target APPLICATION (the number 1) has no send(): AttributeError *)
Fixpoint send_all (l : list routing) (m : msg) : res (list (nat * msg)) :=
  match l with
  | [] => Ok []
  | r :: l' => match target r with
               | App => Raise
               | Dev d => match send_all l' m with Raise => Raise | Ok e => Ok ((d, m) :: e) end
               end
  end.
Definition midi_send (rs : list routing) (m : msg) : res (list (nat * msg)) := send_all (from_appl rs) m.

(* midi.py:92-97: the distinct sources, read one by one. External routings have device sources. *)
Fixpoint read_sources (inp : input) (pos : position) (rs : list routing) (sources : list nat) (results : list (option msg))
  : position * list nat * list (option msg) * list revent :=
  match rs with
  | [] => (pos, sources, results, [])
  | r :: rs' =>
      match source r with
      | App => read_sources inp pos rs' sources results             (* not among external routings *)
      | Dev d =>
          if existsb (Nat.eqb d) sources then read_sources inp pos rs' sources results
          else
            let x := inp d (pos d) in
            let '(p, s, t, ev) := read_sources inp (bump pos d) rs' (sources ++ [d]) (results ++ [x]) in
            (p, s, t, RRead true d x :: ev)
      end
  end.

(* midi.py:106-113: what is forwarded. Message objects are truthy. *)
Definition forwardable (x : option msg) : option msg :=
  match x with
  | None => None
  | Some (UnknownMsg _) => None
  | Some (OtherMsg None) => None
  | Some m => Some m
  end.

(* midi.py:101-117, the inner loop over the sources; [continue] on a match that is not forwardable goes on searching *)
Fixpoint distribute (s t : nat) (sources : list nat) (results : list (option msg)) : list revent :=
  match sources, results with
  | d :: sources', x :: results' =>
      if (d =? s)%nat then
        match forwardable x with
        | Some m => [RSend s t m]
        | None => distribute s t sources' results'
        end
      else distribute s t sources' results'
  | _, _ => []
  end.

(* midi.py:83-117 *)
Definition process_external (rs : list routing) (inp : input) (pos : position) : position * list revent :=
  let ex := external rs in
  let '(p, sources, results, ev) := read_sources inp pos ex [] [] in
  (p, ev ++ flat_map (fun r => match source r, target r with
                               | Dev s, Dev t => distribute s t sources results
                               | _, _ => []                          (* not among external routings *)
                               end) ex).

(* midi.py:74-80: the first message available for the application *)
Fixpoint poll_appl (l : list routing) (inp : input) (pos : position) : res (position * option msg * list revent) :=
  match l with
  | [] => Ok (pos, None, [])
  | r :: l' =>
      match source r with
      | App => Raise                                                (* the number 1 has no receive() *)
      | Dev d =>
          let x := inp d (pos d) in
          match x with
          | Some m => Ok (bump pos d, Some m, [RRead false d x; RDeliver m])
          | None => match poll_appl l' inp (bump pos d) with
                    | Raise => Raise
                    | Ok (p, y, ev) => Ok (p, y, RRead false d x :: ev)
                    end
          end
      end
  end.

(* midi.py:69-80 receive *)
Definition midi_receive (rs : list routing) (inp : input) (pos : position) : res (position * option msg * list revent) :=
  let '(p1, e1) := process_external rs inp pos in
  match poll_appl (to_appl rs) inp p1 with
  | Raise => Raise
  | Ok (p2, x, e2) => Ok (p2, x, e1 ++ e2)
  end.

(* n polls, with the events of each *)
Fixpoint polls (n : nat) (rs : list routing) (inp : input) (pos : position) : res (position * list (list revent)) :=
  match n with
  | O => Ok (pos, [])
  | S n' =>
      match midi_receive rs inp pos with
      | Raise => Raise
      | Ok (p1, _, e1) => match polls n' rs inp p1 with Raise => Raise | Ok (p2, es) => Ok (p2, e1 :: es) end
      end
  end.
