(* C58: when a client raises no exception. Conditions on the mappings and on the calls, not on the client's state. *)
From Verif.Lib Require Import Base.
From Verif.Model Require Import Midi Period Mapping Client.
From Verif.Spec Require Import Mapping Client.
Open Scope Z_scope.

(* The messages a parameter answers to. *)
Definition templates (m : mapping) : list msg :=
  match response_t m with
  | TNone => []
  | TOne r => [r]
  | TMany l => flat_map (fun o => match o with Some r => [r] | None => [] end) l
  end.
Definition hears (x : msg) (m : mapping) : Prop := exists r, In r (templates m) /\ addressed x r.

(* A mapping as the code base builds them: an ordinary one listens to one message, a two-part one is numeric and listens
   to two; response templates contain an address; no first part has been received yet. *)
Inductive sound : mapping -> Prop :=
| sound_plain m : two_part m = false -> Forall proper_template (templates m) -> value_1 m = None -> sound m
| sound_two m r0 r1 : two_part m = true -> response_t m = TMany [Some r0; Some r1] -> typ m = Numeric ->
    Forall proper_template (templates m) -> value_1 m = None -> sound m.

(* No message is addressed both to a parameter and to the one it depends on. *)
Definition told_apart (maps0 : mid -> mapping) : Prop :=
  forall d p x, depends (maps0 d) = Some p -> hears x (maps0 d) -> ~ hears x (maps0 p).

(* A value that fits a set message: SysEx data consist of bytes, and the value has at most 15 bits (two bytes of which
   the lower carries seven). *)
Definition fits_msg (x : msg) (v : Z) : Prop :=
  match x with SysEx _ d => Forall (fun b => 0 <= b <= 255) d /\ 0 <= v < 32768 | _ => True end.
Definition fits (m : mapping) (a : setarg) : Prop :=
  match set_t m, a with
  | TNone, _ => True
  | TOne x, One v => typ m = Numeric /\ fits_msg x v
  | TMany xs, Many vs => typ m = Numeric /\ (length xs <= length vs)%nat /\
      forall i x v, nth_error xs i = Some (Some x) -> nth_error vs i = Some v -> fits_msg x v
  | _, _ => False
  end.

(* The call is allowed in a state: setting a parameter handled by the bidirectional protocol needs a request or a
   registration for it (client.py:566-575), and one number. *)
Definition allowed (bi : mid -> bool) (maps0 : mid -> mapping) (c : client) (o : op) : Prop :=
  match o with
  | Set_ _ m a => fits (maps0 m) a /\ (bi m = true -> has_request c m /\ exists z, a = One z)
  | _ => True
  end.

(* The same for a whole history, without looking at states: parameters that are handled by the protocol and set at some
   point are registered before anything else is done with them. *)
Definition set_somewhere (ops : list op) (m : mid) : Prop := exists now a, In (Set_ now m a) ops.
Definition uses (maps0 : mid -> mapping) (o : op) (m : mid) : Prop :=
  match o with
  | Set_ _ k _ => k = m
  | Request _ k _ => k = m \/ depends (maps0 k) = Some m
  | _ => False
  end.
Definition orderly (bi : mid -> bool) (maps0 : mid -> mapping) (ops : list op) : Prop :=
  (forall now m a, In (Set_ now m a) ops -> fits (maps0 m) a /\
     (bi m = true -> truthy (response_t (maps0 m)) = true /\ exists z, a = One z)) /\
  (forall pre o post m, ops = pre ++ o :: post -> bi m = true -> set_somewhere ops m -> uses maps0 o m ->
     exists now l, In (Register now m l) pre).
