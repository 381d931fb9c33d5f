(* What the display editor of the web application should do, said without its functions. *)
From Coq Require Import String Ascii QArith.
From Verif.Lib Require Import Base.
From Verif.Model Require Import Displays.
Open Scope string_scope.
Open Scope Z_scope.
Local Open Scope list_scope.

(* m is an element of the tree *)
Inductive part (m : node) : node -> Prop :=
| part_here : part m m
| part_in id i l x : In x l -> part m x -> part m (N id i (Some l)).
(* The second tree is the first one with one list of children replaced *)
Inductive replaced (l l' : list node) : node -> node -> Prop :=
| rep_here id i : replaced l l' (N id i (Some l)) (N id i (Some l'))
| rep_in id i a x x' b : replaced l l' x x' -> replaced l l' (N id i (Some (a ++ x :: b))) (N id i (Some (a ++ x' :: b))).
(* The second tree is the first one with one element exchanged *)
Inductive exchanged (m m' : node) : node -> node -> Prop :=
| exc_here : exchanged m m' m m'
| exc_in id i a x x' b : exchanged m m' x x' -> exchanged m m' (N id i (Some (a ++ x :: b))) (N id i (Some (a ++ x' :: b))).

Fixpoint ids (n : node) : list nat := match n with N id _ cs => id :: match cs with Some l => flat_map ids l | None => [] end end.
(* The classes which can be selected; those with a size of their own; the dot, which has a fixed size *)
Definition can_select (t : string) : Prop := In t ["DisplayLabel"; "BidirectionalProtocolState"; "TunerDisplay"].
Definition has_size (t : string) : Prop := In t ["DisplayLabel"; "TunerDisplay"].
(* A tree of elements as display.py defines it: different objects, labels with bounds and without children (their classes take none) *)
Record valid (t : node) : Prop := {
  v_ids : NoDup (ids t);
  v_labels : forall id i cs, part (N id i cs) t -> can_select (i_type i) -> i_bounds i <> None /\ cs = None
}.
(* The states the editor gets into *)
Definition reached (uses : string -> bool) (t : node) (s : state) : Prop :=
  exists driver s0 ops, open uses driver t = Some s0 /\ s = steps uses s0 ops.

(* z is the number nearest to q *)
Definition nearest (q : Q) (z : Z) : Prop := (inject_Z z - (1 # 2) <= q /\ q < inject_Z z + (1 # 2))%Q.
(* The position and size as numbers *)
Definition at_ (i : info) (x y w h : Z) : Prop :=
  exists b, i_bounds i = Some b /\ value (b_x b) = Some x /\ value (b_y b) = Some y /\ value (b_w b) = Some w /\ value (b_h b) = Some h.
(* Everything but the bounds is the same *)
Definition same_but_bounds (i j : info) : Prop := i_type j = i_type i /\ i_assign j = i_assign i /\ i_args j = i_args i.

(* Names by which actions could address an element *)
Definition named (m : node) (a : string) : Prop := i_assign (n_info m) = Some a /\ a <> "".
Definition distinct_names (t : node) : Prop := forall m m' a, part m t -> part m' t -> named m a -> named m' a -> n_id m = n_id m'.
(* Elements are in the root only, which has no parent itself *)
Definition flat (t : node) : Prop := forall c, In c (children t) -> children c = [].

(* The same data, whatever the objects *)
Inductive alike : node -> node -> Prop :=
| alike_leaf id id' i : alike (N id i None) (N id' i None)
| alike_node id id' i l l' : Forall2 alike l l' -> alike (N id i (Some l)) (N id' i (Some l')).

(* An identifier of Python *)
Definition letter (c : Ascii.ascii) : bool := let n := Z.of_nat (Ascii.nat_of_ascii c) in ((97 <=? n) && (n <=? 122)) || ((65 <=? n) && (n <=? 90)) || (n =? 95).
Definition digit (c : Ascii.ascii) : bool := let n := Z.of_nat (Ascii.nat_of_ascii c) in (48 <=? n) && (n <=? 57).
Fixpoint all_chars (f : Ascii.ascii -> bool) (s : string) : bool := match s with EmptyString => true | String c s => f c && all_chars f s end.
Definition identifier (s : string) : bool := match s with EmptyString => false | String c s => letter c && all_chars (fun c => letter c || digit c) s end.

(* Identifiers which do not begin with an underscore; values of arguments *)
Definition letter_first (s : string) : bool := match s with String c _ => negb (Ascii.eqb c "_"%char) | EmptyString => false end.
Fixpoint argument (k : string) (l : list (string * string)) : option string := match l with [] => None | (k', v) :: l => if string_dec k' k then Some v else argument k l end.
