(* What a user expects of the browser popup. *)
From Verif.Lib Require Import Base.
From Coq Require Import String.
From Verif.Model Require Import Browser.
Local Open Scope list_scope.

(* An order of texts *)
Definition order (le : string -> string -> bool) : Prop :=
  (forall a b, le a b = true \/ le b a = true) /\ (forall a b c, le a b = true -> le b c = true -> le a c = true).
(* What an entry is sorted by: its sort string if it has one, or else its text *)
Definition sorts_by (e : entry) (k : string) : Prop :=
  match e with Entry _ t s _ _ => (exists c r, s = Some (String c r) /\ k = String c r) \/ ((s = None \/ s = Some EmptyString) /\ k = t) end.
(* One child comes before another in a listing: by what they are sorted by, and if these are equivalent, in the order of the children *)
Definition before (le : string -> string -> bool) (x y : nat * entry) : Prop :=
  exists kx ky, sorts_by (snd x) kx /\ sorts_by (snd y) ky /\ le kx ky = true /\ (le ky kx = true -> (fst x < fst y)%nat).
(* No two children of an entry have the same text, anywhere in the tree *)
Inductive distinct : entry -> Prop :=
| distinct_entry v t s c l : NoDup (map text l) -> Forall distinct l -> distinct (Entry v t s c l).
(* Which entry is shown *)
Definition place (s : browser) (t : entry) (pos : list nat) (e : entry) : Prop := b_shown s = Some (t, pos) /\ entry_at t pos = Some e.
(* The texts on the way from the root down to an entry, without the root *)
Inductive way : entry -> list string -> entry -> Prop :=
| way_nil e : way e [] e
| way_cons e c p e' : In c (children e) -> way c p e' -> way e (text c :: p) e'.
