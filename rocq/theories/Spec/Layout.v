(* C52: areas as sets of pixels. *)
From Verif.Lib Require Import Base.
From Verif.Model Require Import Layout.

Definition covers (b : bounds) (x y : Z) : Prop := bx b <= x < bx b + bw b /\ by_ b <= y < by_ b + bh b.
Definition disjoint (a b : bounds) : Prop := forall x y, ~ (covers a x y /\ covers b x y).
Definition inside (a b : bounds) : Prop := forall x y, covers a x y -> covers b x y.
(* [a] and [b] together are exactly [c] *)
Definition make_up (a b c : bounds) : Prop := disjoint a b /\ forall x y, covers c x y <-> covers a x y \/ covers b x y.
Definition all_disjoint (l : list bounds) : Prop := ForallOrdPairs disjoint l.

(* The areas of all elements shown in a tree of containers *)
Fixpoint leaves (e : elem) : list bounds :=
  match e with
  | Leaf b => [b]
  | Split _ _ ch => flat_map (fun o => match o with Some c => leaves c | None => [] end) ch
  end.
(* a layout is built by adding elements to containers, starting with an empty one *)
Definition build (vertical : bool) (b : bounds) (adds : list (list nat * elem)) : elem :=
  fold_left (fun e a => add_at (fst a) (snd a) e) adds (Split vertical b []).
