(* ui/ui.py:5-21 DisplayBounds, ui/layout.py, ui/DisplaySplitContainer.py *)
From Verif.Lib Require Import Base.

(* ui.py:5-10; int() of the arguments is done by the caller of the model: all numbers are integers *)
Record bounds := mkBounds { bx : Z; by_ : Z; bw : Z; bh : Z }.

(* layout.py:6-14 translated / translate *)
Definition translate (b : bounds) (x y : Z) : bounds := mkBounds (bx b + x) (by_ b + y) (bw b) (bh b).

(* layout.py:17-68: the part removed, and the rest (the argument is modified in place) *)
Definition remove_from_top (b : bounds) (a : Z) : bounds * bounds :=
  (mkBounds (bx b) (by_ b) (bw b) a, mkBounds (bx b) (by_ b + a) (bw b) (bh b - a)).
Definition remove_from_bottom (b : bounds) (a : Z) : bounds * bounds :=
  (mkBounds (bx b) (by_ b + bh b - a) (bw b) a, mkBounds (bx b) (by_ b) (bw b) (bh b - a)).
Definition remove_from_left (b : bounds) (a : Z) : bounds * bounds :=
  (mkBounds (bx b) (by_ b) a (bh b), mkBounds (bx b + a) (by_ b) (bw b - a) (bh b)).
Definition remove_from_right (b : bounds) (a : Z) : bounds * bounds :=
  (mkBounds (bx b + bw b - a) (by_ b) a (bh b), mkBounds (bx b) (by_ b) (bw b - a) (bh b)).

(* layout.py:71-104 *)
Definition top (b : bounds) (a : Z) : bounds := mkBounds (bx b) (by_ b) (bw b) a.
Definition bottom (b : bounds) (a : Z) : bounds := mkBounds (bx b) (by_ b + bh b - a) (bw b) a.
Definition left_part (b : bounds) (a : Z) : bounds := mkBounds (bx b) (by_ b) a (bh b).
Definition right_part (b : bounds) (a : Z) : bounds := mkBounds (bx b + bw b - a) (by_ b) a (bh b).

(* A display element: a split container with its children (None entries are allowed), or any other element *)
Inductive elem :=
| Leaf (b : bounds)
| Split (vertical : bool) (b : bounds) (children : list (option elem)).
Definition elem_bounds (e : elem) : bounds := match e with Leaf b => b | Split _ b _ => b end.

(* DisplaySplitContainer.py:25-27 *)
Definition active {A} (l : list (option A)) : Z := Z.of_nat (length (filter (fun o => match o with Some _ => true | None => false end) l)).

(* DisplaySplitContainer.py:33-54: the area of active child number i of n *)
Definition slot (vertical : bool) (b : bounds) (n i : Z) : bounds :=
  if vertical then let h := Z.quot (bh b) n in mkBounds (bx b) (by_ b + i * h) (bw b) h
  else let w := Z.quot (bw b) n in mkBounds (bx b + i * w) (by_ b) w (bh b).

(* DisplaySplitContainer.py:21-61: assigning bounds to an element and, for containers, updating their children (recursively) *)
Fixpoint place (b : bounds) (e : elem) : elem :=
  match e with
  | Leaf _ => Leaf b
  | Split v _ ch =>
      let n := active ch in
      Split v b
        ((fix go (i : Z) (l : list (option elem)) : list (option elem) :=
            match l with
            | [] => []
            | None :: l' => None :: go i l'
            | Some c :: l' => Some (place (slot v b n i) c) :: go (i + 1) l'
            end) 0 ch)
  end.
Definition update_bounds (e : elem) : elem := match e with Leaf _ => e | Split _ b _ => place b e end.

(* DisplaySplitContainer.py:16-18 add, to the container found by following [path] (indices of children); an element that is not a
   container, or a missing one, is left alone *)
Fixpoint add_at (path : list nat) (child : elem) (e : elem) : elem :=
  match e with
  | Leaf _ => e
  | Split v b ch =>
      match path with
      | [] => update_bounds (Split v b (ch ++ [Some child]))
      | i :: path' =>
          Split v b
            ((fix go (k : nat) (l : list (option elem)) : list (option elem) :=
                match l with
                | [] => []
                | o :: l' =>
                    match k with
                    | O => match o with Some c => Some (add_at path' child c) | None => None end :: l'
                    | S k' => o :: go k' l'
                    end
                end) i ch)
      end
  end.
