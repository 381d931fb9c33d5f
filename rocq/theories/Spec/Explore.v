(* C55: exploration mode. *)
From Verif.Lib Require Import Base.
From Verif.Model Require Import Explore.

Definition lit (shown : list bool) : nat := length (filter (fun b => b) shown).
(* pressing switches with even index goes up, with odd index goes down *)
Definition direction (k : nat) : Z := if Nat.even k then 1 else -1.
(* where cyclic scrolling ends, starting before the first switch; the very first step downwards goes to the last switch *)
Definition scrolled (n : Z) (ks : list nat) : Z :=
  match ks with
  | [] => -1
  | k :: ks' => ((if Nat.even k then 0 else n - 1) + fold_right Z.add 0 (map direction ks')) mod n
  end.
