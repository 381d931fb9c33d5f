(* C52: display areas. *)
From Verif.Lib Require Import Base.
From Verif.Model Require Import Layout.
From Verif.Spec Require Import Layout.
From Verif.Proofs Require Import Layout.

(* Cutting: the removed part and the rest are disjoint and make up the original, for every amount that fits. *)
Theorem C52_cut_top b a p r : remove_from_top b a = (p, r) -> 0 <= a <= bh b -> make_up p r b.
Proof. exact (cut_top b a p r). Qed.
Print Assumptions C52_cut_top.
Theorem C52_cut_bottom b a p r : remove_from_bottom b a = (p, r) -> 0 <= a <= bh b -> make_up p r b.
Proof. exact (cut_bottom b a p r). Qed.
Print Assumptions C52_cut_bottom.
Theorem C52_cut_left b a p r : remove_from_left b a = (p, r) -> 0 <= a <= bw b -> make_up p r b.
Proof. exact (cut_left b a p r). Qed.
Print Assumptions C52_cut_left.
Theorem C52_cut_right b a p r : remove_from_right b a = (p, r) -> 0 <= a <= bw b -> make_up p r b.
Proof. exact (cut_right b a p r). Qed.
Print Assumptions C52_cut_right.

(* The areas returned without cutting are the same areas. *)
Theorem C52_parts b a : top b a = fst (remove_from_top b a) /\ bottom b a = fst (remove_from_bottom b a)
  /\ left_part b a = fst (remove_from_left b a) /\ right_part b a = fst (remove_from_right b a).
Proof. repeat split; reflexivity. Qed.
Print Assumptions C52_parts.

(* Split containers, nested to any depth, built by any sequence of additions (also to inner containers, also with missing children): no
   two elements overlap and all lie within the container. *)
Theorem C52_split_disjoint v b adds : 0 <= bw b -> 0 <= bh b ->
  all_disjoint (leaves (build v b adds)) /\ Forall (fun a => inside a b) (leaves (build v b adds)).
Proof. exact (build_disjoint v b adds). Qed.
Print Assumptions C52_split_disjoint.

(* The elements added to one container have equal size and stand in order, side by side. *)
Theorem C52_split_children v b cs : let n := Z.of_nat (length cs) in
  leaves (build v b (map (fun c => ([], Leaf c)) cs))
  = map (fun k => if v then mkBounds (bx b) (by_ b + Z.of_nat k * Z.quot (bh b) n) (bw b) (Z.quot (bh b) n)
                  else mkBounds (bx b + Z.of_nat k * Z.quot (bw b) n) (by_ b) (Z.quot (bw b) n) (bh b)) (seq 0 (length cs)).
Proof. exact (split_children v b cs). Qed.
Print Assumptions C52_split_children.

Definition ex_b : bounds := mkBounds 0 0 240 240.
Example C52_ex_cut : remove_from_bottom ex_b 40 = (mkBounds 0 200 240 40, mkBounds 0 0 240 200).
Proof. reflexivity. Qed.
Definition ex_leaf : elem := Leaf (mkBounds 7 7 7 7).
Example C52_ex_split : leaves (build true ex_b [([], Split false ex_b []); ([0%nat], ex_leaf); ([0%nat], ex_leaf); ([], Split false ex_b []); ([1%nat], ex_leaf)])
  = [mkBounds 0 0 120 120; mkBounds 120 0 120 120; mkBounds 0 120 240 120].
Proof. reflexivity. Qed.
(* Finding: cutting off more than there is leaves an area of negative size, and the part cut off sticks out. *)
Example C52_finding_too_much : remove_from_top (mkBounds 0 0 10 30) 40 = (mkBounds 0 0 10 40, mkBounds 0 40 10 (-10)).
Proof. reflexivity. Qed.
