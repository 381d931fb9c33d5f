(* C55: exploration mode. *)
From Verif.Lib Require Import Base.
From Verif.Model Require Import Explore.
From Verif.Spec Require Import Explore.
From Verif.Proofs Require Import Explore.

(* Every press lights exactly one switch, and reports its pixels. *)
Theorem C55_exactly_one_lit hd ps ports cur k c shown px : let sws := init_switches hd ps ports 0 in
  (k < length sws)%nat -> press sws cur k = (c, shown, px) ->
  lit shown = 1%nat /\ 0 <= c < Z.of_nat (length sws) /\ nth_error shown (Z.to_nat c) = Some true /\ px = Some (calculate_pixels hd ps c).
Proof. exact (one_lit hd ps ports cur k c shown px). Qed.
Print Assumptions C55_exactly_one_lit.

(* For every history of presses the lit switch is the one reached by cyclic scrolling. *)
Theorem C55_cyclic hd ps ports ks : let sws := init_switches hd ps ports 0 in
  Forall (fun k => (k < length sws)%nat) ks -> presses sws (-1) ks = scrolled (Z.of_nat (length sws)) ks.
Proof. exact (presses_scrolled hd ps ports ks). Qed.
Print Assumptions C55_cyclic.

(* Up and down are inverse. *)
Theorem C55_up_down_inverse hd ps ports cur i j : let sws := init_switches hd ps ports 0 in
  (i < length sws)%nat -> (j < length sws)%nat -> direction i = - direction j -> 0 <= cur < Z.of_nat (length sws) ->
  presses sws cur [i; j] = cur.
Proof.
  cbn zeta. intros Li Lj D R. rewrite presses_cyclic; [|exact R|repeat constructor; assumption]. cbn [map fold_right]. rewrite D.
  replace (cur + (- direction j + (direction j + 0))) with cur by ring. apply Z.mod_small. exact R.
Qed.
Print Assumptions C55_up_down_inverse.

(* LEDs of different switches are disjoint and exist on the strip. *)
Theorem C55_pixels_disjoint hd ps ports i j si sj p : let sws := init_switches hd ps ports 0 in
  nth_error sws i = Some si -> nth_error sws j = Some sj -> In p (pixels si) -> In p (pixels sj) -> i = j.
Proof. exact (pixels_disjoint hd ps ports i j si sj p). Qed.
Print Assumptions C55_pixels_disjoint.
Theorem C55_pixels_exist hd ps ports i s p : let sws := init_switches hd ps ports 0 in
  nth_error sws i = Some s -> In p (pixels s) -> 0 <= p < num_leds ps ports.
Proof. exact (pixels_exist hd ps ports i s p). Qed.
Print Assumptions C55_pixels_exist.

Definition ex_ports : list bool := [true; false; true; true].
Example C55_ex : map pixels (init_switches true 3 ex_ports 0) = [[0; 1; 2]; [3; 4; 5]; [6; 7; 8]]
  /\ presses (init_switches true 3 ex_ports 0) (-1) [0; 0; 1; 1; 1; 2]%nat = 2
  /\ press (init_switches true 3 ex_ports 0) (-1) 1 = (2, [false; false; true], Some [6; 7; 8]).
Proof. repeat split; reflexivity. Qed.
