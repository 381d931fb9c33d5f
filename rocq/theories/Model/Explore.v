(* controller/explore.py: ExploreModeController, ExploreAction *)
From Verif.Lib Require Import Base.

(* explore.py:202-225: of the available ports, [ok] tells whether a switch can be created on it (ValueError otherwise, then the port is
   skipped). 228-255: the switch gets the next index, its pixels and its scan step. Other exceptions leave the constructor: not modelled. *)
Record xswitch := mkX { em_index : Z; pixels : list Z; scan_step : Z }.
(* 298-304 *)
Definition calculate_pixels (has_driver : bool) (per_switch : nat) (index : Z) : list Z :=
  if negb has_driver then []
  else let i := index * Z.of_nat per_switch in map (fun j => i + Z.of_nat j) (seq 0 per_switch).
Definition init_switch (has_driver : bool) (per_switch : nat) (index : Z) : xswitch :=
  mkX index (calculate_pixels has_driver per_switch index) (if index mod 2 =? 0 then 1 else -1).
Fixpoint init_switches (has_driver : bool) (per_switch : nat) (ports : list bool) (index : Z) : list xswitch :=
  match ports with
  | [] => []
  | ok :: ports' =>
      if ok then init_switch has_driver per_switch index :: init_switches has_driver per_switch ports' (index + 1)
      else init_switches has_driver per_switch ports' index
  end.
(* 95-96: number of LEDs the driver is initialised with *)
Definition num_leds (per_switch : nat) (ports : list bool) : Z := Z.of_nat (length ports * per_switch).

(* 171-195 show_next_switch: the new index; for each switch whether it is lit white (true) or blue (false); the pixels of the lit one *)
Definition next_index (n cur step : Z) : Z :=
  let c := cur + step in
  let c := if n <=? c then 0 else c in
  if c <? 0 then n - 1 else c.
Definition show_next (sws : list xswitch) (cur step : Z) : Z * list bool * option (list Z) :=
  let c := next_index (Z.of_nat (length sws)) cur step in
  (c, map (fun s => em_index s =? c) sws,
   fold_left (fun ret s => if em_index s =? c then Some (pixels s) else ret) sws None).

(* 30-51: pressing the switch with index k. The state is the index currently shown, initially -1 (76) *)
Definition press (sws : list xswitch) (cur : Z) (k : nat) : Z * list bool * option (list Z) :=
  match nth_error sws k with
  | Some s => show_next sws cur (scan_step s)
  | None => (cur, [], None)
  end.
Fixpoint presses (sws : list xswitch) (cur : Z) (ks : list nat) : Z :=
  match ks with [] => cur | k :: ks' => presses sws (fst (fst (press sws cur k))) ks' end.
