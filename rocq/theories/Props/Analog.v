(* C36 - C38: pedals. *)
From Verif.Lib Require Import Base.
From Verif.Model Require Import Midi Period Analog.
From Verif.Spec Require Import Analog.
From Verif.Proofs Require Import Analog.

Definition pedal : aconf := mkAconf 127 128 false 16384 None (Some 1024).
Definition nrpn_pedal : aconf := mkAconf 16383 200 false 16384 None None.
Definition autopedal : aconf := mkAconf 127 128 true 16384 None (Some 1024).
Example pedal_usable : usable pedal /\ usable nrpn_pedal /\ usable autopedal.
Proof. unfold usable. cbn. intuition lia. Qed.

(* ---- C36 ---- *)

Theorem C36_in_range : forall c i ops, usable c -> (forall t v, In (t, v) ops -> 0 <= v) ->
  forall y ev, arun c (new_analog i) ops = Ok (y, ev) -> forall e, In e ev -> 0 <= a_val e <= a_maxv c.
Proof. exact sent_in_range. Qed.
Print Assumptions C36_in_range.

Theorem C36_zero_below_threshold : forall c value r, a_tf c = None -> a_raw c = Some r -> value < r -> output c value = Some 0.
Proof. exact output_below. Qed.
Print Assumptions C36_zero_below_threshold.

Theorem C36_full_travel : forall c value, usable c -> (a_steps c | 65536) -> 65535 <= value -> (forall r, a_raw c = Some r -> r <= value) ->
  output c value = Some (a_maxv c).
Proof. exact output_full. Qed.
Print Assumptions C36_full_travel.

Theorem C36_monotone : forall c a b va vb, usable c -> 0 <= a <= b -> output c a = Some va -> output c b = Some vb -> va <= vb.
Proof. exact output_mono. Qed.
Print Assumptions C36_monotone.

(* A pedal without calibration: an evaluated poll sends exactly the output of the reading if it differs from the last value sent. *)
Theorem C36_poll_exact : forall c i ops x ev t v y e, a_cal c = false -> arun c (new_analog i) ops = Ok (x, ev) -> aprocess c x t v = Ok (y, e) ->
  (if last_eval i ops + i <? t then exists w, output c v = Some w /\ e = (if last (a_sets ev) (-1) =? w then [] else [ASet t w]) else e = []).
Proof. exact plain_process. Qed.
Print Assumptions C36_poll_exact.

Theorem C36_never_raises : forall c i ops, usable c -> (forall t v, In (t, v) ops -> 0 <= v) -> (a_cal c = true -> 0 < a_win c) -> arun c (new_analog i) ops <> Raise.
Proof. exact arun_never_raises. Qed.
Print Assumptions C36_never_raises.

(* Finding: with a step count not dividing 65536 the maximum may not be reachable. *)
Theorem C36_full_travel_refuted : exists c, usable c /\ output c 65535 = Some 16350 /\ a_maxv c = 16383 /\ a_steps c = 200.
Proof. exists nrpn_pedal. split; [apply pedal_usable|]. repeat split. Qed.
Print Assumptions C36_full_travel_refuted.

(* Finding: more than 65536 steps divide by zero; a calibration window of 0 uses an attribute that is not set. *)
Theorem C36_raises_refuted : (exists c, a_steps c = 65537 /\ arun c (new_analog 41) [(50, 2000)] = Raise) /\
  (exists c, a_cal c = true /\ a_win c = 0 /\ arun c (new_analog 41) [(50, 2000)] = Raise).
Proof. split; [exists (mkAconf 127 65537 false 16384 None (Some 1024))|exists (mkAconf 127 128 true 0 None (Some 1024))]; repeat split. Qed.
Print Assumptions C36_raises_refuted.

Example C36_ex : map (output pedal) [0; 1023; 1024; 1300; 32768; 65000; 65535] = map Some [0; 0; 2; 3; 64; 127; 127].
Proof. reflexivity. Qed.
Example C36_ex_run : exists y, arun pedal (new_analog 41) [(10, 9999); (50, 2000); (60, 7000); (100, 2100); (150, 65535)] = Ok (y, [ASet 50 4; ASet 150 127]).
Proof. eexists. vm_compute. reflexivity. Qed.

(* ---- C37 ---- *)

Theorem C37_sends_differ : forall c i ops y ev e1 a b e2, arun c (new_analog i) ops = Ok (y, ev) -> ev = e1 ++ a :: b :: e2 -> a_val a <> a_val b.
Proof. exact sends_differ. Qed.
Print Assumptions C37_sends_differ.

(* Whatever the clock does. *)
Theorem C37_sends_spaced : forall c i ops y ev e1 a b e2, 0 <= i -> arun c (new_analog i) ops = Ok (y, ev) -> ev = e1 ++ a :: b :: e2 -> a_time a + i < a_time b.
Proof. exact sends_spaced. Qed.
Print Assumptions C37_sends_spaced.

Theorem C37_quiet_until_window : forall c i ops y ev r rs, a_cal c = true -> 0 < a_win c -> arun c (new_analog i) ops = Ok (y, ev) ->
  map snd (evaluated i 0 ops) = r :: rs -> highest r rs - lowest r rs < a_win c -> ev = [].
Proof. exact quiet_window. Qed.
Print Assumptions C37_quiet_until_window.

Example C37_ex : exists y, let ops := [(50, 10000); (100, 20000); (120, 60000); (150, 12000)] in
  arun autopedal (new_analog 41) ops = Ok (y, []) /\ map snd (evaluated 41 0 ops) = [10000; 20000; 12000].
Proof. eexists. vm_compute. auto. Qed.

(* ---- C38 ---- *)

(* An evaluated poll of a calibrating pedal, in terms of the lowest and highest reading evaluated so far (including this one): the
   reading is stretched from that range to the full one. *)
Theorem C38_calibrated : forall c i ops x ev t v y e, a_cal c = true -> 0 < a_win c -> arun c (new_analog i) ops = Ok (x, ev) -> aprocess c x t v = Ok (y, e) ->
  last_eval i ops + i < t ->
  exists (r : Z) (rs : list Z), map snd (evaluated i 0 (ops ++ [(t, v)])) = r :: rs /\
    (if highest r rs - lowest r rs <? a_win c then e = []
     else exists w, output c (Z.quot ((v - lowest r rs) * 65536) (highest r rs - lowest r rs)) = Some w /\ e = (if last (a_sets ev) (-1) =? w then [] else [ASet t w])).
Proof. exact cal_process. Qed.
Print Assumptions C38_calibrated.

Theorem C38_window_contains : forall v vs, lowest v vs <= highest v vs /\ forall z, In z (v :: vs) -> lowest v vs <= z <= highest v vs.
Proof. exact low_high. Qed.
Print Assumptions C38_window_contains.

Theorem C38_window_grows : forall r rs q, lowest r (rs ++ q) <= lowest r rs /\ highest r rs <= highest r (rs ++ q).
Proof. exact lowhigh_app. Qed.
Print Assumptions C38_window_grows.

(* The lowest reading goes to 0 and the highest to the maximum (if the steps divide the range), monotonically in between. *)
Theorem C38_ends : forall c lo hi, usable c -> lo < hi ->
  output c (Z.quot ((lo - lo) * 65536) (hi - lo)) = Some 0 /\
  ((a_steps c | 65536) -> (forall r, a_raw c = Some r -> r <= 65535) -> output c (Z.quot ((hi - lo) * 65536) (hi - lo)) = Some (a_maxv c)).
Proof. exact cal_ends. Qed.
Print Assumptions C38_ends.

Theorem C38_monotone : forall c lo hi a b va vb, usable c -> lo <= a <= b -> lo < hi ->
  output c (Z.quot ((a - lo) * 65536) (hi - lo)) = Some va -> output c (Z.quot ((b - lo) * 65536) (hi - lo)) = Some vb -> va <= vb.
Proof. exact cal_output_mono. Qed.
Print Assumptions C38_monotone.

Example C38_ex : exists y, let ops := [(50, 10000); (100, 50000); (150, 10000); (200, 30000)] in
  arun autopedal (new_analog 41) ops = Ok (y, [ASet 100 127; ASet 150 0; ASet 200 64]).
Proof. eexists. vm_compute. auto. Qed.
