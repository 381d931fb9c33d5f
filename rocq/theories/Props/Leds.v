(* C29 and C30 *)
From Coq Require Import QArith.
From Verif.Lib Require Import Base.
From Verif.Model Require Import Midi Leds.
From Verif.Spec Require Import Leds.
From Verif.Proofs Require Leds.
Open Scope Z_scope.

(* C29: going through the enabled LED-using actions in order, their segments put together are exactly the LEDs
   0, 1, ..., n-1 of the switch, each once. *)
Theorem C29_partition : forall n actions,
  NoDup (map la_id actions) ->
  (exists a, In a actions /\ takes_part a = true) ->
  exists segs,
    Forall2 (fun a s => led_segments n actions a = Some s) (filter takes_part actions) segs /\
    concat segs = seq 0 n.
Proof. exact Leds.c29_partition. Qed.
Print Assumptions C29_partition.

(* Every LED has exactly one owner among all actions of the switch. *)
Theorem C29_one_owner : forall n actions i,
  NoDup (map la_id actions) -> (exists a, In a actions /\ takes_part a = true) -> (i < n)%nat ->
  exists! a, In a actions /\ exists s, led_segments n actions a = Some s /\ In i s.
Proof. exact Leds.c29_one_owner. Qed.
Print Assumptions C29_one_owner.

(* With enough LEDs everybody gets one, and the first one gets all that are left over. *)
Theorem C29_shares : forall n actions before a after,
  NoDup (map la_id actions) ->
  filter takes_part actions = before ++ a :: after ->
  (length (filter takes_part actions) <= n)%nat ->
  exists s, led_segments n actions a = Some s /\
    length s = if (length before =? 0)%nat then (n - length (filter takes_part actions) + 1)%nat else 1%nat.
Proof. exact Leds.c29_shares. Qed.
Print Assumptions C29_shares.

(* Disabled actions and actions not using LEDs get none, and asking never fails for an action of the switch. *)
Theorem C29_others_none : forall n actions a, takes_part a = false -> led_segments n actions a = Some [].
Proof. exact Leds.none_for_others. Qed.
Print Assumptions C29_others_none.

Theorem C29_total : forall n actions a, In a actions -> exists s, led_segments n actions a = Some s.
Proof. exact Leds.no_exception. Qed.
Print Assumptions C29_total.

Definition three_actions : list led_action :=
  [mkLedAction 1 true true; mkLedAction 2 true false; mkLedAction 3 true true; mkLedAction 4 false true].
Example C29_example :
  NoDup (map la_id three_actions) /\ (exists a, In a three_actions /\ takes_part a = true) /\
  map (led_segments 4 three_actions) three_actions = [Some [0;1;2]%nat; Some []; Some [3]%nat; Some []].
Proof.
  split; [repeat constructor; cbn; intuition discriminate|]. split; [|reflexivity].
  exists (mkLedAction 1 true true). split; [left; reflexivity|reflexivity].
Qed.

(* C30: a single colour *)
Theorem C30_color : forall s segs c,
  leds_ok s -> Forall (fun i => (i < length (px s))%nat) segs ->
  exists s', switch_color s segs (OneColor c) = Ok s' /\ px s' = px s /\ brs s' = brs s /\ leds_ok s' /\
    (forall i, In i segs -> nth_error (cols s') i = Some c) /\
    (forall i, ~ In i segs -> nth_error (cols s') i = nth_error (cols s) i).
Proof. exact Leds.switch_color_one. Qed.
Print Assumptions C30_color.

(* any colour argument: nothing outside the own segments changes *)
Theorem C30_color_frame : forall s segs a s', switch_color s segs a = Ok s' ->
  px s' = px s /\ brs s' = brs s /\ (forall i, ~ In i segs -> nth_error (cols s') i = nth_error (cols s) i).
Proof. exact Leds.switch_color_frame. Qed.
Print Assumptions C30_color_frame.

(* one colour per own LED *)
Theorem C30_color_per_led : forall s segs cs,
  leds_ok s -> NoDup segs -> Forall (fun i => (i < length (px s))%nat) segs -> segs <> [] -> length segs = length cs ->
  exists s', switch_color s segs (ManyColors cs) = Ok s' /\
    forall k i, nth_error segs k = Some i -> nth_error (cols s') i = nth_error cs k.
Proof. exact Leds.switch_color_many. Qed.
Print Assumptions C30_color_per_led.

(* another number of colours than own LEDs: the middle one for all of them *)
Theorem C30_color_middle : forall s segs cs c,
  leds_ok s -> Forall (fun i => (i < length (px s))%nat) segs -> segs <> [] -> length segs <> length cs -> nth_error cs (length cs / 2) = Some c ->
  exists s', switch_color s segs (ManyColors cs) = Ok s' /\ px s' = px s /\ brs s' = brs s /\
    (forall i, In i segs -> nth_error (cols s') i = Some c) /\ (forall i, ~ In i segs -> nth_error (cols s') i = nth_error (cols s) i).
Proof.
  intros s segs cs c Ho Hs Hne Hl Hm. destruct (Leds.switch_color_one s segs c Ho Hs) as (s' & E & H1 & H2 & _ & H3 & H4).
  exists s'. rewrite (Leds.switch_color_middle s segs cs c Ho Hs Hne Hl Hm). auto.
Qed.
Print Assumptions C30_color_middle.
Example C30_color_middle_example : exists s', switch_color (mkLeds [6; 7; 8] [(0,0,0); (0,0,0); (9,9,9)] [0%Q; 0%Q; 1%Q]) [0; 1]%nat
  (ManyColors [(1,1,1); (2,2,2); (3,3,3)]) = Ok s' /\ cols s' = [(2,2,2); (2,2,2); (9,9,9)].
Proof. eexists. split; reflexivity. Qed.

(* an action without LEDs changes neither the switch nor the strip *)
Theorem C30_no_leds : forall s strip0, (forall a, switch_color s [] a = Ok s) /\ (forall b, switch_brightness s strip0 [] b = Ok (s, strip0)).
Proof. exact Leds.no_leds_no_change. Qed.
Print Assumptions C30_no_leds.

(* brightness: stored for the own segments only; the strip shows colour * brightness on the switch's pixels and is
   unchanged elsewhere *)
Theorem C30_brightness : forall s strip0 segs b,
  leds_ok s -> Forall (fun i => (i < length (px s))%nat) segs -> segs <> [] ->
  exists s' strip1, switch_brightness s strip0 segs b = Ok (s', strip1) /\ px s' = px s /\ cols s' = cols s /\ leds_ok s' /\
    (forall i, In i segs -> nth_error (brs s') i = Some b) /\
    (forall i, ~ In i segs -> nth_error (brs s') i = nth_error (brs s) i) /\
    (forall q, ~ In q (px s) -> strip1 q = strip0 q) /\
    (forall i p c br, nth_error (px s) i = Some p -> nth_error (cols s') i = Some c -> nth_error (brs s') i = Some br ->
       strip1 p = scale_rgb c br).
Proof. exact Leds.switch_brightness_frame. Qed.
Print Assumptions C30_brightness.

Theorem C30_range : forall c b, rgb_ok c -> (0 <= b)%Q -> (b <= 1)%Q -> rgb_ok (scale_rgb c b).
Proof. exact Leds.scale_rgb_range. Qed.
Print Assumptions C30_range.

Theorem C30_wrong_length_raises : forall s strip0 cs bs,
  (length cs <> length (px s) -> set_colors s cs = Raise) /\
  (px s <> [] -> length bs <> length (px s) -> set_brightnesses s strip0 bs = Raise).
Proof. exact Leds.wrong_length_raises. Qed.
Print Assumptions C30_wrong_length_raises.

Definition three_leds : switch_leds := mkLeds [6; 7; 8] [(0,0,0); (0,0,0); (9,9,9)] [0%Q; 0%Q; 1%Q].
Example C30_example :
  leds_ok three_leds /\
  exists s' d', switch_color three_leds [0; 1]%nat (OneColor (200, 100, 0)) = Ok s' /\
    switch_brightness s' (fun _ => (1, 1, 1)) [0; 1]%nat (3 # 10)%Q = Ok d' /\
    map (snd d') [6; 7; 8; 9] = [(60, 30, 0); (60, 30, 0); (9, 9, 9); (1, 1, 1)].
Proof.
  split.
  - repeat split; cbn; auto. repeat constructor; cbn; intuition discriminate.
  - eexists _, _. split; [reflexivity|]. split; [reflexivity|]. reflexivity.
Qed.
