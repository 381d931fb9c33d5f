(* C22: period counters fire once per elapsed interval. *)
From Verif.Lib Require Import Base.
From Verif.Model Require Import Period.
From Verif.Spec Require Import Period.
From Verif.Proofs Require Import Period.

(* In any call history (any clock readings, even a clock running backwards) a check reports expiry exactly
   when strictly more than the interval has passed since the latest earlier reset or reported expiry. *)
Theorem C22_expiry_exact : forall i ops before t r after,
  snd (run period_step (new_period i) ops) = before ++ Reported t r :: after ->
  r = (last_mark 0 before + i <? t).
Proof. exact reports_exact. Qed.
Print Assumptions C22_expiry_exact.

Example C22_expiry_exact_ex :
  snd (run period_step (new_period 100) [CheckAt 50; ResetAt 60; CheckAt 160; CheckAt 161])
  = [Reported 50 false; WasReset 60; Reported 160 false] ++ Reported 161 true :: [].
Proof. reflexivity. Qed.

(* Two reported expiries are more than an interval apart whenever the clock does not run backwards. *)
Theorem C22_expiries_apart : forall i ops before t1 mid t2 after b,
  snd (run period_step (new_period i) ops)
    = before ++ Reported t1 true :: mid ++ Reported t2 true :: after ->
  clock_monotone b (snd (run period_step (new_period i) ops)) ->
  t1 + i < t2.
Proof. exact expiries_apart. Qed.
Print Assumptions C22_expiries_apart.

Example C22_expiries_apart_ex :
  let h := snd (run period_step (new_period 100) [CheckAt 150; CheckAt 200; CheckAt 251]) in
  h = [] ++ Reported 150 true :: [Reported 200 false] ++ Reported 251 true :: []
  /\ clock_monotone 0 h.
Proof. split; [reflexivity|]. vm_compute. repeat split; discriminate. Qed.
