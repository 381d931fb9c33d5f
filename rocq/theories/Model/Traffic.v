(* The traffic shown by the virtual Kemper of the web application: /repo/web/htdocs/clients/kemper/virtual/VirtualKemperStats.js,
   VirtualKemperClient.js 183-210 (doSend, queueMessage), VirtualKemperParameters.js 46-68, VirtualKemperProtocol.js 77-112, VirtualKemperClientUI.js 268-271.
   Left out: the names of the parameters (hints). *)
From Verif.Lib Require Import Base.
Local Open Scope list_scope.
Local Open Scope Z_scope.

Section Traffic.
Context {message : Type}.

(* VirtualKemperStats.js 55-60 *)
Record data := { receive_rate : Z; send_rate : Z; messages_sent : list message; messages_received : list message }.
(* 12-14; [shown]: what the callbacks have been told, in order (62-64) *)
Record stats := { sent : list message; received : list message; last_time : Z; shown : list data }.

(* Math.round(count * (now - last) / 1000). Simplification: exact numbers *)
Definition js_round (a b : Z) : Z := (2 * a + b) / (2 * b).
Definition rate (count : nat) (now last : Z) : Z := js_round (Z.of_nat count * (now - last)) 1000.

(* 52-72 #measure, at the time [now] *)
Definition measure (now : Z) (s : stats) : stats :=
  let d := {| receive_rate := rate (length (received s)) now (last_time s); send_rate := rate (length (sent s)) now (last_time s);
              messages_sent := sent s; messages_received := received s |} in
  (* 22-26 reset *)
  {| sent := []; received := []; last_time := now; shown := shown s ++ [d] |}.
(* 18-20: constructor *)
Definition new_stats (now : Z) : stats := measure now {| sent := []; received := []; last_time := 0; shown := [] |}.

(* What the virtual Kemper makes of a message: which of the parsers take it *)
Variable is_protocol is_parameter is_default : message -> bool.
Definition message_received (m : message) (s : stats) : stats := {| sent := sent s; received := received s ++ [m]; last_time := last_time s; shown := shown s |}.
Definition message_sent (m : message) (s : stats) : stats := {| sent := sent s ++ [m]; received := received s; last_time := last_time s; shown := shown s |}.
(* VirtualKemperParameters.js 46-68: parse; the result says if the message has been taken *)
Definition parse_parameters (m : message) (s : stats) : bool * stats :=
  if is_parameter m then (true, message_received m s) else if is_default m then (true, message_received m s) else (false, s).
(* VirtualKemperClient.js 183-199: doSend *)
Definition do_send (m : message) (s : stats) : stats :=
  if is_protocol m then message_received m s
  else let (taken, s) := parse_parameters m s in if taken then s else message_received m s.

(* What happens: a message of PySwitch, a message queued for PySwitch, the timer *)
Inductive event := In_ (m : message) | Out (m : message) | Timer (now : Z).
Definition step (s : stats) (e : event) : stats :=
  match e with In_ m => do_send m s | Out m => message_sent m s | Timer now => measure now s end.
Definition run (start : Z) (h : list event) : stats := fold_left step h (new_stats start).
End Traffic.
