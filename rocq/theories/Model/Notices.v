(* The messages of the web application: /repo/web/htdocs/js/ui/misc/Notifications.js 41-156.
   Left out: the console, the hint about versions which is appended to tracebacks (81-84), the color, and the time the fading takes. *)
From Coq Require Import String NArith.
From Verif.Lib Require Import Base.
Local Open Scope list_scope.

(* A row of the list. [number]: which message it is, counted from 0. [left]: the time until it is hidden (129), None without time limit, 0 if it is hidden already *)
Record row := { number : nat; left : option N; hide_next : bool }.
(* Newest first; and the number of messages so far *)
Record list_of := { rows : list row; count : nat; callbacks : list nat }.
Definition nothing : list_of := {| rows := []; count := 0; callbacks := [] |}.

(* 72-109: fadeTime. No type means E (61) *)
Definition fade_time (type : string) : N :=
  if String.eqb type "E" then 0 else if String.eqb type "W" then 0 else if String.eqb type "S" then 3000 else if String.eqb type "I" then 3000 else 0.

Definition visible (r : row) : bool := match left r with Some 0%N => false | _ => true end.

Inductive event :=
| Message (type : string) (hide : bool)  (* type "" if none is given; options.alwaysHideAtNewMessage *)
| Click (n : nat)                        (* on the message with this number *)
| Wait (d : N)                           (* milliseconds pass *)
| Reset                                  (* 41-43 *).

Definition wait_row (d : N) (r : row) : row := {| number := number r; left := match left r with Some l => Some (l - d)%N | None => None end; hide_next := hide_next r |}.

(* 53-156 *)
Definition message (type : string) (hide : bool) (s : list_of) : list_of :=
  let type := if String.eqb type "" then "E"%string else type in
  let fade := fade_time type in
  let r := {| number := count s; left := if (0 <? fade)%N then Some fade else None; hide_next := hide |} in
  (* 146-155: the flag of the new row is set after the others have been removed *)
  {| rows := r :: filter (fun r => negb (hide_next r)) (rows s); count := S (count s); callbacks := callbacks s |}.
(* 114-121: only what is visible can be clicked. Simplification: each message has a callback *)
Definition click (n : nat) (s : list_of) : list_of :=
  if existsb (fun r => Nat.eqb (number r) n && visible r) (rows s)
  then {| rows := filter (fun r => negb (Nat.eqb (number r) n)) (rows s); count := count s; callbacks := callbacks s ++ [n] |}
  else s.
Definition step (s : list_of) (e : event) : list_of :=
  match e with
  | Message t h => message t h s
  | Click n => click n s
  | Wait d => {| rows := map (wait_row d) (rows s); count := count s; callbacks := callbacks s |}
  | Reset => {| rows := []; count := count s; callbacks := callbacks s |}
  end.
Definition run (h : list event) : list_of := fold_left step h nothing.
(* What the user sees, from top to bottom *)
Definition seen (s : list_of) : list nat := map number (filter visible (rows s)).
