(* C110: which messages the user has to see. *)
From Coq Require Import String NArith.
From Verif.Lib Require Import Base.
From Verif.Model Require Import Notices.
Local Open Scope list_scope.

(* Messages are numbered from 0, in the order they come *)
Fixpoint messages (h : list event) : nat := match h with [] => 0 | Message _ _ :: h => S (messages h) | _ :: h => messages h end.
(* The time which passes *)
Fixpoint time (h : list event) : N := match h with [] => 0 | Wait d :: h => d + time h | _ :: h => time h end.
(* Infos and success messages are shown for a while only *)
Definition brief (type : string) : Prop := type = "S"%string \/ type = "I"%string.
(* A message n is still there after h: it has not been clicked, the list has not been cleared, no newer message has come if it is to make room, and brief messages are younger than 3 seconds *)
Definition stays (n : nat) (type : string) (hide : bool) (h : list event) : Prop :=
  ~ In (Click n) h /\ ~ In Reset h /\ (hide = true -> messages h = 0%nat) /\ (brief type -> (time h < 3000)%N).
Fixpoint newest_first (l : list nat) : Prop := match l with [] => True | x :: r => Forall (fun y => (y < x)%nat) r /\ newest_first r end.
