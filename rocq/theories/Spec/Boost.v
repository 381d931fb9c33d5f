(* What a user expects of the volume boost. *)
From Verif.Lib Require Import Base.
From Verif.Model Require Import Period PushButton BinaryCb Boost.
Open Scope Z_scope.
Local Open Scope list_scope.

(* Nobody else changes the volume, and no other rig is chosen *)
Definition undisturbed (h : list op) : Prop := forall v, ~ In (Rig v) h.
(* PySwitch knows the volume of the rig: the last answer was v, no answers are on their way, and it is the volume of the rig *)
Definition up_to_date (s : sys) (v : Z) : Prop := t_known s = Some v /\ t_wire s = [] /\ t_vol s = v.
(* What the user has switched last, since there have been n commands *)
Definition switched (n : nat) (s : sys) : option bool := match rev (skipn n (t_cmds s)) with [] => None | b :: _ => Some b end.
(* Is the boost shown as active? *)
Definition lit (s : sys) : bool := b_on (t_cb s).
