(* C36 - C38: independent notions for pedals. *)
From Verif.Lib Require Import Base.
From Verif.Model Require Import Midi Analog.

(* The readings that are evaluated: those more than the frame period after the last evaluated one *)
Fixpoint evaluated (i last : Z) (ops : list (Z * Z)) : list (Z * Z) :=
  match ops with
  | [] => []
  | (t, v) :: ops' => if last + i <? t then (t, v) :: evaluated i t ops' else evaluated i last ops'
  end.

(* The time of the last evaluated reading (0, the start of the clock, if there was none) *)
Definition last_eval (i : Z) (ops : list (Z * Z)) : Z := last (map fst (evaluated i 0 ops)) 0.

Definition lowest (v : Z) (vs : list Z) : Z := fold_left Z.min vs v.
Definition highest (v : Z) (vs : list Z) : Z := fold_left Z.max vs v.

Definition a_sets (ev : list aevent) : list Z := map (fun e => match e with ASet _ v => v end) ev.
Definition a_time (e : aevent) : Z := match e with ASet t _ => t end.
Definition a_val (e : aevent) : Z := match e with ASet _ v => v end.

(* A usable configuration: at most 65536 steps, 14 bit values at most *)
Definition usable (c : aconf) : Prop := 0 < a_steps c <= 65536 /\ 0 <= a_maxv c < 65536 /\ a_tf c = None.
