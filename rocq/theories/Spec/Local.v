(* C39, C40: independent notions. *)
From Verif.Lib Require Import Base.
From Verif.Model Require Import Midi Period Local.

(* C39 *)
Definition sent (ev : list pevent) : list (Z * Z) := flat_map (fun e => match e with PSend t v => [(t, v)] | _ => [] end) ev.
Definition nearest (lo hi v : Z) : Z := Z.max lo (Z.min hi v).
(* the state after a history from the start *)
Definition after (c : pconf) (ops : list pop) : pstate := fst (run (pstep c) (new_pstate c) ops).
(* what one more operation sends *)
Definition sends (c : pconf) (ops : list pop) (o : pop) : list (Z * Z) := sent (snd (pstep c (after c ops) o)).
(* [ops] ends with [quiet], and the operation before [quiet] sent something at [t0], and nothing was sent nor released in [quiet] *)
Definition last_send (c : pconf) (ops quiet : list pop) (t0 : Z) : Prop :=
  exists ops1 o v, ops = ops1 ++ o :: quiet /\ sends c ops1 o = [(t0, v)] /\
    (forall a q b, quiet = a ++ q :: b -> q <> PRelease /\ sends c (ops1 ++ o :: a) q = []).

(* C40 *)
Definition cyclic {A} (l : list A) (k : nat) : list A := match l with [] => [] | d :: _ => [nth (k mod length l) l d] end.
(* what is shown / sent when [k] releases have happened before *)
Definition shown_at (c : rconf) (k : nat) : list revent :=
  map RLed (cyclic (ro_leds c) k) ++ map RText (cyclic (ro_texts c) k) ++ map RBack (cyclic (disp_colors c) k).
Fixpoint expected (c : rconf) (k : nat) (ops : list rop) : list revent :=
  match ops with
  | [] => []
  | RPush :: ops' => map RSend (cyclic (ro_msgs c) k) ++ expected c k ops'
  | RRelease :: ops' => map RSend (cyclic (ro_rel c) k) ++ shown_at c (S k) ++ expected c (S k) ops'
  | RDraw :: ops' => shown_at c k ++ expected c k ops'
  end.
Definition bytes_sent (ev : list revent) : list (list Z) := flat_map (fun e => match e with RSend b => [b] | _ => [] end) ev.
Definition led_of (ev : list revent) : list Z := flat_map (fun e => match e with RLed c => [c] | _ => [] end) ev.
Definition releases (ops : list rop) : nat := length (filter (fun o => match o with RRelease => true | _ => false end) ops).

(* C39: a value that the message of a parameter can carry: two seven-bit bytes in a system exclusive message, one otherwise *)
Definition fits (sysex : bool) (v : Z) : Prop :=
  if sysex then exists hi lo, 0 <= hi < 128 /\ 0 <= lo < 128 /\ v = 128 * hi + lo else 0 <= v < 128.
