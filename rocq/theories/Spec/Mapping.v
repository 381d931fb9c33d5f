(* Independent specification of MIDI addressing and of 14 bit values. *)
From Verif.Lib Require Import Base.
From Verif.Model Require Import Midi Mapping.

(* A MIDI data byte. *)
Definition data_byte (b : Z) : Prop := 0 <= b <= 127.

(* "The message has the kind and the address of the response template". *)
Inductive addressed : msg -> msg -> Prop :=
| addr_cc c v v' : addressed (CC c v) (CC c v')
| addr_pc p p' : addressed (PC p) (PC p')
| addr_sysex man d d' :
    firstn 4 (skipn 2 d) = firstn 4 (skipn 2 d') ->          (* data bytes 2..5 *)
    addressed (SysEx man d) (SysEx man d').

(* The value a message carries for a parameter of the given type. *)
Inductive carries : ptype -> msg -> value -> Prop :=
| car_cc t c v : carries t (CC c v) (VNum v)
| car_pc t p : carries t (PC p) (VNum p)
| car_num man pre hi lo : carries Numeric (SysEx man (pre ++ [hi; lo])) (VNum (128 * hi + lo))
| car_str man addr chars last :                             (* characters, then a final byte *)
    length addr = 6%nat -> carries Str (SysEx man (addr ++ chars ++ [last])) (VStr chars)
| car_str_empty man d : (length d <= 6)%nat -> carries Str (SysEx man d) (VStr []).

(* Everything but the stored value is the same. *)
Definition same_but_value (m m' : mapping) : Prop :=
  name m' = name m /\ set_t m' = set_t m /\ request_t m' = request_t m /\ response_t m' = response_t m /\
  typ m' = typ m /\ depends m' = depends m /\ two_part m' = two_part m /\ value_1 m' = value_1 m.

(* Two-part stream: a bank select CC on controller [b] that has not been consumed by a program change. *)
Definition is_bank (b : Z) (x : msg) : Prop := exists v, x = CC b v.
Definition is_pc (x : msg) : Prop := exists p, x = PC p.
Definition pending_bank (b : Z) (h : list msg) (c : Z) : Prop :=
  exists h1 h2, h = h1 ++ CC b c :: h2 /\ Forall (fun x => ~ is_bank b x /\ ~ is_pc x) h2.

(* A response template long enough to contain (part of) an address; all templates in the code base have 5 or
   more data bytes (kemper/__init__.py:264-310). *)
Definition proper_template (r : msg) : Prop :=
  match r with SysEx _ rd => (3 <= length rd)%nat | _ => True end.

(* A two-part mapping listening to controller [b] and program changes (kemper/__init__.py:537-549). *)
Definition rig_like (b : Z) (m : mapping) : Prop :=
  two_part m = true /\ exists v p, response_t m = TMany [Some (CC b v); Some (PC p)].

(* The mapping after being fed a message history. *)
Inductive feed : mapping -> list msg -> mapping -> Prop :=
| feed_nil m : feed m [] m
| feed_snoc m h m1 x m2 r : feed m h m1 -> parse m1 x = Ok (m2, r) -> feed m (h ++ [x]) m2.
