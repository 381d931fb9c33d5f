(* C49, C50, C51: MIDI on the wire, as the MIDI 1.0 standard defines it. *)
From Verif.Lib Require Import Base.
From Verif.Model Require Import Codec.

Definition seven_bit (b : Z) : Prop := 0 <= b <= 127.
Definition a_channel (c : Z) : Prop := 0 <= c <= 15.

(* Well formed messages: 7-bit fields; a manufacturer id is one non-zero byte, or three bytes starting with 0 *)
Definition valid (m : wmsg) : Prop :=
  match m with
  | WCC ch c v => a_channel ch /\ seven_bit c /\ seven_bit v
  | WPC ch p => a_channel ch /\ seven_bit p
  | WSysEx man data =>
      ((exists x, man = [x] /\ x <> 0) \/ (exists x y, man = [0; x; y])) /\ Forall seven_bit man /\ Forall seven_bit data
  | WUnknown _ | WBad _ => False
  end.

(* The bytes of a message *)
Definition wire (m : wmsg) : list Z :=
  match m with
  | WCC ch c v => [0xB0 + ch; c; v]
  | WPC ch p => [0xC0 + ch; p]
  | WSysEx man data => [0xF0] ++ man ++ data ++ [0xF7]
  | WUnknown _ | WBad _ => []
  end.
Definition wires (ms : list wmsg) : list Z := flat_map wire ms.
Definition is_sysex_msg (m : wmsg) : bool := match m with WSysEx _ _ => true | _ => false end.

(* The receiver listens to some channels; System Exclusive has no channel *)
Definition accepted (chans : list Z) (m : wmsg) : bool :=
  match m with WCC ch _ _ | WPC ch _ => existsb (Z.eqb ch) chans | _ => true end.
Definition all_channels : list Z := [0;1;2;3;4;5;6;7;8;9;10;11;12;13;14;15].

(* The message as it arrives: with the channel of the sending device *)
Definition on_channel (ch : Z) (m : wmsg) : wmsg :=
  match m with WCC _ c v => WCC ch c v | WPC _ p => WPC ch p | _ => m end.

(* The messages a sequence of calls returned *)
Fixpoint messages (rs : list (option wmsg)) : list wmsg :=
  match rs with [] => [] | Some m :: rs' => m :: messages rs' | None :: rs' => messages rs' end.
Definition received (chans : list Z) (chunks : list (list Z)) : list wmsg := messages (snd (receive_all chans [] chunks)).

(* After reading k bytes of the stream carrying ms, the reader does not stand in the middle of a System Exclusive message *)
Definition outside_sysex (ms : list wmsg) (k : nat) : Prop :=
  forall ms1 man data ms2, ms = ms1 ++ WSysEx man data :: ms2 ->
  (k <= length (wires ms1) \/ length (wires (ms1 ++ [WSysEx man data])) <= k)%nat.

(* The beginning of a control change or program change message (with any data bytes) that is not complete yet *)
Definition incomplete_tail (t : list Z) : Prop :=
  (exists st, t = [st] /\ 0xB0 <= st <= 0xCF) \/ (exists st c, t = [st; c] /\ 0xB0 <= st <= 0xBF).

(* A data byte of the stream; and how a message returned by the decoder appears in the stream: control change, program change and system
   exclusive as on the wire - except that a system exclusive message too short for a manufacturer id gets the end status in its id -,
   an unknown status byte alone, a bad event the bytes of a control or program change with a status byte among its data bytes. *)
Definition data (b : Z) : Prop := b < 128.
Definition appears_as (w : list Z) (m : wmsg) : Prop :=
  match m with
  | WUnknown st => w = [st] /\ 128 <= st /\ ~ (0xB0 <= st <= 0xCF) /\ st <> 0xF0
  | WBad bs => w = bs /\ exists st d, bs = st :: d /\ 0xB0 <= st <= 0xCF /\ exists b, In b d /\ ~ seven_bit b
  | WSysEx man ds => exists body, w = [0xF0] ++ body ++ [0xF7] /\ Forall data body /\
      ((body = man ++ ds /\ (length man = 1%nat \/ length man = 3%nat)) \/ ((length body <= 2)%nat /\ ds = [] /\ man = body ++ [0xF7]))
  | _ => w = wire m /\ valid m
  end.
