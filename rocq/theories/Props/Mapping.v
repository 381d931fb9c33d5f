(* C01 - C04: parameter mappings. *)
From Coq Require Import String.
From Verif.Lib Require Import Base.
From Verif.Model Require Import Midi Mapping.
From Verif.Spec Require Import Mapping.
From Verif.Proofs Require Import Mapping.

(* ---- C01 ---- *)

(* Setting 0..16383 produces one message: template manufacturer, first six data bytes, two 7-bit value bytes;
   and every numeric mapping answering to that address decodes exactly the value. *)
Theorem C01_round_trip : forall m man d v,
  typ m = Numeric -> set_t m = TOne (SysEx man d) -> (6 <= length d <= 8)%nat ->
  Forall (fun b => 0 <= b <= 255) d -> 0 <= v <= 16383 ->
  exists hi lo m',
    set_value m (One v) = (m', true) /\ wire (set_t m') = [SysEx man (firstn 6 d ++ [hi; lo])] /\
    data_byte hi /\ data_byte lo /\
    (forall r rd, two_part r = false -> typ r = Numeric -> response_t r = TOne (SysEx man rd) ->
        firstn 4 (skipn 2 rd) = firstn 4 (skipn 2 d) ->
        exists r', parse r (SysEx man (firstn 6 d ++ [hi; lo])) = Ok (r', true)
                   /\ val r' = Some (VNum v) /\ same_but_value r r').
Proof. exact round_trip. Qed.
Print Assumptions C01_round_trip.

(* Outside 0..32767 the set raises and the message is untouched; 16384..32767 yields a non-MIDI byte. *)
Theorem C01_range : forall m man d v,
  typ m = Numeric -> set_t m = TOne (SysEx man d) -> (6 <= length d <= 8)%nat ->
  Forall (fun b => 0 <= b <= 255) d ->
  (~ (0 <= v <= 32767) -> set_value m (One v) = (m, false)) /\
  (16384 <= v <= 32767 -> exists hi lo m', set_value m (One v) = (m', true) /\
     wire (set_t m') = [SysEx man (firstn 6 d ++ [hi; lo])] /\ ~ data_byte hi).
Proof. exact set_value_range. Qed.
Print Assumptions C01_range.

Definition nrpn_set : mapping :=
  mkMapping "Gain" (TOne (SysEx [0;32;51] [2;127;1;0;10;4;0;0])) TNone
            (TOne (SysEx [0;32;51] [2;127;1;0;10;4])) None Numeric None false None.
Example C01_ex :
  typ nrpn_set = Numeric /\ set_t nrpn_set = TOne (SysEx [0;32;51] [2;127;1;0;10;4;0;0]) /\
  set_value nrpn_set (One 12345) =
    (with_set nrpn_set (TOne (SysEx [0;32;51] [2;127;1;0;10;4;96;57])), true) /\
  parse nrpn_set (SysEx [0;32;51] [2;127;1;0;10;4;96;57]) = Ok (with_val nrpn_set (Some (VNum 12345)), true).
Proof. repeat split. Qed.

(* ---- C02 ---- *)

(* A message updates a mapping iff it is addressed to it; then the value is what the message carries and
   nothing else changes; otherwise nothing changes at all and it is reported as unused. *)
Theorem C02_addressed_only : forall m r x,
  two_part m = false -> response_t m = TOne r -> proper_template r ->
  (addressed x r ->
     exists v m', carries (typ m) x v /\ parse m x = Ok (m', true) /\ val m' = Some v /\ same_but_value m m') /\
  (~ addressed x r -> parse m x = Ok (m, false)).
Proof. exact plain_parse_exact. Qed.
Print Assumptions C02_addressed_only.

(* The carried value is unique, so the theorem above determines the stored value. *)
Theorem C02_value_unique : forall t x v v', carries t x v -> carries t x v' -> v = v'.
Proof. exact carries_fun. Qed.
Print Assumptions C02_value_unique.

(* A mapping without (message) response never takes a value. *)
Theorem C02_no_response : forall m x,
  two_part m = false -> (forall r, response_t m <> TOne r) -> parse m x = Ok (m, false).
Proof. exact nonmsg_response_never_parses. Qed.
Print Assumptions C02_no_response.

Example C02_ex :
  two_part nrpn_set = false /\ response_t nrpn_set = TOne (SysEx [0;32;51] [2;127;1;0;10;4]) /\
  proper_template (SysEx [0;32;51] [2;127;1;0;10;4]) /\
  addressed (SysEx [0;32;51] [0;0;1;0;10;4;1;2]) (SysEx [0;32;51] [2;127;1;0;10;4]) /\
  ~ addressed (SysEx [0;32;51] [0;0;1;0;10;5;1;2]) (SysEx [0;32;51] [2;127;1;0;10;4]).
Proof. repeat split; [cbn; lia | constructor; reflexivity | intros H; inversion H; discriminate]. Qed.

(* Finding: a SysEx that stops right after the address carries no value at all, yet it sets one: the last two
   address bytes. "Carries a value" here means at least two bytes follow the six address bytes. *)
Theorem C02_truncated_message_refuted :
  exists m x, two_part m = false /\ typ m = Numeric /\
    (exists man addr, x = SysEx man addr /\ length addr = 6%nat) /\
    parse m x = Ok (with_val m (Some (VNum (10 * 128 + 4))), true).
Proof.
  exists nrpn_set, (SysEx [0;32;51] [0;0;1;0;10;4]).
  exact (conj eq_refl (conj eq_refl (conj (ex_intro _ [0;32;51] (ex_intro _ [0;0;1;0;10;4] (conj eq_refl eq_refl))) eq_refl))).
Qed.
Print Assumptions C02_truncated_message_refuted.

(* ---- C03 ---- *)

(* After any message history a program change publishes 128*c+p iff an unconsumed bank select c is pending
   (the latest one), otherwise it is ignored; bank selects only become pending (no value is published); nothing
   else has an effect. Listeners may be notified (result_finished) exactly when nothing is pending. *)
Theorem C03_two_part : forall b m h m1 x,
  rig_like b m -> value_1 m = None -> feed m h m1 ->
  (forall c, pending_bank b h c -> result_finished m1 = false) /\
  ((forall c, ~ pending_bank b h c) -> result_finished m1 = true) /\
  match x with
  | PC p =>
      (forall c, pending_bank b h c ->
         exists m2, parse m1 x = Ok (m2, true) /\ val m2 = Some (VNum (128 * c + p)) /\ result_finished m2 = true) /\
      ((forall c, ~ pending_bank b h c) -> parse m1 x = Ok (m1, false))
  | CC c v =>
      (c = b -> exists m2, parse m1 x = Ok (m2, true) /\ val m2 = val m1 /\ result_finished m2 = false) /\
      (c <> b -> parse m1 x = Ok (m1, false))
  | _ => parse m1 x = Ok (m1, false)
  end.
Proof. exact two_part_step. Qed.
Print Assumptions C03_two_part.

(* Every message history can be fed (no message makes it raise). *)
Theorem C03_total : forall b m h, rig_like b m -> value_1 m = None -> exists m1, feed m h m1.
Proof. exact feed_total. Qed.
Print Assumptions C03_total.

(* kemper/__init__.py:537-549 RIG_ID *)
Definition rig_id : mapping :=
  mkMapping "Rig ID" TNone TNone (TMany [Some (CC 32 0); Some (PC 0)]) None Numeric None true None.
Example C03_ex :
  rig_like 32 rig_id /\ value_1 rig_id = None /\
  pending_bank 32 [PC 3; CC 32 1; CC 7 9; CC 32 2; CC 50 1] 2.
Proof.
  split; [split; [reflexivity|exists 0, 0; reflexivity]|]. split; [reflexivity|].
  exists [PC 3; CC 32 1; CC 7 9], [CC 50 1]. split; [reflexivity|].
  constructor; [|constructor]. split; intros (q & H); discriminate.
Qed.

(* ---- C04 ---- *)

(* Over any history of requests for mappings (both kinds, any arguments): two answered requests yield the same
   object iff they used the same name. *)
Theorem C04_unique_per_name : forall ops n i n' j,
  In (n, Some i) (snd (run get_step [] ops)) -> In (n', Some j) (snd (run get_step [] ops)) ->
  (n = n' <-> i = j).
Proof. exact run_get_same. Qed.
Print Assumptions C04_unique_per_name.

(* The first request for a name creates an object from exactly its arguments ... *)
Theorem C04_first_request_creates : forall ops a,
  (forall i, ~ In (g_name a, Some i) (snd (run get_step [] ops))) ->
  (g_two_part a = true \/ g_name a <> ""%string) ->
  exists i, snd (run get_step [] (ops ++ [a])) = snd (run get_step [] ops) ++ [(g_name a, Some i)] /\
            nth_error (fst (run get_step [] (ops ++ [a]))) i = Some (new_mapping a).
Proof. exact run_get_first. Qed.
Print Assumptions C04_first_request_creates.

(* ... and no later request changes it. *)
Theorem C04_never_changed : forall ops more i m,
  nth_error (fst (run get_step [] ops)) i = Some m ->
  nth_error (fst (run get_step [] (ops ++ more))) i = Some m.
Proof. exact run_get_stable. Qed.
Print Assumptions C04_never_changed.

Definition args (tp : bool) (n : string) : get_args := mkArgs tp n TNone TNone (TOne (CC 1 0)) None Numeric None.
Example C04_ex :
  snd (run get_step [] [args false "a"; args false "b"; args true "a"; args false ""]) =
  [("a", Some 0%nat); ("b", Some 1%nat); ("a", Some 0%nat); (""%string, None)]%string.
Proof. reflexivity. Qed.

(* Finding: the two factories share one name space, so asking for a two-part mapping may yield an object of the
   other class (and the other way round), which then parses differently (or raises). *)
Theorem C04_kind_by_name_refuted :
  exists ops a i m, g_two_part a = true /\
    snd (run get_step [] (ops ++ [a])) = snd (run get_step [] ops) ++ [(g_name a, Some i)] /\
    nth_error (fst (run get_step [] (ops ++ [a]))) i = Some m /\ two_part m = false.
Proof.
  exists [args false "a"], (args true "a"), 0%nat, (new_mapping (args false "a")).
  exact (conj eq_refl (conj eq_refl (conj eq_refl eq_refl))).
Qed.
Print Assumptions C04_kind_by_name_refuted.
