(* C84: two MIDI bridges with a reliable connection. Every message arrives once and in order; then every transfer is completed, once, and with a bounded number of messages. *)
From Verif.Lib Require Import Base.
From Verif.Model Require Import Midi Bridge.
From Verif.Spec Require Import Bridge.
From Verif.Proofs Require Import BridgeFifo.
From Verif.Props Require Import Bridge.
Local Open Scope list_scope.

(* At any time, not more messages have been sent than one per request and, per transmission started, one start, and one message and one acknowledgement per part *)
Theorem C84_bounded_partial : forall files throws seed ops, reliable files throws seed ops ->
  let log := n_log (f_net (frun files throws seed ops)) in Z.of_nat (length (wire Here log) + length (wire There log)) <= budget log.
Proof. intros files throws seed ops [A [B [C [D [E F]]]]]. exact (fifo_bounded files throws seed ops A B C D E F). Qed.
Print Assumptions C84_bounded_partial.

(* When all messages have arrived, nothing is left over: both sides have forgotten all transmissions *)
Theorem C84_idle_partial : forall files throws seed ops, reliable files throws seed ops -> arrived (frun files throws seed ops) ->
  forall s, b_tx (n_br (f_net (frun files throws seed ops)) s) = [] /\ b_rx (n_br (f_net (frun files throws seed ops)) s) = [].
Proof. intros files throws seed ops [A [B [C [D [E F]]]]] H. exact (fifo_idle files throws seed ops A B C D E F H). Qed.
Print Assumptions C84_idle_partial.

(* Then each transmission started (message with command 2, id and type) has been acknowledged exactly once at the sender, and if it is a file (type 0), reported exactly once at the receiver *)
Theorem C84_once_partial : forall files throws seed ops, reliable files throws seed ops -> arrived (frun files throws seed ops) ->
  let log := n_log (f_net (frun files throws seed ops)) in
  forall s m, In (s, Sysex m) log -> firstn 1 m = [2] ->
    acknowledgements s (firstn 4 (skipn 4 m)) log = 1%nat /\ finishes (other s) (firstn 4 (skipn 4 m)) log = (if bytes_eqb (firstn 1 (skipn 8 m)) [0] then 1%nat else O).
Proof. intros files throws seed ops [A [B [C [D [E F]]]]] H. exact (fifo_once files throws seed ops A B C D E F H). Qed.
Print Assumptions C84_once_partial.

(* Each text sent has been received *)
Theorem C84_sent_partial : forall files throws seed ops, reliable files throws seed ops -> arrived (frun files throws seed ops) ->
  let log := n_log (f_net (frun files throws seed ops)) in
  forall s now path msg size, In (FSend s now path msg size) ops -> msg <> [] -> 1 <= size ->
  exists i path' data, In (other s, RecvFinish i path' data ((Z.of_nat (length msg) + size - 1) / size)) log /\ (clean path -> path' = path) /\ ((forall k, clean (piece size msg k)) -> data = msg) /\
    acknowledgements s i log = 1%nat /\ finishes (other s) i log = 1%nat.
Proof. intros files throws seed ops [A [B [C [D [E F]]]]] H. exact (fifo_sent files throws seed ops A B C D E F H). Qed.
Print Assumptions C84_sent_partial.

(* Each file sent has been received *)
Theorem C84_file_partial : forall files throws seed ops, reliable files throws seed ops -> arrived (frun files throws seed ops) ->
  let log := n_log (f_net (frun files throws seed ops)) in
  forall s now path msg size, In (FFile s now path size) ops -> path <> [] -> 1 <= size -> files s now path = Some msg ->
  exists i path' data, In (other s, RecvFinish i path' data ((Z.of_nat (length msg) + size - 1) / size)) log /\ (clean path -> path' = path) /\ ((forall k, clean (piece size msg k)) -> data = msg) /\
    acknowledgements s i log = 1%nat /\ finishes (other s) i log = 1%nat.
Proof. intros files throws seed ops [A [B [C [D [E F]]]]] H. exact (fifo_file files throws seed ops A B C D E F H). Qed.
Print Assumptions C84_file_partial.

(* Each request has been answered: by the file as the other side had it when the request arrived, or by an error (if the other side does not throw exceptions instead) *)
Theorem C84_request_partial : forall files throws seed ops, reliable files throws seed ops -> arrived (frun files throws seed ops) ->
  let log := n_log (f_net (frun files throws seed ops)) in
  forall s path size, In (FRequest s path size) ops -> clean path -> path <> [] -> 1 <= size < 16777216 ->
  exists now, In (FNext (other s) now) ops /\ match files (other s) now path with
    | Some msg => exists i data, In (s, RecvFinish i path data ((Z.of_nat (length msg) + size - 1) / size)) log /\ ((forall k, clean (piece size msg k)) -> data = msg) /\
        acknowledgements (other s) i log = 1%nat /\ finishes s i log = 1%nat
    | None => throws (other s) now = true \/ In (s, RecvError (err_text NoFile)) log
    end.
Proof. intros files throws seed ops [A [B [C [D [E F]]]]] H. exact (fifo_request files throws seed ops A B C D E F H). Qed.
Print Assumptions C84_request_partial.

(* An empty file is transferred forever: its part 0 is not the last one of 0 parts, so it is acknowledged and the next part is sent, and so on *)
Definition empty_file : side -> Z -> list Z -> option (list Z) := fun s _ _ => match s with Here => Some [] | There => None end.
Fixpoint rounds (n : nat) : list fop := match n with O => [] | S n => FNext There 0 :: FNext Here 0 :: rounds n end.
Theorem C84_empty_refuted : let f := frun empty_file quiet seeds (FFile Here 0 a_py 10 :: FNext There 0 :: rounds 50) in
  (forall t, (started t (n_log (f_net f)) <= 1)%nat) /\ budget (n_log (f_net f)) = 1 /\ (length (wire Here (n_log (f_net f))) + length (wire There (n_log (f_net f))) = 102)%nat /\
  ~ arrived f /\ (forall i p d a, ~ In (There, RecvFinish i p d a) (n_log (f_net f))).
Proof.
  intros f. split; [intros [|]; vm_compute; auto|]. split; [vm_compute; reflexivity|]. split; [vm_compute; reflexivity|]. split.
  - intros A. specialize (A There). vm_compute in A. discriminate.
  - intros i p d a H. assert (existsb (fun e => match snd e with RecvFinish _ _ _ _ => true | _ => false end) (n_log (f_net f)) = true) as Q by (apply existsb_exists; eexists; split; [exact H|reflexivity]).
    vm_compute in Q. discriminate.
Qed.
Print Assumptions C84_empty_refuted.

(* If a message takes more than 5 seconds, the start of another transmission drops the first one: it is never completed although all messages arrive *)
Definition slow : list fop :=
  [FSend Here 0 a_py word 2; FNext There 1; FNext There 2; FSend Here 6000 [98] word 10] ++ map (fun s => FNext s 6001) [Here; There; There; Here; There; Here; Here; There].
Theorem C84_slow_refuted : let f := frun no_files quiet seeds slow in arrived f /\ In (FSend Here 0 a_py word 2) slow /\
  (forall i d a, ~ In (There, RecvFinish i a_py d a) (n_log (f_net f))) /\ (exists i d a, In (There, RecvFinish i [98] d a) (n_log (f_net f))).
Proof.
  intros f. split; [intros [|]; vm_compute; reflexivity|]. split; [left; reflexivity|]. split.
  - intros i d a H. assert (existsb (fun e => match snd e with RecvFinish _ p _ _ => bytes_eqb p a_py | _ => false end) (n_log (f_net f)) = true) as Q by (apply existsb_exists; eexists; split; [exact H|vm_compute; reflexivity]).
    vm_compute in Q. discriminate.
  - exists (number2bytes 501 3), word, 1. vm_compute. tauto.
Qed.
Print Assumptions C84_slow_refuted.

(* A case: a request for a file, a text sent at the same time, and a request for a file which does not exist *)
Definition busy : list fop :=
  [FRequest There a_py 2; FSend There 0 [98] hello 100; FRequest There [99] 5] ++
  flat_map (fun k => [FNext Here k; FNext Here k; FNext There k; FNext There k; FNext There k]) [1; 2; 3; 4; 5; 6].
Definition polite : side -> Z -> bool := fun _ _ => false.
Lemma one_file_short : short_files one_file. Proof. intros [|] now p msg; unfold one_file; [|discriminate]. destruct (bytes_eqb p a_py); intros E; inversion E. reflexivity. Qed.
Example ex_busy : let f := frun one_file polite seeds busy in
  reliable one_file polite seeds busy /\ arrived f /\
  In (There, RecvFinish (number2bytes 500 3) a_py word 3) (n_log (f_net f)) /\ In (Here, RecvFinish (number2bytes 16777215 3) [98] hello 1) (n_log (f_net f)) /\ In (There, RecvError (err_text NoFile)) (n_log (f_net f)) /\
  budget (n_log (f_net f)) = 15 /\ (length (wire Here (n_log (f_net f))) + length (wire There (n_log (f_net f))) = 15)%nat.
Proof.
  intros f. split; [split; [|split; [|split; [|split; [|split]]]]|split; [|split; [|split; [|split; [|split]]]]].
  - intros [|]; cbn; lia.
  - exact one_file_short.
  - intros [|] now p; unfold one_file; [|discriminate]. destruct (bytes_eqb p a_py); discriminate.
  - repeat (apply Forall_cons; [first [exact I|vm_compute; reflexivity]|]). apply Forall_nil.
  - vm_compute. repeat (split; [first [exact I|split; repeat (apply Forall_cons; [reflexivity|]); apply Forall_nil]|]). exact I.
  - intros [|]; vm_compute; discriminate.
  - intros [|]; vm_compute; reflexivity.
  - vm_compute. tauto.
  - vm_compute. tauto.
  - vm_compute. tauto.
  - vm_compute. reflexivity.
  - vm_compute. reflexivity.
Qed.
