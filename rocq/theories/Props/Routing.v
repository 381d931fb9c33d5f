(* C16 - C18: MIDI routing. *)
From Verif.Lib Require Import Base.
From Verif.Model Require Import Midi Routing.
From Verif.Spec Require Import Routing.
From Verif.Proofs Require Import Routing.
Open Scope nat_scope.

(* Two external routings from device 0 (a keyboard) to 1 and 2, one from 1 to 2, the application connected to 3 and 4. *)
Definition ex_rs : list routing :=
  [ mkRouting (Dev 3) App; mkRouting (Dev 0) (Dev 2); mkRouting App (Dev 3); mkRouting (Dev 0) (Dev 1); mkRouting (Dev 1) (Dev 2);
    mkRouting (Dev 4) App; mkRouting App (Dev 4) ].
Definition ex_inp : input := fun d k =>
  match d, k with
  | 0, 0 => Some (CC 1 1) | 0, 1 => Some (UnknownMsg 9) | 0, 2 => Some (PC 5)
  | 1, 1 => Some (OtherMsg (Some 144%Z)) | 1, 2 => Some (OtherMsg None)
  | 3, 1 => Some (PC 7)
  | 4, 0 => Some (PC 8) | 4, 1 => Some (PC 9)
  | _, _ => None
  end.
Example ex_sane : sane ex_rs.
Proof. intros r Hr [H1 H2]. repeat (destruct Hr as [<-|Hr]; [discriminate|]). destruct Hr. Qed.

(* ---- C16 ---- *)

(* A message sent by the application is handed to the target of each application routing, in their order. *)
Theorem C16_send_exact : forall rs m, sane rs ->
  midi_send rs m = Ok (flat_map (fun r => match source r, target r with App, Dev d => [(d, m)] | _, _ => [] end) rs).
Proof. exact send_exact. Qed.
Print Assumptions C16_send_exact.
Example C16_ex : midi_send ex_rs (PC 1) = Ok [(3, PC 1); (4, PC 1)].
Proof. reflexivity. Qed.

(* ---- C17 ---- *)

(* One poll: every distinct external source is read once, then what may be forwarded is handed to the target of each
   external routing in order, then the application sources are read until one has a message, which is returned. *)
Theorem C17_poll_exact : forall rs inp pos p x ev, midi_receive rs inp pos = Ok (p, x, ev) ->
  exists ds e_app, NoDup ds /\ (forall d, In d ds <-> is_ext_source rs d) /\
    ev = map (fun d => RRead true d (inp d (pos d))) ds ++ forward_all rs inp pos ++ e_app /\
    (exists ds1 rest, appl_sources rs = ds1 ++ rest /\
      ((x = None /\ rest = [] /\ e_app = map (fun d => RRead false d None) ds1) \/
       (exists d m rest', rest = d :: rest' /\ x = Some m /\ e_app = map (fun d => RRead false d None) ds1 ++ [RRead false d (Some m); RDeliver m]))) /\
    forall k, pos k <= p k /\ reads_of k ev = window inp k (pos k) (p k - pos k).
Proof. exact poll_spec. Qed.
Print Assumptions C17_poll_exact.

(* Any number of polls never raises. *)
Theorem C17_total : forall n rs inp, sane rs -> forall pos, polls n rs inp pos <> Raise.
Proof. exact polls_total. Qed.
Print Assumptions C17_total.

(* Over any number of polls, no read of a device is skipped, repeated or reordered. *)
Theorem C17_streams : forall n rs inp pos p evss k, polls n rs inp pos = Ok (p, evss) ->
  pos k <= p k /\ reads_of k (concat evss) = window inp k (pos k) (p k - pos k).
Proof. exact polls_streams. Qed.
Print Assumptions C17_streams.

(* What target [t] gets from source [s] is exactly the forwardable messages read from [s] by the external routings, in
   order, once per routing from [s] to [t]; what the application gets is exactly the messages read for it. *)
Theorem C17_forwarded_once : forall n rs inp s t pos p evss, polls n rs inp pos = Ok (p, evss) ->
  sends_of s t (concat evss) = flat_map (fun m => repeat m (routes rs s t)) (passing (ext_reads_of s (concat evss))) /\
  delivered (concat evss) = messages (app_reads (concat evss)).
Proof. exact polls_sends. Qed.
Print Assumptions C17_forwarded_once.

Theorem C17_each_source_once_per_poll : forall n rs inp s pos p evss, polls n rs inp pos = Ok (p, evss) ->
  length evss = n /\
  (is_ext_source rs s -> Forall (fun ev => length (ext_reads_of s ev) = 1) evss) /\
  (~ is_ext_source rs s -> Forall (fun ev => ext_reads_of s ev = []) evss).
Proof. exact polls_ext_once. Qed.
Print Assumptions C17_each_source_once_per_poll.

(* So for a device used by external routings only, n polls forward exactly its first n reads. *)
Theorem C17_external_exact : forall n rs inp pos p evss s t, polls n rs inp pos = Ok (p, evss) -> is_ext_source rs s -> ~ is_app_source rs s ->
  sends_of s t (concat evss) = flat_map (fun m => repeat m (routes rs s t)) (passing (window inp s (pos s) n)).
Proof. exact external_exact. Qed.
Print Assumptions C17_external_exact.

(* An observation: an application source that always has a message keeps all application sources after it from being read. *)
Theorem C17_later_sources_starve : forall n rs inp d e rest, appl_sources rs = d :: rest -> e <> d -> ~ is_ext_source rs e -> (forall k, inp d k <> None) ->
  forall pos p evss, polls n rs inp pos = Ok (p, evss) -> reads_of e (concat evss) = [].
Proof. exact starves. Qed.
Print Assumptions C17_later_sources_starve.

Example C17_ex : exists p evss, polls 3 ex_rs ex_inp (fun _ => 0) = Ok (p, evss) /\
  sends_of 0 1 (concat evss) = [CC 1 1; PC 5] /\ sends_of 0 2 (concat evss) = [CC 1 1; PC 5] /\ sends_of 1 2 (concat evss) = [OtherMsg (Some 144%Z)] /\
  delivered (concat evss) = [PC 8; PC 7; PC 9].
Proof. eexists _, _. split; [vm_compute; reflexivity|]. vm_compute. auto. Qed.
Example C17_ex_sources : is_ext_source ex_rs 0 /\ ~ is_app_source ex_rs 0 /\ appl_sources ex_rs = [3; 4] /\ ~ is_ext_source ex_rs 4.
Proof.
  split; [exists (mkRouting (Dev 0) (Dev 1)), 1; cbn; auto 10|]. split; [|split; [reflexivity|]].
  - intros (r & Hr & H1 & H2). repeat (destruct Hr as [<-|Hr]; [discriminate|]). destruct Hr.
  - intros (r & t & Hr & H1 & H2). repeat (destruct Hr as [<-|Hr]; [discriminate|]). destruct Hr.
Qed.

(* ---- C18 ---- *)

(* Finding: false. The device is read once for the external routing and once more for the application, so each message
   reaches only one of them: of n polls, the target gets messages 0, 2, 4, ... and the application 1, 3, 5, ... *)
Theorem C18_shared_source_refuted : exists rs inp, sane rs /\ is_ext_source rs 0 /\ is_app_source rs 0 /\
  forall n pos p evss, polls n rs inp pos = Ok (p, evss) ->
  sends_to 1 (concat evss) = map (fun i => CC (Z.of_nat (pos 0 + 2 * i)) 0) (seq 0 n) /\
  delivered (concat evss) = map (fun i => CC (Z.of_nat (pos 0 + 2 * i + 1)) 0) (seq 0 n).
Proof. exact shared_splits_ex. Qed.
Print Assumptions C18_shared_source_refuted.

(* What holds instead: nothing is lost or duplicated either. Every message read from a device is read for exactly one of the
   two, in stream order, and reaches it (full statement: it should reach both). *)
Theorem C18_shared_source_partial : forall n rs inp pos p evss s t, polls n rs inp pos = Ok (p, evss) ->
  reads_of s (concat evss) = window inp s (pos s) (p s - pos s) /\
  sends_of s t (concat evss) = flat_map (fun m => repeat m (routes rs s t)) (passing (ext_reads_of s (concat evss))) /\
  delivered (concat evss) = messages (app_reads (concat evss)).
Proof. intros n rs inp pos p evss s t H. split; [eapply polls_streams; eauto|]. eapply polls_sends; eauto. Qed.
Print Assumptions C18_shared_source_partial.

Example C18_ex : exists p evss, polls 3 shared_rs shared_inp (fun _ => 0) = Ok (p, evss) /\
  sends_to 1 (concat evss) = [CC 0 0; CC 2 0; CC 4 0] /\ delivered (concat evss) = [CC 1 0; CC 3 0; CC 5 0].
Proof. eexists _, _. split; [vm_compute; reflexivity|]. vm_compute. auto. Qed.
