(* C69: the imports of a saved configuration. *)
From Verif.Lib Require Import Base.
From Verif.Model Require Import Imports.
From Verif.Spec Require Import Imports.
From Verif.Proofs Require Imports.
From Coq Require Import String Permutation.
Local Open Scope string_scope.
Local Open Scope list_scope.

(* Saving changes nothing but imports, on all levels of the file. *)
Theorem C69_code_kept : forall avail f f', to_source avail f f' -> code f' = code f.
Proof. exact Imports.statements_kept. Qed.
Print Assumptions C69_code_kept.

(* The imports of the saved file come from the file or are available ones; each name is imported once in the whole file, and used in it. *)
Theorem C69_only_used : forall avail f f', loaded f -> to_source avail f f' ->
  (forall p n x, In (p, n, x) (imports f') -> In (p, n, x) (imports f) \/ (In (p, n) avail /\ x = n)) /\
  NoDup (map snd (imports f')) /\ (forall x, In x (map snd (imports f')) -> In x (mentioned f')).
Proof. exact Imports.only_used. Qed.
Print Assumptions C69_only_used.

(* If the file starts with a simple line and has imports on module level only, every name it uses and that it imports or that is
   available is imported on module level in the saved file. *)
Theorem C69_imported : forall avail f f' x, loaded f -> starts_simple f -> flat_imports f -> to_source avail f f' ->
  needs f x -> (exists p n, candidate avail f p n x) -> exists p n, In (p, n, x) (top_imports f') /\ candidate avail f p n x.
Proof. intros. eapply Imports.imported; eauto using Imports.needs_uses. Qed.
Print Assumptions C69_imported.

(* It is the right one, if there is only one to choose from. *)
Theorem C69_imported_from : forall avail f f' x p n, loaded f -> starts_simple f -> flat_imports f -> to_source avail f f' ->
  needs f x -> candidate avail f p n x -> (forall p' n', candidate avail f p' n' x -> p' = p /\ n' = n) ->
  In (p, n, x) (top_imports f').
Proof. intros. eapply Imports.imported_from; eauto using Imports.needs_uses. Qed.
Print Assumptions C69_imported_from.

(* ---- examples ---- *)
Definition ex_avail : list (string * string) := [("pyswitch.colors", "Colors"); ("actions.tap", "TAP_TEMPO"); ("actions.tuner", "TUNER_MODE")].
Definition ex_file : list item :=
  [IImport (false, 0%nat) "pyswitch.colors" [("Colors", "Colors"); ("dim_color", "dim")];
   ILine [] [];
   IBlock [] [ILine ["a"] ["Colors"]];
   ILine ["Inputs"] ["TAP_TEMPO"; "PagerAction"]].
Definition ex_saved : list item :=
  [IImport (true, 0%nat) "pyswitch.colors" [("Colors", "Colors")]; IImport (true, 1%nat) "actions.tap" [("TAP_TEMPO", "TAP_TEMPO")];
   ILine [] []; IBlock [] [ILine ["a"] ["Colors"]]; ILine ["Inputs"] ["TAP_TEMPO"; "PagerAction"]].
Example C69_ex : loaded ex_file /\ starts_simple ex_file /\ flat_imports ex_file /\ to_source ex_avail ex_file ex_saved /\
  needs ex_file "TAP_TEMPO" /\ candidate ex_avail ex_file "actions.tap" "TAP_TEMPO" "TAP_TEMPO".
Proof.
  split; [|split; [|split; [|split; [|split]]]].
  - split; [repeat constructor; cbn; tauto|]. split; [cbn; intros i [<-|[]]; reflexivity|]. repeat constructor; cbn; intuition discriminate.
  - eexists _, _. split; [reflexivity|discriminate].
  - intros u b [H|[H|[H|[H|[]]]]]; try discriminate. injection H as <- <-. reflexivity.
  - eexists. split; [apply Permutation_refl|]. reflexivity.
  - exists (ILine ["Inputs"] ["TAP_TEMPO"; "PagerAction"]). split; [cbn; tauto|constructor; cbn; tauto].
  - right. split; [cbn; tauto|reflexivity].
Qed.

Example C69_ex_inner : needs ex_file "Colors" /\ ~ needs [IBlock [] [ILine ["Colors"] []; ILine [] ["Colors"]]] "Colors".
Proof.
  split.
  - exists (IBlock [] [ILine ["a"] ["Colors"]]). split; [cbn; tauto|]. eapply refers_inner; [left; reflexivity|constructor; left; reflexivity|].
    intros t [<-|[]]. cbn. intuition discriminate.
  - intros H. apply Imports.needs_uses in H. exact H.
Qed.

(* ---- findings ---- *)

(* an import of the same name in a function can take the place of the one on module level: the saved file does not run *)
Theorem C69_function_import_refuted : exists avail f f' x, loaded f /\ starts_simple f /\ to_source avail f f' /\
  needs f x /\ (exists p, In (p, x, x) (top_imports f)) /\ forall p n, ~ In (p, n, x) (top_imports f').
Proof.
  exists [], [IImport (false, 0%nat) "a" [("X", "X")]; IBlock [] [IImport (false, 1%nat) "a" [("X", "X")]; ILine [] ["X"]]; ILine [] ["X"]].
  eexists. exists "X". split; [|split; [|split; [|split; [|split]]]].
  - split; [repeat constructor; cbn; intuition discriminate|]. split; [cbn; intros i [<-|[<-|[]]]; reflexivity|]. repeat constructor; cbn; intuition discriminate.
  - eexists _, _. split; [reflexivity|discriminate].
  - exists [((false, 1%nat), "X", true); ((false, 0%nat), "X", true)]. split; [apply perm_swap|reflexivity].
  - exists (ILine [] ["X"]). split; [cbn; tauto|constructor; cbn; tauto].
  - exists "a". left. reflexivity.
  - intros p n H. cbn in H. exact H.
Qed.
Print Assumptions C69_function_import_refuted.

(* a file starting with a function: the available imports are added in the function, the file does not run *)
Theorem C69_function_first_refuted : exists avail f f' x, loaded f /\ flat_imports f /\ to_source avail f f' /\
  needs f x /\ (exists p, candidate avail f p x x) /\ forall p n, ~ In (p, n, x) (top_imports f').
Proof.
  exists [("a", "X")], [IBlock [] [ILine [] []]; ILine [] ["X"]]. eexists. exists "X". split; [|split; [|split; [|split; [|split]]]].
  - split; [constructor|]. split; [intros i []|]. repeat constructor.
  - intros u b [[= <- <-]|[H|[]]]; [reflexivity|discriminate].
  - eexists. split; [apply Permutation_refl|reflexivity].
  - exists (ILine [] ["X"]). split; [cbn; tauto|constructor; cbn; tauto].
  - exists "a". right. split; [left; reflexivity|reflexivity].
  - intros p n H. cbn in H. exact H.
Qed.
Print Assumptions C69_function_first_refuted.

(* an import of the user's own definition can be replaced by an available one of the same name *)
Theorem C69_own_import_refuted : exists avail f f' x p p', loaded f /\ starts_simple f /\ flat_imports f /\ to_source avail f f' /\
  p <> p' /\ needs f x /\ top_imports f = [(p, x, x)] /\ top_imports f' = [(p', x, x)].
Proof.
  exists [("pyswitch.colors", "Colors")], [IImport (false, 0%nat) "my_colors" [("Colors", "Colors")]; ILine [] ["Colors"]].
  eexists. exists "Colors", "my_colors", "pyswitch.colors". split; [|split; [|split; [|split; [|split; [|split; [|split]]]]]].
  - split; [repeat constructor; cbn; tauto|]. split; [cbn; intros i [<-|[]]; reflexivity|]. repeat constructor; cbn; tauto.
  - eexists _, _. split; [reflexivity|discriminate].
  - intros u b [H|[H|[]]]; discriminate.
  - eexists. split; [apply Permutation_refl|reflexivity].
  - discriminate.
  - exists (ILine [] ["Colors"]). split; [cbn; tauto|constructor; cbn; tauto].
  - reflexivity.
  - reflexivity.
Qed.
Print Assumptions C69_own_import_refuted.
