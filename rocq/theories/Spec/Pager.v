(* C41: independent notions for paging. *)
From Verif.Lib Require Import Base.
From Verif.Model Require Import Midi Pager.

(* A pager as a user sets it up: pages, the page its own switch selects (if any), and the pages its proxies select *)
Definition pager_of (pages : list page) (select_page : option Z) : pager_cfg := pager_config pages select_page 0.
Definition proxies_of (pages : list page) (ids : list (Z * bool)) : list proxy := map (fun x => make_proxy pages (fst x) (snd x)) ids.
Definition history (pages : list page) (sel : option Z) (ids : list (Z * bool)) (ops : list pgop) (s : pager) : Prop :=
  exists s0 ev, pager_init (pager_of pages sel) = Ok s0 /\ pgrun (pager_of pages sel) (proxies_of pages ids) s0 ops = Ok (s, ev).
(* the current page *)
Definition current_page (pages : list page) (s : pager) (i : nat) (p : page) : Prop :=
  h_index s = Some i /\ nth_error pages i = Some p /\ h_id s = Some (pg_id p).
Definition is_push (o : pgop) : Prop := match o with GPush _ _ => True | _ => False end.
(* the first page with an id *)
Definition first_with (pages : list page) (id : Z) (i : nat) : Prop :=
  (exists p, nth_error pages i = Some p /\ pg_id p = id) /\ forall j p, (j < i)%nat -> nth_error pages j = Some p -> pg_id p <> id.
