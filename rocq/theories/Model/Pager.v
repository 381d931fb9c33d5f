(* clients/local/actions/pager.py, pager_direct.py *)
From Verif.Lib Require Import Base.
From Verif.Model Require Import Midi.

(* pager.py:23-28: a page. Ids are numbers; a string id stands for a non-zero number (0 and "" are falsy). Colours and texts
   are numbers; a missing colour is white, a missing text is "" (144, 153, 159). *)
Record page := mkPage { pg_id : Z; pg_color : option Z; pg_text : option Z }.
Definition white : Z := 16777215.
Definition color_of (p : page) : Z := match pg_color p with Some c => c | None => white end.
Definition text_of (p : page) : Z := match pg_text p with Some t => t | None => 0 end.

(* pager.py:89-93 _get_page_index *)
Fixpoint page_index (pages : list page) (id : Z) : option nat :=
  match pages with
  | [] => None
  | p :: rest => if pg_id p =? id then Some 0%nat else option_map S (page_index rest id)
  end.

(* pager.py:22-60. [g_sel]: __select_page_index (58). [g_maps]: mappings passed to the constructor. *)
Record pager_cfg := mkPagerCfg { g_pages : list page; g_sel : option nat; g_maps : nat }.
(* pager.py:58: the id is looked up only if it is truthy *)
Definition pager_config (pages : list page) (select_page : option Z) (maps : nat) : pager_cfg :=
  mkPagerCfg pages (match select_page with None => None | Some id => if id =? 0 then None else page_index pages id end) maps.

(* current_page_index (None: -1, not initialised) and current_page_id; [h_switch]: the pager has been assigned to a switch *)
Record pager := mkPager { h_index : option nat; h_id : option Z; h_switch : bool }.
Definition new_pager : pager := mkPager None None false.   (* 56-57 *)

(* What the pager shows: LED colour, brightness setting, label text, label colour; what a proxy shows *)
Inductive level := Normal | On | Off.
Inductive pgevent :=
| GReset                                  (* appl.reset_actions() *)
| GLed (color : Z) (b : level) | GLabel (text color : Z)
| GProxyLed (proxy : nat) (color : Z) (b : level).

(* pager_direct.py:1-50: proxies of the pager in order of creation; [y_index]: page_index (None: unknown page);
   [y_switch]: assigned to a switch *)
Record proxy := mkProxy { y_index : option nat; y_switch : bool }.

Definition id_at (pages : list page) (i : nat) : res (option Z) :=
  match pages with [] => Ok None | _ => match nth_error pages i with Some p => Ok (Some (pg_id p)) | None => Raise end end.

(* pager.py:96-100 init *)
Definition pager_init (c : pager_cfg) : res pager :=
  match id_at (g_pages c) 0 with Ok id => Ok (mkPager (Some 0%nat) id true) | Raise => Raise end.

(* pager_direct.py:31-49 DirectPagerProxy.update_displays; [en]: the proxy is enabled *)
Definition proxy_draw (c : pager_cfg) (s : pager) (k : nat) (y : proxy) (en : bool) : res (list pgevent) :=
  if negb (y_switch y) then Ok []
  else match y_index y with
       | None => Ok []
       | Some i =>
           if negb en then Ok []
           else match nth_error (g_pages c) i with
                | None => Raise
                | Some p => Ok [GProxyLed k (color_of p) (match h_index s with Some j => if (i =? j)%nat then On else Off | None => Off end)]
                end
       end.
Fixpoint proxies_draw (c : pager_cfg) (s : pager) (k : nat) (ys : list proxy) (en : nat -> bool) : res (list pgevent) :=
  match ys with
  | [] => Ok []
  | y :: ys' => match proxy_draw c s k y (en k), proxies_draw c s (S k) ys' en with
                | Ok a, Ok b => Ok (a ++ b)
                | _, _ => Raise
                end
  end.

(* pager.py:124-169 update_displays, with a label that has a background; [en_self], [en]: enabled state of pager and proxies *)
Definition pager_draw (c : pager_cfg) (s : pager) (ys : list proxy) (en_self : bool) (en : nat -> bool) : res (list pgevent) :=
  match g_pages c, h_index s with
  | [], _ => Ok []
  | _, None => Ok []
  | _, Some i =>
      if negb en_self then Ok []
      else match nth_error (g_pages c) i with
           | None => Raise
           | Some cur =>
               match (match g_sel c with
                      | Some j => match nth_error (g_pages c) j with
                                  | None => Raise
                                  | Some p => Ok [GLed (color_of p) (if (j =? i)%nat then On else Off)]
                                  end
                      | None => Ok [GLed (color_of cur) Normal]
                      end),
                     proxies_draw c s 0 ys en with
               | Ok a, Ok b => Ok (a ++ GLabel (text_of cur) (color_of cur) :: b)
               | _, _ => Raise
               end
           end
  end.

(* pager.py:103-122 push. The while loop (116-117) runs at most once. *)
Definition pager_push (c : pager_cfg) (s : pager) (ys : list proxy) (en_self : bool) (en : nat -> bool) : res (pager * list pgevent) :=
  match g_pages c, h_index s with
  | [], _ => Ok (s, [])
  | _, None => Ok (s, [])
  | _, Some i =>
      let j := match g_sel c with
               | Some j => j
               | None => if (length (g_pages c) <=? S i)%nat then 0%nat else S i
               end in
      match id_at (g_pages c) j with
      | Raise => Raise
      | Ok id => let s' := mkPager (Some j) id (h_switch s) in
                 match pager_draw c s' ys en_self en with Ok e => Ok (s', GReset :: e) | Raise => Raise end
      end
  end.

(* pager_direct.py:15-29 push *)
Definition proxy_push (c : pager_cfg) (s : pager) (y : proxy) (ys : list proxy) (en_self : bool) (en : nat -> bool)
  : res (pager * list pgevent) :=
  if negb (h_switch s) then Raise
  else match g_pages c, y_index y with
       | [], _ => Ok (s, [])
       | _, None => Ok (s, [])
       | _, Some j =>
           match id_at (g_pages c) j with
           | Raise => Raise
           | Ok id => let s' := mkPager (Some j) id (h_switch s) in
                      match pager_draw c s' ys en_self en with Ok e => Ok (s', GReset :: e) | Raise => Raise end
           end
       end.

(* The periodic update: PagerAction inherits update from Callback (callbacks/__init__.py:43-45), not from Action, and never runs
   Callback.init, so it raises when mappings were passed and never redraws. *)
Definition pager_update (c : pager_cfg) : res (list pgevent) := match g_maps c with O => Ok [] | S _ => Raise end.

(* pager.py:10-11 enabled *)
Definition attached_enabled (s : pager) (action_id : option Z) : bool :=
  match action_id, h_id s with Some a, Some b => a =? b | None, None => true | _, _ => false end.

(* A history: the pager pushed, the k-th proxy pushed, with the enabled states at that time *)
Inductive pgop := GPush (en_self : bool) (en : nat -> bool) | GProxy (k : nat) (en_self : bool) (en : nat -> bool).
Definition pgstep (c : pager_cfg) (ys : list proxy) (s : pager) (o : pgop) : res (pager * list pgevent) :=
  match o with
  | GPush es en => pager_push c s ys es en
  | GProxy k es en => match nth_error ys k with None => Ok (s, []) | Some y => proxy_push c s y ys es en end
  end.
Fixpoint pgrun (c : pager_cfg) (ys : list proxy) (s : pager) (ops : list pgop) : res (pager * list pgevent) :=
  match ops with
  | [] => Ok (s, [])
  | o :: ops' => match pgstep c ys s o with
                 | Raise => Raise
                 | Ok (s1, e1) => match pgrun c ys s1 ops' with Raise => Raise | Ok (s2, e2) => Ok (s2, e1 ++ e2) end
                 end
  end.
(* pager.py:71-86 proxy(page_id) *)
Definition make_proxy (pages : list page) (id : Z) (assigned : bool) : proxy := mkProxy (page_index pages id) assigned.
