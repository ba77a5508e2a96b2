(** Model of the two-memory store, doublets/src/mem/split/store.rs, with the walks of
    doublets/src/mem/split/generic/*.rs.  USE_LIST (store.rs:59) is false, so the branches
    it guards are left out; internal_sources_linked_list.rs is in SourceList.v.

    Memory: a slice of [DataPart]s (data_part.rs:3-8) and a slice of [IndexPart]s
    (index_part.rs:3-15).  Column [s_data] holds (source, target); [s_rs]/[s_rt] hold
    root_as_source/root_as_target, [s_is]/[s_it] hold (left,right,size)_as_source/target.
    Slot 0 of the index memory is the header (mem/header.rs) seen through the same columns,
    as by the [transmute] in get_header (store.rs:133-149):
      root_as_source=allocated, left_as_source=reserved, right_as_source=free,
      size_as_source=first_free, root_as_target=header.root_as_source,
      left_as_target=header.root_as_target, right_as_target=last_free,
      size_as_target=__reserved_8.
    [s_dlen]/[s_ilen] are the lengths of the slices data_ptr/index_ptr, [s_dcap] is
    data_mem.allocated().  index_mem.allocated() is always [s_ilen].  If [s_dcap] differs
    from [s_dlen] the data memory has been reallocated behind data_ptr and every access
    through data_ptr is undefined behaviour.  [s_orc] decides the outcome of the following
    attempts to allocate both memories. *)
From Coq Require Import NArith List Bool.
From Verif Require Import Base Trees Lists LinkModel UnitModel.
Import ListNotations.
Open Scope N_scope.

(** Outcome of [data_mem.alloc(..)?] followed by [index_mem.alloc(..)?]. *)
Inductive grown := NoData | NoIndex | Grown.

Record sst := mkS {
  s_dcap : N;
  s_dlen : N;
  s_ilen : N;
  s_orc : nat -> N -> N -> grown;
  s_data : N -> N * N;
  s_rs : N -> N;
  s_is : N -> nd;
  s_rt : N -> N;
  s_it : N -> nd
}.

(** Header field views. *)
Definition sh_alloc (st : sst) := s_rs st 0.
Definition sh_reserved (st : sst) := nl (s_is st 0).
Definition sh_free (st : sst) := nr (s_is st 0).
Definition sh_first (st : sst) := nz (s_is st 0).
Definition sh_sroot (st : sst) := s_rt st 0.
Definition sh_troot (st : sst) := nl (s_it st 0).
Definition sh_last (st : sst) := nr (s_it st 0).

Definition s_set_data (st : sst) d :=
  mkS (s_dcap st) (s_dlen st) (s_ilen st) (s_orc st) d (s_rs st) (s_is st) (s_rt st) (s_it st).
Definition s_set_src (st : sst) r c :=
  mkS (s_dcap st) (s_dlen st) (s_ilen st) (s_orc st) (s_data st) r c (s_rt st) (s_it st).
Definition s_set_tgt (st : sst) r c :=
  mkS (s_dcap st) (s_dlen st) (s_ilen st) (s_orc st) (s_data st) (s_rs st) (s_is st) r c.
Definition s_set_alloc (st : sst) v := s_set_src st (upd (s_rs st) 0 v) (s_is st).
Definition s_set_reserved (st : sst) v :=
  s_set_src st (s_rs st) (upd (s_is st) 0 (mkNd v (sh_free st) (sh_first st))).

(** The free list's view of the header, split/generic/unused_links.rs:38-62. *)
Definition s_lhdr (st : sst) : lhdr := mkLhdr (sh_first st) (sh_last st) (sh_free st).
Definition s_set_lhdr (st : sst) (h : lhdr) (d : N -> N * N) : sst :=
  mkS (s_dcap st) (s_dlen st) (s_ilen st) (s_orc st) d
      (s_rs st) (upd (s_is st) 0 (mkNd (sh_reserved st) (lcount h) (lfirst h)))
      (s_rt st) (upd (s_it st) 0 (mkNd (sh_troot st) (llast h) (nz (s_it st 0)))).

(** Both memories allocated to [d] and [i] cells, then update_mem (store.rs:259-271).
    The second component tells whether both allocations succeeded; if only the second
    fails, data_ptr is stale. *)
Definition s_alloc_mem (st : sst) (d i : N) : sst * bool :=
  let orc := fun k => s_orc st (S k) in
  match s_orc st 0%nat d i with
  | Grown => (mkS d d i orc (s_data st) (s_rs st) (s_is st) (s_rt st) (s_it st), true)
  | NoIndex => (mkS d (s_dlen st) (s_ilen st) orc (s_data st) (s_rs st) (s_is st) (s_rt st) (s_it st), false)
  | NoData => (mkS (s_dcap st) (s_dlen st) (s_ilen st) orc (s_data st) (s_rs st) (s_is st) (s_rt st) (s_it st), false)
  end.

(** Tree keys: the internal trees compare one part only,
    internal_sources_…tree.rs:78-84, 170-172, internal_targets_…tree.rs:78-84, 177-179; the
    external ones are those of the single-memory store, external_sources_…tree.rs:246-266,
    external_targets_…tree.rs:244-264. *)
Definition key_is (d : N -> N * N) (i : N) : key := (snd (d i), 0).
Definition key_it (d : N -> N * N) (i : N) : key := (fst (d i), 0).

(** each_usages_core of the internal sources tree: in order, without comparing,
    internal_sources_…tree.rs:97-112 *)
Fixpoint each_inorder {H} (fuel : nat) (len : N) (c : N -> nd) (lk : N -> link) (root : N)
    (h : rhandler H) (s : H) : out (H * flow) :=
  match fuel with
  | O => Diverge
  | S f =>
      if root =? 0 then Val (s, Continue)
      else
        let* l := left_or_default len c root in
        let* (s1, f1) := each_inorder f len c lk l h s in
        match f1 with
        | Break => Val (s1, Break)
        | Continue =>
            let* v := rd len lk root in
            match h s1 v with
            | (s2, Break) => Val (s2, Break)
            | (s2, Continue) =>
                let* r := right_or_default len c root in
                each_inorder f len c lk r h s2
            end
        end
  end.

Section Split.
  Variable cf : cfg.
  Variable tops : tree_ops.
  Variable lops : list_ops.

  (** data_ptr is valid. *)
  Definition s_view (st : sst) : out unit := if s_dlen st =? s_dcap st then Val tt else UB.
  (** get_header/mut_header, store.rs:133-149: [expect] that slot 0 is in index memory. *)
  Definition s_header (st : sst) : out unit := if 0 <? s_ilen st then Val tt else Panic.

  Definition s_fuel (st : sst) : nat := S (N.to_nat (sh_alloc st)).
  (** A walk touches every node in both memories, so the shorter slice decides. *)
  Definition s_len (st : sst) : N := N.min (s_dlen st) (s_ilen st).

  (** get_data_part, store.rs:151-154, and get_data_unchecked, 156-158 *)
  Definition s_get_data (st : sst) (i : N) : out (N * N) :=
    let* _ := s_view st in rd (s_dlen st) (s_data st) i.
  Definition s_get_data_unchecked (st : sst) (i : N) : out (N * N) :=
    let* _ := s_view st in rd_unchecked (s_dlen st) (s_data st) i.

  (** total, store.rs:310-313 *)
  Definition s_total (st : sst) : out N :=
    let* _ := s_header st in csub (sh_alloc st) (sh_free st).

  (** is_unused, store.rs:315-325 *)
  Definition s_is_unused (st : sst) (i : N) : out bool :=
    let* _ := s_header st in
    if (i <=? sh_alloc st) && negb (sh_first st =? i) then
      let* n := rd (s_ilen st) (s_it st) i in
      let* d := s_get_data st i in
      Val ((nz n =? 0) && negb (fst d =? 0))
    else Val true.
  (** is_virtual, store.rs:329-331 *)
  Definition s_is_virtual (st : sst) (i : N) : out bool := s_is_unused st i.

  (** exists, store.rs:333-342 *)
  Definition s_exists (st : sst) (i : N) : out bool :=
    let* _ := s_header st in
    if (c_istart cf <=? i) && (i <=? sh_alloc st) then
      let* b := s_is_unused st i in Val (negb b)
    else Val false.

  (** get_link, store.rs:863-869, with get_link_unchecked, 345-350 *)
  Definition s_get_link (st : sst) (i : N) : out (option link) :=
    let* e := s_exists st i in
    if e then
      let* d := s_get_data_unchecked st i in
      Val (Some (mkLink i (fst d) (snd d)))
    else Val None.

  (** Internal trees: count_usages_core, search_core (internal_recursion_less_base.rs:55-75),
      each_usages (internal_sources_…tree.rs:123-125, internal_targets_…tree.rs:94-132).
      The root is read by slice index. *)
  Definition s_is_count (st : sst) (v : N) : out N :=
    let* r := rd (s_ilen st) (s_rs st) v in size_or_zero (s_ilen st) (s_is st) r.
  Definition s_it_count (st : sst) (v : N) : out N :=
    let* r := rd (s_ilen st) (s_rt st) v in size_or_zero (s_ilen st) (s_it st) r.
  Definition s_is_search (st : sst) (s t : N) : out N :=
    let* r := rd (s_ilen st) (s_rs st) s in
    let* _ := s_view st in
    search_tree (s_fuel st) (s_len st) (s_is st) (key_is (s_data st)) (t, 0) r.
  Definition s_it_search (st : sst) (s t : N) : out N :=
    let* r := rd (s_ilen st) (s_rt st) t in
    let* _ := s_view st in
    search_tree (s_fuel st) (s_len st) (s_it st) (key_it (s_data st)) (s, 0) r.
  Definition s_is_each {H} (st : sst) (v : N) (h : rhandler H) (x : H) : out (H * flow) :=
    let* r := rd (s_ilen st) (s_rs st) v in
    let* _ := s_view st in
    each_inorder (s_fuel st) (s_len st) (s_is st) (link_of (s_data st)) r h x.
  Definition s_it_each {H} (st : sst) (v : N) (h : rhandler H) (x : H) : out (H * flow) :=
    let* r := rd (s_ilen st) (s_rt st) v in
    let* _ := s_view st in
    each_usages_tree (s_fuel st) (s_len st) (s_it st) (fun i => snd (s_data st i)) (link_of (s_data st)) v r h x.

  (** External trees: external_sources_…tree.rs:110-191, external_targets_…tree.rs *)
  Definition s_es_count (st : sst) (v : N) : out N :=
    let* _ := s_header st in
    let* _ := s_view st in
    count_usages_tree (s_fuel st) (c_tmax cf) (s_len st) (s_is st) (fun i => fst (s_data st i)) (sh_sroot st) v.
  Definition s_et_count (st : sst) (v : N) : out N :=
    let* _ := s_header st in
    let* _ := s_view st in
    count_usages_tree (s_fuel st) (c_tmax cf) (s_len st) (s_it st) (fun i => snd (s_data st i)) (sh_troot st) v.
  Definition s_es_search (st : sst) (s t : N) : out N :=
    let* _ := s_header st in
    let* _ := s_view st in
    search_tree (s_fuel st) (s_len st) (s_is st) (key_src (s_data st)) (s, t) (sh_sroot st).
  Definition s_es_each {H} (st : sst) (v : N) (h : rhandler H) (x : H) : out (H * flow) :=
    let* _ := s_header st in
    let* _ := s_view st in
    each_usages_tree (s_fuel st) (s_len st) (s_is st) (fun i => fst (s_data st i)) (link_of (s_data st)) v (sh_sroot st) h x.
  Definition s_et_each {H} (st : sst) (v : N) (h : rhandler H) (x : H) : out (H * flow) :=
    let* _ := s_header st in
    let* _ := s_view st in
    each_usages_tree (s_fuel st) (s_len st) (s_it st) (fun i => snd (s_data st i)) (link_of (s_data st)) v (sh_troot st) h x.

  (** try_each_by_core on the empty query, store.rs:355-362 *)
  Fixpoint s_each_idx {H} (st : sst) (h : rhandler H) (l : list N) (x : H) : out (H * flow) :=
    match l with
    | [] => Val (x, Continue)
    | i :: l' =>
        let* o := s_get_link st i in
        match o with
        | None => s_each_idx st h l' x
        | Some lk =>
            match h x lk with
            | (x', Continue) => s_each_idx st h l' x'
            | (x', Break) => Val (x', Break)
            end
        end
    end.
  Definition s_each_all {H} (st : sst) (h : rhandler H) (x : H) : out (H * flow) :=
    let* _ := s_header st in
    s_each_idx st h (range1 (sh_alloc st)) x.

  (** [if let Some(link) = self.get_link(i) { if .. { handler(link) } .. }] *)
  Definition s_each_one {H} (st : sst) (h : rhandler H) (i : N) (p : link -> bool) (x : H) : out (H * flow) :=
    let* o := s_get_link st i in
    match o with
    | Some lk => if p lk then Val (h x lk) else Val (x, Continue)
    | None => Val (x, Continue)
    end.

  (** Which tree is searched for a pair, store.rs:419-436 = 617-634 ([vs], [vt]: the source,
      the target is virtual) *)
  Definition s_search (st : sst) (vs vt : bool) (source target : N) : out N :=
    if vs && vt then s_es_search st source target
    else if vs then s_it_search st source target
    else if vt then s_is_search st source target
    else
      let* a := s_is_count st source in
      let* b := s_it_count st target in
      if b <? a then s_it_search st source target else s_is_search st source target.

  (** try_each_by_core for a query of length 3, store.rs:398-483 *)
  Definition s_each3 {H} (st : sst) (h : rhandler H) (index source target : N) (x : H) : out (H * flow) :=
    let any := c_any cf in
    let* vs := s_is_virtual st source in
    let* vt := s_is_virtual st target in
    if index =? any then
      if (source =? any) && (target =? any) then s_each_all st h x
      else if source =? any then
        if vt then s_et_each st target h x else s_it_each st target h x
      else if target =? any then
        if vs then s_es_each st source h x else s_is_each st source h x
      else
        let* r := s_search st vs vt source target in
        if r =? c_null cf then Val (x, Continue)
        else
          let* o := s_get_link st r in
          match o with
          | Some lk => Val (h x lk)
          | None => UB (* unwrap_unchecked *)
          end
    else
      s_each_one st h index (fun lk =>
        if (source =? any) && (target =? any) then true
        else if negb (source =? any) && negb (target =? any) then
          (l_source lk =? source) && (l_target lk =? target)
        else if source =? any then l_target lk =? target
        else if target =? any then l_source lk =? source
        else false) x.

  (** try_each_by_core, store.rs:352-485 *)
  Definition s_each {H} (h : rhandler H) (q : list N) (st : sst) (x : H) : out (H * flow) :=
    let any := c_any cf in
    match q with
    | [] => s_each_all st h x
    | _ =>
        let* index := qget q (c_index_part cf) in
        match q with
        | [_] =>
            if index =? any then s_each_all st h x
            else s_each_one st h index (fun _ => true) x
        | [_; value] =>
            if index =? any then
              if value =? any then s_each_all st h x
              else
                let* (x1, f1) := s_each3 st h index value any x in
                match f1 with
                | Break => Val (x1, Break)
                | Continue => s_each3 st h index any value x1
                end
            else
              s_each_one st h index (fun lk =>
                (value =? any) || (l_source lk =? value) || (l_target lk =? value)) x
        | [_; _; _] =>
            let* source := qget q (c_source_part cf) in
            let* target := qget q (c_target_part cf) in
            s_each3 st h index source target x
        | _ => Panic (* todo!() *)
        end
    end.

  (** count_links, store.rs:551-689 *)
  Definition s_count (st : sst) (q : list N) : out N :=
    let any := c_any cf in
    match q with
    | [] => s_total st
    | _ =>
        let* index := qget q (c_index_part cf) in
        match q with
        | [_] =>
            if index =? any then s_total st
            else let* e := s_exists st index in Val (b2n e)
        | [_; value] =>
            let* vv := s_is_virtual st value in
            if index =? any then
              if value =? any then s_total st
              else if vv then
                let* a := s_es_count st value in
                let* b := s_et_count st value in
                cadd (c_tmax cf) a b
              else
                let* a := s_is_count st value in
                let* b := s_it_count st value in
                cadd (c_tmax cf) a b
            else
              let* e := s_exists st index in
              if negb e then Val 0
              else if value =? any then Val 1
              else
                let* d := s_get_data st index in
                Val (b2n ((fst d =? value) && (snd d =? value)))
        | [_; _; _] =>
            let* source := qget q (c_source_part cf) in
            let* target := qget q (c_target_part cf) in
            let* vs := s_is_virtual st source in
            let* vt := s_is_virtual st target in
            if index =? any then
              if (source =? any) && (target =? any) then s_total st
              else if source =? any then
                if vt then s_et_count st target else s_it_count st target
              else if vs then s_es_count st source
              else if target =? any then s_is_count st source
              else
                let* r := s_search st vs vt source target in
                Val (if r =? c_null cf then 0 else 1)
            else
              let* e := s_exists st index in
              if negb e then Val 0
              else if (source =? any) && (target =? any) then Val 1
              else
                let* d := s_get_data_unchecked st index in
                Val (b2n (
                  if negb (source =? any) && negb (target =? any) then
                    (fst d =? source) && (snd d =? target)
                  else if source =? any then snd d =? target
                  else if target =? any then fst d =? source
                  else false))
        | _ => Panic (* todo!() *)
        end
    end.

  (** attach/detach of the four trees, store.rs:167-257.  The roots of the internal trees
      are fields of the index part of the link referred to, those of the external trees
      are in the header. *)
  Definition s_detach_is (st : sst) (v i : N) : out sst :=
    let* r := rd (s_ilen st) (s_rs st) v in
    let* _ := s_view st in
    let* (c, r') := t_detach tops (key_is (s_data st)) (s_is st) r i in
    Val (s_set_src st (upd (s_rs st) v r') c).
  Definition s_attach_is (st : sst) (v i : N) : out sst :=
    let* r := rd (s_ilen st) (s_rs st) v in
    let* _ := s_view st in
    let* (c, r') := t_attach tops (key_is (s_data st)) (s_is st) r i in
    Val (s_set_src st (upd (s_rs st) v r') c).
  Definition s_detach_it (st : sst) (v i : N) : out sst :=
    let* r := rd (s_ilen st) (s_rt st) v in
    let* _ := s_view st in
    let* (c, r') := t_detach tops (key_it (s_data st)) (s_it st) r i in
    Val (s_set_tgt st (upd (s_rt st) v r') c).
  Definition s_attach_it (st : sst) (v i : N) : out sst :=
    let* r := rd (s_ilen st) (s_rt st) v in
    let* _ := s_view st in
    let* (c, r') := t_attach tops (key_it (s_data st)) (s_it st) r i in
    Val (s_set_tgt st (upd (s_rt st) v r') c).
  Definition s_detach_es (st : sst) (i : N) : out sst :=
    let* _ := s_header st in
    let* _ := s_view st in
    let* (c, r') := t_detach tops (key_src (s_data st)) (s_is st) (sh_sroot st) i in
    let st1 := s_set_src st (s_rs st) c in
    Val (s_set_tgt st1 (upd (s_rt st1) 0 r') (s_it st1)).
  Definition s_attach_es (st : sst) (i : N) : out sst :=
    let* _ := s_header st in
    let* _ := s_view st in
    let* (c, r') := t_attach tops (key_src (s_data st)) (s_is st) (sh_sroot st) i in
    let st1 := s_set_src st (s_rs st) c in
    Val (s_set_tgt st1 (upd (s_rt st1) 0 r') (s_it st1)).
  Definition s_detach_et (st : sst) (i : N) : out sst :=
    let* _ := s_header st in
    let* _ := s_view st in
    let* (c, r') := t_detach tops (key_tgt (s_data st)) (s_it st) (sh_troot st) i in
    Val (s_set_tgt st (s_rt st) (set_troot c r')).
  Definition s_attach_et (st : sst) (i : N) : out sst :=
    let* _ := s_header st in
    let* _ := s_view st in
    let* (c, r') := t_attach tops (key_tgt (s_data st)) (s_it st) (sh_troot st) i in
    Val (s_set_tgt st (s_rt st) (set_troot c r')).

  (** self.unused.detach(i) / attach_as_first(i) *)
  Definition s_unused_detach (st : sst) (i : N) : out sst :=
    let* _ := s_view st in
    let* (h, d) := l_detach lops (s_lhdr st) (s_data st) i in Val (s_set_lhdr st h d).
  Definition s_unused_attach (st : sst) (i : N) : out sst :=
    let* _ := s_view st in
    let* (h, d) := l_attach lops (s_lhdr st) (s_data st) i in Val (s_set_lhdr st h d).

  (** self.each_iter(query): traits.rs:658-668 *)
  Definition s_each_iter (st : sst) (q : list N) : out (list link) :=
    let* _ := s_count st q in
    let* (v, _) := s_each (fun v l => (v ++ [l], Continue)) q st [] in Val v.

  (** The loops of resolve_danglind_internal/external: [f] applied to every listed link *)
  Fixpoint s_for (l : list link) (f : N -> sst -> out sst) (st : sst) : out sst :=
    match l with
    | [] => Val st
    | k :: l' => let* st1 := f (l_index k) st in s_for l' f st1
    end.

  (** resolve_danglind_internal, store.rs:487-509 *)
  Definition s_resolve_internal (st : sst) (index : N) : out sst :=
    let any := c_any cf in
    let* l1 := s_each_iter st [any; index; any] in
    let* st1 := s_for (filter (fun k => negb (l_index k =? index)) l1)
      (fun x st => let* st1 := s_detach_is st index x in s_attach_es st1 x) st in
    let* l2 := s_each_iter st1 [any; any; index] in
    s_for (filter (fun k => negb (link_is_full k)) (filter (fun k => negb (l_index k =? index)) l2))
      (fun x st => let* st1 := s_detach_it st index x in s_attach_et st1 x) st1.

  (** resolve_danglind_external, store.rs:511-533 *)
  Definition s_resolve_external (st : sst) (free : N) : out sst :=
    let any := c_any cf in
    let* l1 := s_each_iter st [any; free; any] in
    let* st1 := s_for (filter (fun k => negb (l_index k =? free)) l1)
      (fun x st => let* st1 := s_detach_es st x in s_attach_is st1 free x) st in
    let* l2 := s_each_iter st1 [any; any; free] in
    s_for (filter (fun k => negb (link_is_full k)) (filter (fun k => negb (l_index k =? free)) l2))
      (fun x st => let* st1 := s_detach_et st x in s_attach_it st1 free x) st1.

  (** growth inside create_links, store.rs:704-719 *)
  Definition s_grow (st : sst) : out (sst * result unit) :=
    let* r1 := csub (sh_reserved st) 1 in
    if r1 <=? sh_alloc st then
      let (st1, ok) := s_alloc_mem st (s_dcap st + c_step cf) (s_ilen st + c_step cf) in
      if ok then
        let* _ := s_header st1 in
        let* r := ctry (c_tmax cf) (s_ilen st1) in
        Val (s_set_reserved st1 r, Ok tt)
      else Val (st1, Err AllocFailed)
    else Val (st, Ok tt).

  (** create_links, store.rs:691-734 *)
  Definition s_create {H} (h : whandler H) (q : list N) (st : sst) (x : H) : out (sst * H * result flow) :=
    let* _ := s_header st in
    let free := sh_first st in
    if free =? c_null cf then
      let max_inner := c_iend cf in
      if max_inner <=? sh_alloc st then Val (st, x, Err (LimitReached max_inner))
      else
        let* (st1, g) := s_grow st in
        match g with
        | Err e => Val (st1, x, Err e)
        | Ok _ =>
            let* a := cadd (c_tmax cf) (sh_alloc st1) 1 in
            let* st2 := s_resolve_external (s_set_alloc st1 a) a in
            let (x', f) := h x nothing (mkLink a 0 0) in
            Val (st2, x', Ok f)
        end
    else
      let* st1 := s_unused_detach st free in
      let* st2 := s_resolve_external st1 free in
      let (x', f) := h x nothing (mkLink free 0 0) in
      Val (st2, x', Ok f).

  Definition s_when (b : bool) (f : sst -> out sst) (st : sst) : out sst := if b then f st else Val st.

  (** the memory effect of update_links, store.rs:752-807, for an existing link *)
  Definition s_relink (st : sst) (i old_s old_t s t : N) : out sst :=
    let* st1 := s_when (negb (old_s =? 0)) (fun st =>
      let* v := s_is_virtual st old_s in
      if v then s_detach_es st i else s_detach_is st old_s i) st in
    let* st2 := s_when (negb (old_t =? 0)) (fun st =>
      let* v := s_is_virtual st old_t in
      if v then s_detach_et st i else s_detach_it st old_t i) st1 in
    let* vs := s_is_virtual st2 s in
    let* vt := s_is_virtual st2 t in
    let* _ := s_get_data st2 i in
    let st3 := s_set_data st2 (upd (s_data st2) i (s, t)) in
    let* st4 := s_when (negb (s =? 0)) (fun st =>
      if vs : bool then s_attach_es st i else s_attach_is st s i) st3 in
    s_when (negb (t =? 0)) (fun st =>
      if vt : bool then s_attach_et st i else s_attach_it st t i) st4.

  (** update_links, store.rs:740-810; try_get_link is traits.rs:252-254 *)
  Definition s_update {H} (h : whandler H) (q ch : list N) (st : sst) (x : H) : out (sst * H * result flow) :=
    let* index := qget q 0 in
    let* new_source := qget ch 1 in
    let* new_target := qget ch 2 in
    let* o := s_get_link st index in
    match o with
    | None => Val (st, x, Err (NotExists index))
    | Some lk =>
        let* st1 := s_relink st index (l_source lk) (l_target lk) new_source new_target in
        let (x', f) := h x lk (mkLink index new_source new_target) in
        Val (st1, x', Ok f)
    end.

  (** trim loop of delete_links, store.rs:832-839 *)
  Fixpoint s_trim (fuel : nat) (st : sst) : out sst :=
    match fuel with
    | O => Diverge
    | S f =>
        let* _ := s_header st in
        let a := sh_alloc st in
        let* b := (if 0 <? a then s_is_unused st a else Val false) in
        if negb b then Val st
        else
          let* st1 := s_unused_detach st a in
          let* a1 := csub a 1 in
          s_trim f (s_set_alloc st1 a1)
    end.

  (** delete_links, store.rs:812-849; [self.update(index,0,0)?] is traits.rs:191-196,
      164-174, 135-162 with a handler that always continues *)
  Definition s_delete {H} (h : whandler H) (q : list N) (st : sst) (x : H) : out (sst * H * result flow) :=
    let* index := qget q 0 in
    let* o := s_get_link st index in
    match o with
    | None => Val (st, x, Err (NotExists index))
    | Some lk =>
        let* st0 := s_resolve_internal st index in
        let* (st1, _, r) := s_update (fun (u : unit) _ _ => (u, Continue)) [index] [index; 0; 0] st0 tt in
        match r with
        | Err e => Val (st1, x, Err e)
        | Ok _ =>
            let* _ := s_header st1 in
            let* st3 :=
              match index ?= sh_alloc st1 with
              | Lt => s_unused_attach st1 index
              | Eq =>
                  let* a1 := csub (sh_alloc st1) 1 in
                  s_trim (s_fuel st1) (s_set_alloc st1 a1)
              | Gt => Panic (* unreachable!() *)
              end in
            let (x', f) := h x (mkLink index (l_source lk) (l_target lk)) nothing in
            Val (st3, x', Ok f)
        end
    end.

  (** align, store.rs:273-281 (the debug_assert holds, because of [max]) *)
  Definition s_align (n target : N) : N :=
    if n mod target =? 0 then n else (n / target) * target + target.

  (** init, store.rs:283-308; with_constants, store.rs:66-109.  The argument is the memory
      before opening (its slice lengths are irrelevant). *)
  Definition s_open (m : sst) : out (result sst) :=
    let (m1, ok1) := s_alloc_mem m (c_page cf) (c_page cf) in
    if negb ok1 then Val (Err AllocFailed)
    else
      let* _ := s_header m1 in
      let dc := s_align (N.max (N.max (sh_alloc m1) (s_dcap m1)) (c_step cf)) (c_step cf) in
      let ic := s_align (N.max (N.max (sh_alloc m1) (s_ilen m1)) (c_step cf)) (c_step cf) in
      let (m2, ok2) := s_alloc_mem m1 dc ic in
      if negb ok2 then Val (Err AllocFailed)
      else
        let* _ := s_header m2 in
        let* r1 := csub (s_dcap m2) 1 in
        let* r := ctry (c_tmax cf) r1 in
        Val (Ok (s_set_reserved m2 r)).
End Split.

(** Fresh memories: all cells zero. *)
Definition s_blank (orc : nat -> N -> N -> grown) : sst :=
  mkS 0 0 0 orc (fun _ => (0, 0)) (fun _ => 0) (fun _ => nd0) (fun _ => 0) (fun _ => nd0).
