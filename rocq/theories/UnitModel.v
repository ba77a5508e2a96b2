(** Model of the single-memory store, doublets/src/mem/unit/store.rs, with the walks of
    doublets/src/mem/unit/generic/*.rs.

    Memory: a slice of [LinkPart]s.  Column [u_data] holds (source, target), [u_src]
    holds (left,right,size)_as_source, [u_tgt] holds (left,right,size)_as_target
    (raw_link.rs:6-17).  Slot 0 is the header (header.rs:5-17) seen through the same
    columns, as by the [transmute] in get_header (store.rs:113-129):
      source=allocated, target=reserved, left_as_source=free, right_as_source=first_free,
      size_as_source=root_as_source, left_as_target=root_as_target,
      right_as_target=last_free, size_as_target=__reserved_8.
    [u_len] is the slice length, which is also [mem.allocated()].  [u_orc] decides the
    outcome of the following allocations. *)
From Coq Require Import NArith List Bool.
From Verif Require Import Base Trees Lists.
Import ListNotations.
Open Scope N_scope.

Record ust := mkU {
  u_len : N;
  u_orc : nat -> N -> bool;
  u_data : N -> N * N;
  u_src : N -> nd;
  u_tgt : N -> nd
}.

(** Header field views. *)
Definition h_alloc (st : ust) := fst (u_data st 0).
Definition h_reserved (st : ust) := snd (u_data st 0).
Definition h_free (st : ust) := nl (u_src st 0).
Definition h_first (st : ust) := nr (u_src st 0).
Definition h_sroot (st : ust) := nz (u_src st 0).
Definition h_troot (st : ust) := nl (u_tgt st 0).
Definition h_last (st : ust) := nr (u_tgt st 0).

Definition set_data (st : ust) d := mkU (u_len st) (u_orc st) d (u_src st) (u_tgt st).
Definition set_src (st : ust) c := mkU (u_len st) (u_orc st) (u_data st) c (u_tgt st).
Definition set_tgt (st : ust) c := mkU (u_len st) (u_orc st) (u_data st) (u_src st) c.

Definition set_alloc (st : ust) v := set_data st (upd (u_data st) 0 (v, h_reserved st)).
Definition set_reserved (st : ust) v := set_data st (upd (u_data st) 0 (h_alloc st, v)).
Definition set_sroot (c : N -> nd) (root : N) := upd c 0 (mkNd (nl (c 0)) (nr (c 0)) root).
Definition set_troot (c : N -> nd) (root : N) := upd c 0 (mkNd root (nr (c 0)) (nz (c 0))).

(** The free list's view of the header, unit/generic/unused_links.rs:36-60. *)
Definition u_lhdr (st : ust) : lhdr := mkLhdr (h_first st) (h_last st) (h_free st).
Definition set_lhdr (st : ust) (h : lhdr) (d : N -> N * N) : ust :=
  mkU (u_len st) (u_orc st) d
      (upd (u_src st) 0 (mkNd (lcount h) (lfirst h) (h_sroot st)))
      (upd (u_tgt st) 0 (mkNd (h_troot st) (llast h) (nz (u_tgt st 0)))).

(** RawMem::alloc(n) (external crate mem): on success the slice has n cells. *)
Definition u_alloc_mem (st : ust) (n : N) : option ust :=
  if u_orc st 0%nat n
  then Some (mkU n (fun k => u_orc st (S k)) (u_data st) (u_src st) (u_tgt st))
  else None.
(** After a failed allocation only the oracle has moved on. *)
Definition u_alloc_failed (st : ust) : ust :=
  mkU (u_len st) (fun k => u_orc st (S k)) (u_data st) (u_src st) (u_tgt st).

(** Tree keys: sources_…tree.rs:229-249, targets_…tree.rs (target first). *)
Definition key_src (d : N -> N * N) (i : N) : key := (fst (d i), snd (d i)).
Definition key_tgt (d : N -> N * N) (i : N) : key := (snd (d i), fst (d i)).

(** get_link_value: unit/generic/links_recursionless_size_balanced_tree_base.rs *)
Definition link_of (d : N -> N * N) (i : N) : link := mkLink i (fst (d i)) (snd (d i)).

Section Unit.
  Variable cf : cfg.
  Variable tops : tree_ops.
  Variable lops : list_ops.

  (** get_header/mut_header, store.rs:113-129: [expect] that slot 0 is in memory. *)
  Definition u_header (st : ust) : out unit := if 0 <? u_len st then Val tt else Panic.

  Definition u_fuel (st : ust) : nat := S (N.to_nat (h_alloc st)).

  (** get_total, store.rs:189-192 *)
  Definition u_get_total (st : ust) : out N :=
    let* _ := u_header st in csub (h_alloc st) (h_free st).

  (** is_unused, store.rs:194-206 *)
  Definition u_is_unused (st : ust) (i : N) : out bool :=
    let* _ := u_header st in
    if (i <=? h_alloc st) && negb (h_first st =? i) then
      let* n := rd_unchecked (u_len st) (u_src st) i in
      let* d := rd_unchecked (u_len st) (u_data st) i in
      Val ((nz n =? 0) && negb (fst d =? 0))
    else Val true.

  (** exists, store.rs:208-215 *)
  Definition u_exists (st : ust) (i : N) : out bool :=
    let* _ := u_header st in
    if (c_istart cf <=? i) && (i <=? h_alloc st) then
      let* b := u_is_unused st i in Val (negb b)
    else Val false.

  (** get_link, store.rs:560-567, with get_link_unchecked, store.rs:224-229 *)
  Definition u_get_link (st : ust) (i : N) : out (option link) :=
    let* e := u_exists st i in
    if e then
      let* d := rd_unchecked (u_len st) (u_data st) i in
      Val (Some (mkLink i (fst d) (snd d)))
    else Val None.

  (** targets/sources count_usages, search, each_usages: sources_…tree.rs:130-185 and
      targets_…tree.rs. *)
  Definition u_src_count (st : ust) (v : N) : out N :=
    let* _ := u_header st in
    count_usages_tree (u_fuel st) (c_tmax cf) (u_len st) (u_src st) (fun i => fst (u_data st i)) (h_sroot st) v.
  Definition u_tgt_count (st : ust) (v : N) : out N :=
    let* _ := u_header st in
    count_usages_tree (u_fuel st) (c_tmax cf) (u_len st) (u_tgt st) (fun i => snd (u_data st i)) (h_troot st) v.
  Definition u_src_search (st : ust) (s t : N) : out N :=
    let* _ := u_header st in
    search_tree (u_fuel st) (u_len st) (u_src st) (key_src (u_data st)) (s, t) (h_sroot st).
  Definition u_src_each {H} (st : ust) (v : N) (h : rhandler H) (s : H) : out (H * flow) :=
    let* _ := u_header st in
    each_usages_tree (u_fuel st) (u_len st) (u_src st) (fun i => fst (u_data st i)) (link_of (u_data st)) v (h_sroot st) h s.
  Definition u_tgt_each {H} (st : ust) (v : N) (h : rhandler H) (s : H) : out (H * flow) :=
    let* _ := u_header st in
    each_usages_tree (u_fuel st) (u_len st) (u_tgt st) (fun i => snd (u_data st i)) (link_of (u_data st)) v (h_troot st) h s.

  (** each_core on the empty query, store.rs:234-241 *)
  Fixpoint u_each_idx {H} (st : ust) (h : rhandler H) (l : list N) (s : H) : out (H * flow) :=
    match l with
    | [] => Val (s, Continue)
    | i :: l' =>
        let* o := u_get_link st i in
        match o with
        | None => u_each_idx st h l' s
        | Some lk =>
            match h s lk with
            | (s', Continue) => u_each_idx st h l' s'
            | (s', Break) => Val (s', Break)
            end
        end
    end.
  Definition u_each_all {H} (st : ust) (h : rhandler H) (s : H) : out (H * flow) :=
    let* _ := u_header st in
    u_each_idx st h (range1 (h_alloc st)) s.

  (** [self.get_link(i).map_or(Continue, handler)] and the guarded variants *)
  Definition u_each_one {H} (st : ust) (h : rhandler H) (i : N) (p : link -> bool) (s : H) : out (H * flow) :=
    let* o := u_get_link st i in
    match o with
    | Some lk => if p lk then Val (h s lk) else Val (s, Continue)
    | None => Val (s, Continue)
    end.

  (** each_core for a query of length 3, store.rs:277-317 *)
  Definition u_each3 {H} (st : ust) (h : rhandler H) (index source target : N) (s : H) : out (H * flow) :=
    let any := c_any cf in
    if index =? any then
      if (source =? any) && (target =? any) then u_each_all st h s
      else if source =? any then u_tgt_each st target h s
      else if target =? any then u_src_each st source h s
      else
        let* r := u_src_search st source target in
        u_each_one st h r (fun _ => true) s
    else
      u_each_one st h index (fun lk =>
        if (target =? any) && (source =? any) then true
        else if negb (target =? any) && negb (source =? any) then
          (source =? l_source lk) && (target =? l_target lk)
        else if source =? any then l_target lk =? target
        else if target =? any then l_source lk =? source
        else false) s.

  (** each_core, store.rs:231-320 *)
  Definition u_each {H} (h : rhandler H) (q : list N) (st : ust) (s : H) : out (H * flow) :=
    let any := c_any cf in
    match q with
    | [] => u_each_all st h s
    | _ =>
        let* index := qget q (c_index_part cf) in
        match q with
        | [_] =>
            if index =? any then u_each_all st h s
            else u_each_one st h index (fun _ => true) s
        | [_; value] =>
            if index =? any then
              if value =? any then u_each_all st h s
              else
                let* (s1, f1) := u_each3 st h index value any s in
                match f1 with
                | Break => Val (s1, Break)
                | Continue => u_each3 st h index any value s1
                end
            else
              u_each_one st h index (fun lk =>
                (value =? any) || (l_source lk =? value) || (l_target lk =? value)) s
        | [_; _; _] =>
            let* source := qget q (c_source_part cf) in
            let* target := qget q (c_target_part cf) in
            u_each3 st h index source target s
        | _ => Panic (* todo!() *)
        end
    end.

  Definition b2n (b : bool) : N := if b then 1 else 0.

  (** count_links, store.rs:330-427 *)
  Definition u_count (st : ust) (q : list N) : out N :=
    let any := c_any cf in
    match q with
    | [] => u_get_total st
    | _ =>
        let* index := qget q (c_index_part cf) in
        match q with
        | [_] =>
            if index =? any then u_get_total st
            else let* e := u_exists st index in Val (b2n e)
        | [_; value] =>
            if index =? any then
              if value =? any then u_get_total st
              else
                let* a := u_tgt_count st value in
                let* b := u_src_count st value in
                cadd (c_tmax cf) a b
            else
              let* e := u_exists st index in
              if negb e then Val 0
              else if value =? any then Val 1
              else
                let* o := u_get_link st index in
                match o with
                | None => Val 0
                | Some lk => Val (b2n ((l_source lk =? value) || (l_target lk =? value)))
                end
        | [_; _; _] =>
            let* source := qget q (c_source_part cf) in
            let* target := qget q (c_target_part cf) in
            if index =? any then
              if (target =? any) && (source =? any) then u_get_total st
              else if source =? any then u_tgt_count st target
              else if target =? any then u_src_count st source
              else
                let* r := u_src_search st source target in
                Val (if r =? c_null cf then 0 else 1)
            else
              let* e := u_exists st index in
              if negb e then Val 0
              else if (source =? any) && (target =? any) then Val 1
              else
                let* d := rd_unchecked (u_len st) (u_data st) index in
                Val (b2n (
                  if negb (source =? any) && negb (target =? any) then
                    (fst d =? source) && (snd d =? target)
                  else if source =? any then snd d =? target
                  else if target =? any then fst d =? source
                  else false))
        | _ => Panic (* todo!() *)
        end
    end.

  (** growth inside create_links, store.rs:444-453 *)
  Definition u_grow (st : ust) : out (ust * result unit) :=
    let* r1 := csub (h_reserved st) 1 in
    if r1 <=? h_alloc st then
      match u_alloc_mem st (u_len st + c_step cf) with
      | None => Val (u_alloc_failed st, Err AllocFailed)
      | Some st1 =>
          let* _ := u_header st1 in
          let* r := ctry (c_tmax cf) (u_len st1) in
          Val (set_reserved st1 r, Ok tt)
      end
    else Val (st, Ok tt).

  (** self.unused.detach(i) / attach_as_first(i) *)
  Definition u_unused_detach (st : ust) (i : N) : out ust :=
    let* (h, d) := l_detach lops (u_lhdr st) (u_data st) i in Val (set_lhdr st h d).
  Definition u_unused_attach (st : ust) (i : N) : out ust :=
    let* (h, d) := l_attach lops (u_lhdr st) (u_data st) i in Val (set_lhdr st h d).

  (** create_links, store.rs:429-463 *)
  Definition u_create {H} (h : whandler H) (q : list N) (st : ust) (s : H) : out (ust * H * result flow) :=
    let* _ := u_header st in
    let free := h_first st in
    if free =? c_null cf then
      let max_inner := c_iend cf in
      if max_inner <=? h_alloc st then Val (st, s, Err (LimitReached max_inner))
      else
        let* (st1, g) := u_grow st in
        match g with
        | Err e => Val (st1, s, Err e)
        | Ok _ =>
            let* a := cadd (c_tmax cf) (h_alloc st1) 1 in
            let st2 := set_alloc st1 a in
            let (s', f) := h s nothing (mkLink a 0 0) in
            Val (st2, s', Ok f)
        end
    else
      let* st1 := u_unused_detach st free in
      let (s', f) := h s nothing (mkLink free 0 0) in
      Val (st1, s', Ok f).

  (** detach_source / attach_source etc., store.rs:145-187; the root lives in the header *)
  Definition u_detach_source (st : ust) (i : N) : out ust :=
    let* _ := u_header st in
    let* (c, r) := t_detach tops (key_src (u_data st)) (u_src st) (h_sroot st) i in
    Val (set_src st (set_sroot c r)).
  Definition u_attach_source (st : ust) (i : N) : out ust :=
    let* _ := u_header st in
    let* (c, r) := t_attach tops (key_src (u_data st)) (u_src st) (h_sroot st) i in
    Val (set_src st (set_sroot c r)).
  Definition u_detach_target (st : ust) (i : N) : out ust :=
    let* _ := u_header st in
    let* (c, r) := t_detach tops (key_tgt (u_data st)) (u_tgt st) (h_troot st) i in
    Val (set_tgt st (set_troot c r)).
  Definition u_attach_target (st : ust) (i : N) : out ust :=
    let* _ := u_header st in
    let* (c, r) := t_attach tops (key_tgt (u_data st)) (u_tgt st) (h_troot st) i in
    Val (set_tgt st (set_troot c r)).

  Definition when (b : bool) (f : ust -> out ust) (st : ust) : out ust :=
    if b then f st else Val st.

  (** the memory effect of update_links, store.rs:483-513, for an existing link *)
  Definition u_relink (st : ust) (i old_s old_t s t : N) : out ust :=
    let* st1 := when (negb (old_s =? 0)) (fun st => u_detach_source st i) st in
    let* st2 := when (negb (old_t =? 0)) (fun st => u_detach_target st i) st1 in
    let* _ := rd (u_len st2) (u_data st2) i in
    let st3 := set_data st2 (upd (u_data st2) i (s, t)) in
    let* st4 := when (negb (s =? 0)) (fun st => u_attach_source st i) st3 in
    when (negb (t =? 0)) (fun st => u_attach_target st i) st4.

  (** update_links, store.rs:469-520.  Note lines 478-479: old_source/old_target are
      taken from the *change*. *)
  Definition u_update {H} (h : whandler H) (q ch : list N) (st : ust) (s : H) : out (ust * H * result flow) :=
    let* index := qget q 0 in
    let* source := qget ch 1 in
    let* target := qget ch 2 in
    let old_source := source in
    let old_target := target in
    let* o := u_get_link st index in
    match o with
    | None => Val (st, s, Err (NotExists index))
    | Some lk =>
        let* st1 := u_relink st index (l_source lk) (l_target lk) source target in
        let (s', f) := h s (mkLink index old_source old_target) (mkLink index source target) in
        Val (st1, s', Ok f)
    end.

  (** trim loop of delete_links, store.rs:541-548 *)
  Fixpoint u_trim (fuel : nat) (st : ust) : out ust :=
    match fuel with
    | O => Diverge
    | S f =>
        let* _ := u_header st in
        let a := h_alloc st in
        let* b := (if 0 <? a then u_is_unused st a else Val false) in
        if negb b then Val st
        else
          let* st1 := u_unused_detach st a in
          let* a1 := csub a 1 in
          u_trim f (set_alloc st1 a1)
    end.

  (** delete_links, store.rs:522-555; [self.update(index,0,0)?] is traits.rs:191-196,
      164-174, 135-162 with a handler that always continues *)
  Definition u_delete {H} (h : whandler H) (q : list N) (st : ust) (s : H) : out (ust * H * result flow) :=
    let* index := qget q 0 in
    let* o := u_get_link st index in
    match o with
    | None => Val (st, s, Err (NotExists index))
    | Some lk =>
        let* (st1, _, r) := u_update (fun (u : unit) _ _ => (u, Continue)) [index] [index; 0; 0] st tt in
        match r with
        | Err e => Val (st1, s, Err e)
        | Ok _ =>
            let* _ := u_header st1 in
            let* st3 :=
              match index ?= h_alloc st1 with
              | Lt => u_unused_attach st1 index
              | Eq =>
                  let* a1 := csub (h_alloc st1) 1 in
                  u_trim (u_fuel st1) (set_alloc st1 a1)
              | Gt => Panic (* unreachable!() *)
              end in
            let (s', f) := h s lk nothing in
            Val (st3, s', Ok f)
        end
    end.

  (** init, store.rs:81-95; with_constants, store.rs:46-79.  The argument is the memory
      before opening (its slice length is irrelevant). *)
  Definition u_open (m : ust) : out (result ust) :=
    match u_alloc_mem m (c_page cf) with
    | None => Val (Err AllocFailed)
    | Some m1 =>
        let* _ := u_header m1 in
        let capacity := N.max (c_step cf) (h_alloc m1) in
        match u_alloc_mem m1 capacity with
        | None => Val (Err AllocFailed)
        | Some m2 =>
            let* _ := u_header m2 in
            let* r1 := csub (u_len m2) 1 in
            let* r := ctry (c_tmax cf) r1 in
            Val (Ok (set_reserved m2 r))
        end
    end.
End Unit.

(** Fresh memory: all cells zero. *)
Definition u_blank (orc : nat -> N -> bool) : ust :=
  mkU 0 orc (fun _ => (0, 0)) (fun _ => nd0) (fun _ => nd0).
