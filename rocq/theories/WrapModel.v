(** Builds without overflow checks (cargo build --release, ci.yml:116, 148, 329, 389; no profile in
    Cargo.toml switches the checks on): the functions of both stores and of the default methods
    that add or subtract addresses, with + and - that wrap around.  They differ from those of
    Trees.v, UnitModel.v, SplitModel.v and Doublets.v in nothing but the operators; all other
    functions are the same in both kinds of build.  [T::try_from(..).expect] panics in both. *)
From Coq Require Import NArith List Bool Lia.
From Verif Require Import Base Trees Lists UnitModel LinkModel SplitModel Iface Doublets.
Import ListNotations.
Open Scope N_scope.

(** + and - on an address type of the values 0 to tmax *)
Definition wadd (tmax a b : N) : out N := Val ((a + b) mod (tmax + 1)).
(** the difference below zero comes back from tmax *)
Definition wsub (tmax a b : N) : out N := Val (if b <=? a then a - b else a + (tmax + 1) - b).

(** count_usages, first loop: unit sources_…tree.rs:132-143 (targets_…tree.rs same shape;
    split external_*_tree.rs same shape).  [base i] is get_base_part(i). *)
Fixpoint wcu_right (fuel : nat) (tmax len : N) (c : N -> nd) (base : N -> N)
    (link root acc : N) : out N :=
  match fuel with
  | O => Diverge
  | S f =>
      if root =? 0 then Val acc
      else
        let* b := rd len base root in
        if b <=? link then
          let* r := right_or_default len c root in
          wcu_right f tmax len c base link r acc
        else
          let* rs := right_size len c root in
          let* rs1 := wadd tmax rs 1 in
          let* acc' := wadd tmax acc rs1 in
          let* l := left_or_default len c root in
          wcu_right f tmax len c base link l acc'
  end.

(** count_usages, second loop: sources_…tree.rs:144-154. *)
Fixpoint wcu_left (fuel : nat) (tmax len : N) (c : N -> nd) (base : N -> N)
    (link root acc : N) : out N :=
  match fuel with
  | O => Diverge
  | S f =>
      if root =? 0 then Val acc
      else
        let* b := rd len base root in
        if link <=? b then
          let* l := left_or_default len c root in
          wcu_left f tmax len c base link l acc
        else
          let* ls := left_size len c root in
          let* ls1 := wadd tmax ls 1 in
          let* acc' := wadd tmax acc ls1 in
          let* r := right_or_default len c root in
          wcu_left f tmax len c base link r acc'
  end.

(** count_usages: sources_…tree.rs:130-157.  [get_size(root)] is read even for root 0. *)
Definition wcount_usages_tree (fuel : nat) (tmax len : N) (c : N -> nd) (base : N -> N)
    (root link : N) : out N :=
  let* n := rd len c root in
  let total := nz n in
  let* ri := wcu_right fuel tmax len c base link root 0 in
  let* li := wcu_left fuel tmax len c base link root 0 in
  let* x := wsub tmax total ri in
  wsub tmax x li.

Section Unit.
  Variable cf : cfg.
  Variable tops : tree_ops.
  Variable lops : list_ops.
  Notation u_exists := (u_exists cf).
  Notation u_get_link := (u_get_link cf).
  Notation u_unused_detach := (u_unused_detach lops).
  Notation u_unused_attach := (u_unused_attach lops).
  Notation u_update := (u_update cf tops).

  (** get_total, store.rs:189-192 *)
  Definition wu_get_total (st : ust) : out N :=
    let* _ := u_header st in wsub (c_tmax cf) (h_alloc st) (h_free st).

  (** sources count_usages: sources_…tree.rs:130-157 *)
  Definition wu_src_count (st : ust) (v : N) : out N :=
    let* _ := u_header st in
    wcount_usages_tree (u_fuel st) (c_tmax cf) (u_len st) (u_src st) (fun i => fst (u_data st i)) (h_sroot st) v.

  (** targets count_usages: targets_…tree.rs:130-157 *)
  Definition wu_tgt_count (st : ust) (v : N) : out N :=
    let* _ := u_header st in
    wcount_usages_tree (u_fuel st) (c_tmax cf) (u_len st) (u_tgt st) (fun i => snd (u_data st i)) (h_troot st) v.

  (** count_links, store.rs:330-427 *)
  Definition wu_count (st : ust) (q : list N) : out N :=
    let any := c_any cf in
    match q with
    | [] => wu_get_total st
    | _ =>
        let* index := qget q (c_index_part cf) in
        match q with
        | [_] =>
            if index =? any then wu_get_total st
            else let* e := u_exists st index in Val (b2n e)
        | [_; value] =>
            if index =? any then
              if value =? any then wu_get_total st
              else
                let* a := wu_tgt_count st value in
                let* b := wu_src_count st value in
                wadd (c_tmax cf) a b
            else
              let* e := u_exists st index in
              if negb e then Val 0
              else if value =? any then Val 1
              else
                let* o := u_get_link st index in
                match o with
                | None => Val 0
                | Some lk => Val (b2n ((l_source lk =? value) || (l_target lk =? value)))
                end
        | [_; _; _] =>
            let* source := qget q (c_source_part cf) in
            let* target := qget q (c_target_part cf) in
            if index =? any then
              if (target =? any) && (source =? any) then wu_get_total st
              else if source =? any then wu_tgt_count st target
              else if target =? any then wu_src_count st source
              else
                let* r := u_src_search st source target in
                Val (if r =? c_null cf then 0 else 1)
            else
              let* e := u_exists st index in
              if negb e then Val 0
              else if (source =? any) && (target =? any) then Val 1
              else
                let* d := rd_unchecked (u_len st) (u_data st) index in
                Val (b2n (
                  if negb (source =? any) && negb (target =? any) then
                    (fst d =? source) && (snd d =? target)
                  else if source =? any then snd d =? target
                  else if target =? any then fst d =? source
                  else false))
        | _ => Panic (* todo!() *)
        end
    end.

  (** growth inside create_links, store.rs:444-453 *)
  Definition wu_grow (st : ust) : out (ust * result unit) :=
    let* r1 := wsub (c_tmax cf) (h_reserved st) 1 in
    if r1 <=? h_alloc st then
      match u_alloc_mem st (u_len st + c_step cf) with
      | None => Val (u_alloc_failed st, Err AllocFailed)
      | Some st1 =>
          let* _ := u_header st1 in
          let* r := ctry (c_tmax cf) (u_len st1) in
          Val (set_reserved st1 r, Ok tt)
      end
    else Val (st, Ok tt).

  (** create_links, store.rs:429-463 *)
  Definition wu_create {H} (h : whandler H) (q : list N) (st : ust) (s : H) : out (ust * H * result flow) :=
    let* _ := u_header st in
    let free := h_first st in
    if free =? c_null cf then
      let max_inner := c_iend cf in
      if max_inner <=? h_alloc st then Val (st, s, Err (LimitReached max_inner))
      else
        let* (st1, g) := wu_grow st in
        match g with
        | Err e => Val (st1, s, Err e)
        | Ok _ =>
            let* a := wadd (c_tmax cf) (h_alloc st1) 1 in
            let st2 := set_alloc st1 a in
            let (s', f) := h s nothing (mkLink a 0 0) in
            Val (st2, s', Ok f)
        end
    else
      let* st1 := u_unused_detach st free in
      let (s', f) := h s nothing (mkLink free 0 0) in
      Val (st1, s', Ok f).

  (** trim loop of delete_links, store.rs:541-548 *)
  Fixpoint wu_trim (fuel : nat) (st : ust) : out ust :=
    match fuel with
    | O => Diverge
    | S f =>
        let* _ := u_header st in
        let a := h_alloc st in
        let* b := (if 0 <? a then u_is_unused st a else Val false) in
        if negb b then Val st
        else
          let* st1 := u_unused_detach st a in
          let* a1 := wsub (c_tmax cf) a 1 in
          wu_trim f (set_alloc st1 a1)
    end.

  (** delete_links, store.rs:522-555; [self.update(index,0,0)?] is traits.rs:191-196,
      164-174, 135-162 with a handler that always continues *)
  Definition wu_delete {H} (h : whandler H) (q : list N) (st : ust) (s : H) : out (ust * H * result flow) :=
    let* index := qget q 0 in
    let* o := u_get_link st index in
    match o with
    | None => Val (st, s, Err (NotExists index))
    | Some lk =>
        let* (st1, _, r) := u_update (fun (u : unit) _ _ => (u, Continue)) [index] [index; 0; 0] st tt in
        match r with
        | Err e => Val (st1, s, Err e)
        | Ok _ =>
            let* _ := u_header st1 in
            let* st3 :=
              match index ?= h_alloc st1 with
              | Lt => u_unused_attach st1 index
              | Eq =>
                  let* a1 := wsub (c_tmax cf) (h_alloc st1) 1 in
                  wu_trim (u_fuel st1) (set_alloc st1 a1)
              | Gt => Panic (* unreachable!() *)
              end in
            let (s', f) := h s lk nothing in
            Val (st3, s', Ok f)
        end
    end.
End Unit.

Section Split.
  Variable cf : cfg.
  Variable tops : tree_ops.
  Variable lops : list_ops.
  Notation s_exists := (s_exists cf).
  Notation s_get_link := (s_get_link cf).
  Notation s_each := (s_each cf).
  Notation s_unused_detach := (s_unused_detach lops).
  Notation s_unused_attach := (s_unused_attach lops).
  Notation s_update := (s_update cf tops).
  Notation s_attach_is := (s_attach_is tops).
  Notation s_attach_it := (s_attach_it tops).
  Notation s_attach_es := (s_attach_es tops).
  Notation s_attach_et := (s_attach_et tops).
  Notation s_detach_is := (s_detach_is tops).
  Notation s_detach_it := (s_detach_it tops).
  Notation s_detach_es := (s_detach_es tops).
  Notation s_detach_et := (s_detach_et tops).

  (** total, store.rs:310-313 *)
  Definition ws_total (st : sst) : out N :=
    let* _ := s_header st in wsub (c_tmax cf) (sh_alloc st) (sh_free st).

  (** External trees: external_sources_…tree.rs:110-191, external_targets_…tree.rs *)
  Definition ws_es_count (st : sst) (v : N) : out N :=
    let* _ := s_header st in
    let* _ := s_view st in
    wcount_usages_tree (s_fuel st) (c_tmax cf) (s_len st) (s_is st) (fun i => fst (s_data st i)) (sh_sroot st) v.

  (** external_targets_…tree.rs:110-137 *)
  Definition ws_et_count (st : sst) (v : N) : out N :=
    let* _ := s_header st in
    let* _ := s_view st in
    wcount_usages_tree (s_fuel st) (c_tmax cf) (s_len st) (s_it st) (fun i => snd (s_data st i)) (sh_troot st) v.

  (** count_links, store.rs:551-689 *)
  Definition ws_count (st : sst) (q : list N) : out N :=
    let any := c_any cf in
    match q with
    | [] => ws_total st
    | _ =>
        let* index := qget q (c_index_part cf) in
        match q with
        | [_] =>
            if index =? any then ws_total st
            else let* e := s_exists st index in Val (b2n e)
        | [_; value] =>
            let* vv := s_is_virtual st value in
            if index =? any then
              if value =? any then ws_total st
              else if vv then
                let* a := ws_es_count st value in
                let* b := ws_et_count st value in
                wadd (c_tmax cf) a b
              else
                let* a := s_is_count st value in
                let* b := s_it_count st value in
                wadd (c_tmax cf) a b
            else
              let* e := s_exists st index in
              if negb e then Val 0
              else if value =? any then Val 1
              else
                let* d := s_get_data st index in
                Val (b2n ((fst d =? value) && (snd d =? value)))
        | [_; _; _] =>
            let* source := qget q (c_source_part cf) in
            let* target := qget q (c_target_part cf) in
            let* vs := s_is_virtual st source in
            let* vt := s_is_virtual st target in
            if index =? any then
              if (source =? any) && (target =? any) then ws_total st
              else if source =? any then
                if vt then ws_et_count st target else s_it_count st target
              else if vs then ws_es_count st source
              else if target =? any then s_is_count st source
              else
                let* r := s_search st vs vt source target in
                Val (if r =? c_null cf then 0 else 1)
            else
              let* e := s_exists st index in
              if negb e then Val 0
              else if (source =? any) && (target =? any) then Val 1
              else
                let* d := s_get_data_unchecked st index in
                Val (b2n (
                  if negb (source =? any) && negb (target =? any) then
                    (fst d =? source) && (snd d =? target)
                  else if source =? any then snd d =? target
                  else if target =? any then fst d =? source
                  else false))
        | _ => Panic (* todo!() *)
        end
    end.

  (** self.each_iter(query): traits.rs:658-668 *)
  Definition ws_each_iter (st : sst) (q : list N) : out (list link) :=
    let* _ := ws_count st q in
    let* (v, _) := s_each (fun v l => (v ++ [l], Continue)) q st [] in Val v.

  (** resolve_danglind_internal, store.rs:487-509 *)
  Definition ws_resolve_internal (st : sst) (index : N) : out sst :=
    let any := c_any cf in
    let* l1 := ws_each_iter st [any; index; any] in
    let* st1 := s_for (filter (fun k => negb (l_index k =? index)) l1)
      (fun x st => let* st1 := s_detach_is st index x in s_attach_es st1 x) st in
    let* l2 := ws_each_iter st1 [any; any; index] in
    s_for (filter (fun k => negb (link_is_full k)) (filter (fun k => negb (l_index k =? index)) l2))
      (fun x st => let* st1 := s_detach_it st index x in s_attach_et st1 x) st1.

  (** resolve_danglind_external, store.rs:511-533 *)
  Definition ws_resolve_external (st : sst) (free : N) : out sst :=
    let any := c_any cf in
    let* l1 := ws_each_iter st [any; free; any] in
    let* st1 := s_for (filter (fun k => negb (l_index k =? free)) l1)
      (fun x st => let* st1 := s_detach_es st x in s_attach_is st1 free x) st in
    let* l2 := ws_each_iter st1 [any; any; free] in
    s_for (filter (fun k => negb (link_is_full k)) (filter (fun k => negb (l_index k =? free)) l2))
      (fun x st => let* st1 := s_detach_et st x in s_attach_it st1 free x) st1.

  (** growth inside create_links, store.rs:704-719 *)
  Definition ws_grow (st : sst) : out (sst * result unit) :=
    let* r1 := wsub (c_tmax cf) (sh_reserved st) 1 in
    if r1 <=? sh_alloc st then
      let (st1, ok) := s_alloc_mem st (s_dcap st + c_step cf) (s_ilen st + c_step cf) in
      if ok then
        let* _ := s_header st1 in
        let* r := ctry (c_tmax cf) (s_ilen st1) in
        Val (s_set_reserved st1 r, Ok tt)
      else Val (st1, Err AllocFailed)
    else Val (st, Ok tt).

  (** create_links, store.rs:691-734 *)
  Definition ws_create {H} (h : whandler H) (q : list N) (st : sst) (x : H) : out (sst * H * result flow) :=
    let* _ := s_header st in
    let free := sh_first st in
    if free =? c_null cf then
      let max_inner := c_iend cf in
      if max_inner <=? sh_alloc st then Val (st, x, Err (LimitReached max_inner))
      else
        let* (st1, g) := ws_grow st in
        match g with
        | Err e => Val (st1, x, Err e)
        | Ok _ =>
            let* a := wadd (c_tmax cf) (sh_alloc st1) 1 in
            let* st2 := ws_resolve_external (s_set_alloc st1 a) a in
            let (x', f) := h x nothing (mkLink a 0 0) in
            Val (st2, x', Ok f)
        end
    else
      let* st1 := s_unused_detach st free in
      let* st2 := ws_resolve_external st1 free in
      let (x', f) := h x nothing (mkLink free 0 0) in
      Val (st2, x', Ok f).

  (** trim loop of delete_links, store.rs:832-839 *)
  Fixpoint ws_trim (fuel : nat) (st : sst) : out sst :=
    match fuel with
    | O => Diverge
    | S f =>
        let* _ := s_header st in
        let a := sh_alloc st in
        let* b := (if 0 <? a then s_is_unused st a else Val false) in
        if negb b then Val st
        else
          let* st1 := s_unused_detach st a in
          let* a1 := wsub (c_tmax cf) a 1 in
          ws_trim f (s_set_alloc st1 a1)
    end.

  (** delete_links, store.rs:812-849; [self.update(index,0,0)?] is traits.rs:191-196,
      164-174, 135-162 with a handler that always continues *)
  Definition ws_delete {H} (h : whandler H) (q : list N) (st : sst) (x : H) : out (sst * H * result flow) :=
    let* index := qget q 0 in
    let* o := s_get_link st index in
    match o with
    | None => Val (st, x, Err (NotExists index))
    | Some lk =>
        let* st0 := ws_resolve_internal st index in
        let* (st1, _, r) := s_update (fun (u : unit) _ _ => (u, Continue)) [index] [index; 0; 0] st0 tt in
        match r with
        | Err e => Val (st1, x, Err e)
        | Ok _ =>
            let* _ := s_header st1 in
            let* st3 :=
              match index ?= sh_alloc st1 with
              | Lt => s_unused_attach st1 index
              | Eq =>
                  let* a1 := wsub (c_tmax cf) (sh_alloc st1) 1 in
                  ws_trim (s_fuel st1) (s_set_alloc st1 a1)
              | Gt => Panic (* unreachable!() *)
              end in
            let (x', f) := h x (mkLink index (l_source lk) (l_target lk)) nothing in
            Val (st3, x', Ok f)
        end
    end.
End Split.

Section Default.
  Variable cf : cfg.
  Context {S : Type}.
  Variable I : LinksI S.
  Notation d_count_by := (d_count_by I).
  Notation d_try_get_link := (d_try_get_link I).
  Notation d_each_by := (d_each_by I).

  (** count_usages: traits.rs:436-455 *)
  Definition wd_count_usages (st : S) (i : N) : out (result N) :=
    let any := c_any cf in
    let* r := d_try_get_link st i in
    match r with
    | Err e => Val (Err e)
    | Ok l =>
        let* us0 := d_count_by st [any; i; any] in
        let* us := (if i =? l_source l then wsub (c_tmax cf) us0 1 else Val us0) in
        let* ut0 := d_count_by st [any; any; i] in
        let* ut := (if i =? l_target l then wsub (c_tmax cf) ut0 1 else Val ut0) in
        let* n := wadd (c_tmax cf) us ut in
        Val (Ok n)
    end.

  (** usages: traits.rs:457-478 *)
  Definition wd_usages (st : S) (i : N) : out (result (list N)) :=
    let any := c_any cf in
    let push := fun (v : list N) l =>
      (if negb (l_index l =? i) then v ++ [l_index l] else v, @None unit) in
    let* r := wd_count_usages st i in
    match r with
    | Err e => Val (Err e)
    | Ok _ =>
        let* (v1, _) := d_each_by push [any; i; any] st [] in
        let* (v2, _) := d_each_by push [any; any; i] st v1 in
        Val (Ok v2)
    end.

  (** has_usages: traits.rs:492-498 *)
  Definition wd_has_usages (st : S) (i : N) : out bool :=
    let* r := wd_count_usages st i in
    Val (match r with Ok n => negb (n =? 0) | Err _ => false end).
End Default.

(** The stores of such builds; each_links, update_links and get_link neither add nor subtract. *)
Definition wunit_links (cf : cfg) (tops : tree_ops) (lops : list_ops) : LinksI ust :=
  mkLinksI ust
    (wu_count cf)
    (fun H h q st x => wu_create cf lops h q st x)
    (fun H h q st x => u_each cf h q st x)
    (fun H h q ch st x => u_update cf tops h q ch st x)
    (fun H h q st x => wu_delete cf tops lops h q st x)
    (u_get_link cf).
(** split/store.rs:551-849 with the functions above *)
Definition wsplit_links (cf : cfg) (tops : tree_ops) (lops : list_ops) : LinksI sst :=
  mkLinksI sst
    (ws_count cf)
    (fun H h q st x => ws_create cf tops lops h q st x)
    (fun H h q st x => s_each cf h q st x)
    (fun H h q ch st x => s_update cf tops h q ch st x)
    (fun H h q st x => ws_delete cf tops lops h q st x)
    (s_get_link cf).
