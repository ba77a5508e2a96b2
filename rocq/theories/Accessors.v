(** The methods the external crate [trees] operates the six search trees and the two lists of
    free links through (trait impls of SzbTree, AbsoluteLinkedList and LinkedList), on the flat
    words of the memory, and the claim that whatever an algorithm does through them is an
    operation on one column and one root, or on the list fields, and nothing else (C75, C76).
    This is what makes [tree_ops] and [list_ops] functions of a column and a root, and of the
    list header and the data. *)
From Coq Require Import NArith List Bool String Lia.
From Verif Require Import Base Trees Lists TreeImpl UnitModel SplitModel UnitHist SplitHist Layout.
Import ListNotations.
Open Scope N_scope.

(** * The memory a tree or a list holds pointers to *)
Record slice := mkSlice { sl_len : N; sl_w : N -> N }.
(** The split store's trees hold two slices (internal_recursion_less_base.rs,
    external_recursion_less_base.rs: fields data, indexes).  The single-memory store's hold one
    (links_recursionless_size_balanced_tree_base.rs:11-12), which is [m_index] here. *)
Record mem := mkMem { m_data : slice; m_index : slice }.

(** [&mem.as_ref()[i]] and a field of it: the index is checked. *)
Definition fld (fs : list string) (s : slice) (i : N) (f : string) : out N :=
  if i <? sl_len s then Val (sl_w s (word_at fs i f)) else Panic.
(** [addr_of!(mem.as_ref()[i].f)] *)
Definition fld_ref (fs : list string) (s : slice) (i : N) (f : string) : out N :=
  if i <? sl_len s then Val (word_at fs i f) else Panic.
(** [mem.as_mut()[i].f = v] *)
Definition fld_put (fs : list string) (s : slice) (i : N) (f : string) (v : N) : out slice :=
  if i <? sl_len s then Val (mkSlice (sl_len s) (upd (sl_w s) (word_at fs i f) v)) else Panic.
Definition ix_put (fs : list string) (m : mem) (i : N) (f : string) (v : N) : out mem :=
  let* s := fld_put fs (m_index m) i f v in Val (mkMem (m_data m) s).
Definition dt_put (fs : list string) (m : mem) (i : N) (f : string) (v : N) : out mem :=
  let* s := fld_put fs (m_data m) i f v in Val (mkMem s (m_index m)).

(** * SzbTree *)
Record accessors := mkAcc {
  a_left_ref : mem -> N -> out N;
  a_right_ref : mem -> N -> out N;
  a_mut_left_ref : mem -> N -> out N;
  a_mut_right_ref : mem -> N -> out N;
  a_left : mem -> N -> out N;
  a_right : mem -> N -> out N;
  a_size : mem -> N -> out N;
  a_set_left : mem -> N -> N -> out mem;
  a_set_right : mem -> N -> N -> out mem;
  a_set_size : mem -> N -> N -> out mem;
  a_left_of : mem -> N -> N -> out bool;
  a_right_of : mem -> N -> N -> out bool;
  a_clear : mem -> N -> out mem
}.

(** first_is_to_the_left_of_second_4 and first_is_to_the_right_of_second_4:
    unit sources_…tree.rs:229-249, external_sources_…tree.rs:246-266 *)
Definition src_left4 (fs ft ss st : N) : bool := (fs <? ss) || ((fs =? ss) && (ft <? st)).
Definition src_right4 (fs ft ss st : N) : bool := (ss <? fs) || ((fs =? ss) && (st <? ft)).
(** unit targets_…tree.rs:229-249, external_targets_…tree.rs:244-264 *)
Definition tgt_left4 (fs ft ss st : N) : bool := (ft <? st) || ((ft =? st) && (fs <? ss)).
Definition tgt_right4 (fs ft ss st : N) : bool := (st <? ft) || ((ft =? st) && (ss <? fs)).

(** first_is_to_the_…_of_second: unit sources_…tree.rs:73-93, targets_…tree.rs:73-93,
    external_sources_…tree.rs:79-99, external_targets_…tree.rs:77-97.  [fs]/[s]: the struct and
    slice of get_link or get_data_part. *)
Definition compare4 (fs : list string) (s : slice) (c4 : N -> N -> N -> N -> bool) (first second : N) : out bool :=
  let* a := fld fs s first "source" in let* b := fld fs s first "target" in
  let* c := fld fs s second "source" in let* d := fld fs s second "target" in
  Val (c4 a b c d).

(** unit/generic/sources_recursionless_size_balanced_tree.rs *)
Definition us_acc : accessors := {|
  a_left_ref := fun m n => fld_ref link_fields (m_index m) n "left_as_source"; (* 33-35 *)
  a_right_ref := fun m n => fld_ref link_fields (m_index m) n "right_as_source"; (* 37-39 *)
  a_mut_left_ref := fun m n => fld_ref link_fields (m_index m) n "left_as_source"; (* 41-43 *)
  a_mut_right_ref := fun m n => fld_ref link_fields (m_index m) n "right_as_source"; (* 45-47 *)
  a_left := fun m n => fld link_fields (m_index m) n "left_as_source"; (* 49-51 *)
  a_right := fun m n => fld link_fields (m_index m) n "right_as_source"; (* 53-55 *)
  a_size := fun m n => fld link_fields (m_index m) n "size_as_source"; (* 57-59 *)
  a_set_left := fun m n v => ix_put link_fields m n "left_as_source" v; (* 61-63 *)
  a_set_right := fun m n v => ix_put link_fields m n "right_as_source" v; (* 65-67 *)
  a_set_size := fun m n v => ix_put link_fields m n "size_as_source" v; (* 69-71 *)
  a_left_of := fun m a b => compare4 link_fields (m_index m) src_left4 a b; (* 73-82 *)
  a_right_of := fun m a b => compare4 link_fields (m_index m) src_right4 a b; (* 84-93 *)
  a_clear := fun m n => (* 95-100 *)
    let* m1 := ix_put link_fields m n "left_as_source" 0 in
    let* m2 := ix_put link_fields m1 n "right_as_source" 0 in
    ix_put link_fields m2 n "size_as_source" 0
|}.

(** unit/generic/targets_recursionless_size_balanced_tree.rs *)
Definition ut_acc : accessors := {|
  a_left_ref := fun m n => fld_ref link_fields (m_index m) n "left_as_target"; (* 33-35 *)
  a_right_ref := fun m n => fld_ref link_fields (m_index m) n "right_as_target"; (* 37-39 *)
  a_mut_left_ref := fun m n => fld_ref link_fields (m_index m) n "left_as_target"; (* 41-43 *)
  a_mut_right_ref := fun m n => fld_ref link_fields (m_index m) n "right_as_target"; (* 45-47 *)
  a_left := fun m n => fld link_fields (m_index m) n "left_as_target"; (* 49-51 *)
  a_right := fun m n => fld link_fields (m_index m) n "right_as_target"; (* 53-55 *)
  a_size := fun m n => fld link_fields (m_index m) n "size_as_target"; (* 57-59 *)
  a_set_left := fun m n v => ix_put link_fields m n "left_as_target" v; (* 61-63 *)
  a_set_right := fun m n v => ix_put link_fields m n "right_as_target" v; (* 65-67 *)
  a_set_size := fun m n v => ix_put link_fields m n "size_as_target" v; (* 69-71 *)
  a_left_of := fun m a b => compare4 link_fields (m_index m) tgt_left4 a b; (* 73-82 *)
  a_right_of := fun m a b => compare4 link_fields (m_index m) tgt_right4 a b; (* 84-93 *)
  a_clear := fun m n => (* 95-100 *)
    let* m1 := ix_put link_fields m n "left_as_target" 0 in
    let* m2 := ix_put link_fields m1 n "right_as_target" 0 in
    ix_put link_fields m2 n "size_as_target" 0
|}.

(** split/generic/internal_sources_recursion_less_tree.rs *)
Definition is_acc : accessors := {|
  a_left_ref := fun m n => fld_ref index_fields (m_index m) n "left_as_source"; (* 37-39 *)
  a_right_ref := fun m n => fld_ref index_fields (m_index m) n "right_as_source"; (* 41-43 *)
  a_mut_left_ref := fun m n => fld_ref index_fields (m_index m) n "left_as_source"; (* 45-47 *)
  a_mut_right_ref := fun m n => fld_ref index_fields (m_index m) n "right_as_source"; (* 49-51 *)
  a_left := fun m n => fld index_fields (m_index m) n "left_as_source"; (* 53-55 *)
  a_right := fun m n => fld index_fields (m_index m) n "right_as_source"; (* 57-59 *)
  a_size := fun m n => fld index_fields (m_index m) n "size_as_source"; (* 61-63 *)
  a_set_left := fun m n v => ix_put index_fields m n "left_as_source" v; (* 65-67 *)
  a_set_right := fun m n v => ix_put index_fields m n "right_as_source" v; (* 69-71 *)
  a_set_size := fun m n v => ix_put index_fields m n "size_as_source" v; (* 73-75 *)
  a_left_of := fun m a b => (* 77-79, get_key_part 170-172 *)
    let* x := fld data_fields (m_data m) a "target" in
    let* y := fld data_fields (m_data m) b "target" in Val (x <? y);
  a_right_of := fun m a b => (* 81-83 *)
    let* x := fld data_fields (m_data m) a "target" in
    let* y := fld data_fields (m_data m) b "target" in Val (y <? x);
  a_clear := fun m n => (* 85-90 *)
    let* m1 := ix_put index_fields m n "left_as_source" 0 in
    let* m2 := ix_put index_fields m1 n "right_as_source" 0 in
    ix_put index_fields m2 n "size_as_source" 0
|}.

(** split/generic/internal_targets_recursion_less_tree.rs *)
Definition it_acc : accessors := {|
  a_left_ref := fun m n => fld_ref index_fields (m_index m) n "left_as_target"; (* 37-39 *)
  a_right_ref := fun m n => fld_ref index_fields (m_index m) n "right_as_target"; (* 41-43 *)
  a_mut_left_ref := fun m n => fld_ref index_fields (m_index m) n "left_as_target"; (* 45-47 *)
  a_mut_right_ref := fun m n => fld_ref index_fields (m_index m) n "right_as_target"; (* 49-51 *)
  a_left := fun m n => fld index_fields (m_index m) n "left_as_target"; (* 53-55 *)
  a_right := fun m n => fld index_fields (m_index m) n "right_as_target"; (* 57-59 *)
  a_size := fun m n => fld index_fields (m_index m) n "size_as_target"; (* 61-63 *)
  a_set_left := fun m n v => ix_put index_fields m n "left_as_target" v; (* 65-67 *)
  a_set_right := fun m n v => ix_put index_fields m n "right_as_target" v; (* 69-71 *)
  a_set_size := fun m n v => ix_put index_fields m n "size_as_target" v; (* 73-75 *)
  a_left_of := fun m a b => (* 77-79, get_key_part 177-179 *)
    let* x := fld data_fields (m_data m) a "source" in
    let* y := fld data_fields (m_data m) b "source" in Val (x <? y);
  a_right_of := fun m a b => (* 81-83 *)
    let* x := fld data_fields (m_data m) a "source" in
    let* y := fld data_fields (m_data m) b "source" in Val (y <? x);
  a_clear := fun m n => (* 85-90 *)
    let* m1 := ix_put index_fields m n "left_as_target" 0 in
    let* m2 := ix_put index_fields m1 n "right_as_target" 0 in
    ix_put index_fields m2 n "size_as_target" 0
|}.

(** split/generic/external_sources_recursion_less_tree.rs *)
Definition es_acc : accessors := {|
  a_left_ref := fun m n => fld_ref index_fields (m_index m) n "left_as_source"; (* 39-41 *)
  a_right_ref := fun m n => fld_ref index_fields (m_index m) n "right_as_source"; (* 43-45 *)
  a_mut_left_ref := fun m n => fld_ref index_fields (m_index m) n "left_as_source"; (* 47-49 *)
  a_mut_right_ref := fun m n => fld_ref index_fields (m_index m) n "right_as_source"; (* 51-53 *)
  a_left := fun m n => fld index_fields (m_index m) n "left_as_source"; (* 55-57 *)
  a_right := fun m n => fld index_fields (m_index m) n "right_as_source"; (* 59-61 *)
  a_size := fun m n => fld index_fields (m_index m) n "size_as_source"; (* 63-65 *)
  a_set_left := fun m n v => ix_put index_fields m n "left_as_source" v; (* 67-69 *)
  a_set_right := fun m n v => ix_put index_fields m n "right_as_source" v; (* 71-73 *)
  a_set_size := fun m n v => ix_put index_fields m n "size_as_source" v; (* 75-77 *)
  a_left_of := fun m a b => compare4 data_fields (m_data m) src_left4 a b; (* 79-88 *)
  a_right_of := fun m a b => compare4 data_fields (m_data m) src_right4 a b; (* 90-99 *)
  a_clear := fun m n => (* 101-106 *)
    let* m1 := ix_put index_fields m n "left_as_source" 0 in
    let* m2 := ix_put index_fields m1 n "right_as_source" 0 in
    ix_put index_fields m2 n "size_as_source" 0
|}.

(** split/generic/external_targets_recursion_less_tree.rs *)
Definition et_acc : accessors := {|
  a_left_ref := fun m n => fld_ref index_fields (m_index m) n "left_as_target"; (* 37-39 *)
  a_right_ref := fun m n => fld_ref index_fields (m_index m) n "right_as_target"; (* 41-43 *)
  a_mut_left_ref := fun m n => fld_ref index_fields (m_index m) n "left_as_target"; (* 45-47 *)
  a_mut_right_ref := fun m n => fld_ref index_fields (m_index m) n "right_as_target"; (* 49-51 *)
  a_left := fun m n => fld index_fields (m_index m) n "left_as_target"; (* 53-55 *)
  a_right := fun m n => fld index_fields (m_index m) n "right_as_target"; (* 57-59 *)
  a_size := fun m n => fld index_fields (m_index m) n "size_as_target"; (* 61-63 *)
  a_set_left := fun m n v => ix_put index_fields m n "left_as_target" v; (* 65-67 *)
  a_set_right := fun m n v => ix_put index_fields m n "right_as_target" v; (* 69-71 *)
  a_set_size := fun m n v => ix_put index_fields m n "size_as_target" v; (* 73-75 *)
  a_left_of := fun m a b => compare4 data_fields (m_data m) tgt_left4 a b; (* 77-86 *)
  a_right_of := fun m a b => compare4 data_fields (m_data m) tgt_right4 a b; (* 88-97 *)
  a_clear := fun m n => (* 99-104 *)
    let* m1 := ix_put index_fields m n "left_as_target" 0 in
    let* m2 := ix_put index_fields m1 n "right_as_target" 0 in
    ix_put index_fields m2 n "size_as_target" 0
|}.

(** The root pointer handed to attach and detach: mut_source_root / mut_target_root of
    unit/store.rs:145-151, mut_source_header_root / mut_target_header_root and
    mut_source_root / mut_target_root of split/store.rs:174-188. *)
Definition us_root := word_at header_fields 0 "root_as_source".
Definition ut_root := word_at header_fields 0 "root_as_target".
Definition es_root := word_at header_fields 0 "root_as_source".
Definition et_root := word_at header_fields 0 "root_as_target".
Definition is_root (v : N) := word_at index_fields v "root_as_source".
Definition it_root (v : N) := word_at index_fields v "root_as_target".

(** * Tree algorithms *)
(** A pointer a tree algorithm can hold: the root it was given, or one it obtained from
    get_(mut_)left_reference or get_(mut_)right_reference. *)
Inductive ref := Root | LeftOf (n : N) | RightOf (n : N).
(** What an algorithm over SzbTree can do: call the methods and go through the pointers. *)
Inductive prog (A : Type) : Type :=
| Done (o : out A)
| GetLeft (n : N) (k : N -> prog A)
| GetRight (n : N) (k : N -> prog A)
| GetSize (n : N) (k : N -> prog A)
| SetLeft (n v : N) (k : prog A)
| SetRight (n v : N) (k : prog A)
| SetSize (n v : N) (k : prog A)
| ClearNode (n : N) (k : prog A)
| IsLeft (a b : N) (k : bool -> prog A)
| IsRight (a b : N) (k : bool -> prog A)
| Read (r : ref) (k : N -> prog A)
| Write (r : ref) (v : N) (k : prog A).
Arguments Done {A}. Arguments GetLeft {A}. Arguments GetRight {A}. Arguments GetSize {A}.
Arguments SetLeft {A}. Arguments SetRight {A}. Arguments SetSize {A}. Arguments ClearNode {A}.
Arguments IsLeft {A}. Arguments IsRight {A}. Arguments Read {A}. Arguments Write {A}.

(** Running one on the memory, through the methods of a tree. *)
Definition ref_word (acc : accessors) (root : N) (m : mem) (r : ref) : out N :=
  match r with Root => Val root | LeftOf n => a_left_ref acc m n | RightOf n => a_right_ref acc m n end.
Definition mut_ref_word (acc : accessors) (root : N) (m : mem) (r : ref) : out N :=
  match r with Root => Val root | LeftOf n => a_mut_left_ref acc m n | RightOf n => a_mut_right_ref acc m n end.
Fixpoint on_memory {A} (acc : accessors) (root : N) (p : prog A) (m : mem) : out (A * mem) :=
  match p with
  | Done o => let* a := o in Val (a, m)
  | GetLeft n k => let* v := a_left acc m n in on_memory acc root (k v) m
  | GetRight n k => let* v := a_right acc m n in on_memory acc root (k v) m
  | GetSize n k => let* v := a_size acc m n in on_memory acc root (k v) m
  | SetLeft n v k => let* m' := a_set_left acc m n v in on_memory acc root k m'
  | SetRight n v k => let* m' := a_set_right acc m n v in on_memory acc root k m'
  | SetSize n v k => let* m' := a_set_size acc m n v in on_memory acc root k m'
  | ClearNode n k => let* m' := a_clear acc m n in on_memory acc root k m'
  | IsLeft a b k => let* x := a_left_of acc m a b in on_memory acc root (k x) m
  | IsRight a b k => let* x := a_right_of acc m a b in on_memory acc root (k x) m
  | Read r k => let* w := ref_word acc root m r in on_memory acc root (k (sl_w (m_index m) w)) m
  | Write r v k =>
      let* w := mut_ref_word acc root m r in
      on_memory acc root k (mkMem (m_data m) (mkSlice (sl_len (m_index m)) (upd (sl_w (m_index m)) w v)))
  end.

(** Running one on a bare tree: a column of nodes and a root, [klen] keys and [len] nodes.  Node 0
    means "no node"; using it as one is outside of this claim ([UB]), because slot 0 is the header. *)
Definition node {B} (len n : N) (k : out B) : out B :=
  if n =? 0 then UB else if n <? len then k else Panic.
Definition nodes {B} (len a b : N) (k : out B) : out B :=
  if (a =? 0) || (b =? 0) then UB else if (a <? len) && (b <? len) then k else Panic.
Fixpoint on_tree {A} (klen len : N) (ky : N -> key) (p : prog A) (c : N -> nd) (root : N) : out (A * (N -> nd) * N) :=
  let go := fun q c r => on_tree klen len ky q c r in
  match p with
  | Done o => let* a := o in Val (a, c, root)
  | GetLeft n k => node len n (go (k (nl (c n))) c root)
  | GetRight n k => node len n (go (k (nr (c n))) c root)
  | GetSize n k => node len n (go (k (nz (c n))) c root)
  | SetLeft n v k => node len n (go k (upd c n (mkNd v (nr (c n)) (nz (c n)))) root)
  | SetRight n v k => node len n (go k (upd c n (mkNd (nl (c n)) v (nz (c n)))) root)
  | SetSize n v k => node len n (go k (upd c n (mkNd (nl (c n)) (nr (c n)) v)) root)
  | ClearNode n k => node len n (go k (upd c n nd0) root)
  | IsLeft a b k => nodes klen a b (go (k (klt (ky a) (ky b))) c root)
  | IsRight a b k => nodes klen a b (go (k (klt (ky b) (ky a))) c root)
  | Read Root k => go (k root) c root
  | Read (LeftOf n) k => node len n (go (k (nl (c n))) c root)
  | Read (RightOf n) k => node len n (go (k (nr (c n))) c root)
  | Write Root v k => go k c v
  | Write (LeftOf n) v k => node len n (go k (upd c n (mkNd v (nr (c n)) (nz (c n)))) root)
  | Write (RightOf n) v k => node len n (go k (upd c n (mkNd (nl (c n)) v (nz (c n)))) root)
  end.

(** * Simulation *)
Definition same_mem (m m' : mem) : Prop :=
  sl_len (m_data m) = sl_len (m_data m') /\ sl_len (m_index m) = sl_len (m_index m') /\
  (forall w, sl_w (m_data m) w = sl_w (m_data m') w) /\ (forall w, sl_w (m_index m) w = sl_w (m_index m') w).
(** The two runs agree: same value and same memory, or the same failure; [UB] on the tree promises nothing. *)
Definition agree {A} (M : (N -> nd) -> N -> mem) (x : out (A * (N -> nd) * N)) (y : out (A * mem)) : Prop :=
  match x with
  | Val (a, c, r) => exists m, y = Val (a, m) /\ same_mem m (M c r)
  | Panic => y = Panic
  | Diverge => y = Diverge
  | UB => True
  end.

(** What the words of slot [n] have to be for the tree fields [l], [r], [z] of the structs [fs]. *)
Record shape := mkShape { sh_fs : list string; sh_l : string; sh_r : string; sh_z : string }.
Definition shaped (acc : accessors) (s : shape) : Prop :=
  let F := sh_fs s in
  (forall m n, a_left_ref acc m n = fld_ref F (m_index m) n (sh_l s)) /\ (forall m n, a_right_ref acc m n = fld_ref F (m_index m) n (sh_r s)) /\
  (forall m n, a_mut_left_ref acc m n = fld_ref F (m_index m) n (sh_l s)) /\ (forall m n, a_mut_right_ref acc m n = fld_ref F (m_index m) n (sh_r s)) /\
  (forall m n, a_left acc m n = fld F (m_index m) n (sh_l s)) /\ (forall m n, a_right acc m n = fld F (m_index m) n (sh_r s)) /\
  (forall m n, a_size acc m n = fld F (m_index m) n (sh_z s)) /\
  (forall m n v, a_set_left acc m n v = ix_put F m n (sh_l s) v) /\ (forall m n v, a_set_right acc m n v = ix_put F m n (sh_r s) v) /\
  (forall m n v, a_set_size acc m n v = ix_put F m n (sh_z s) v) /\
  (forall m n, a_clear acc m n = let* m1 := ix_put F m n (sh_l s) 0 in let* m2 := ix_put F m1 n (sh_r s) 0 in ix_put F m2 n (sh_z s) 0).
(** [M c r] is the memory with column [c] and root [r]. *)
Definition holds_tree (s : shape) (rootw len : N) (M : (N -> nd) -> N -> mem) : Prop :=
  let F := sh_fs s in
  (forall c r, sl_len (m_index (M c r)) = len) /\
  (forall c r n, n <> 0 -> let W := sl_w (m_index (M c r)) in
     W (word_at F n (sh_l s)) = nl (c n) /\ W (word_at F n (sh_r s)) = nr (c n) /\ W (word_at F n (sh_z s)) = nz (c n)) /\
  (forall c r, sl_w (m_index (M c r)) rootw = r) /\
  (forall c r n v, n <> 0 -> let W := sl_w (m_index (M c r)) in
     (forall w, sl_w (m_index (M (upd c n (mkNd v (nr (c n)) (nz (c n)))) r)) w = upd W (word_at F n (sh_l s)) v w) /\
     (forall w, sl_w (m_index (M (upd c n (mkNd (nl (c n)) v (nz (c n)))) r)) w = upd W (word_at F n (sh_r s)) v w) /\
     (forall w, sl_w (m_index (M (upd c n (mkNd (nl (c n)) (nr (c n)) v)) r)) w = upd W (word_at F n (sh_z s)) v w)) /\
  (forall c r v w, sl_w (m_index (M c v)) w = upd (sl_w (m_index (M c r))) rootw v w) /\
  (forall c c' r r', m_data (M c r) = m_data (M c' r')) /\
  (forall c c' r, (forall i, c i = c' i) -> same_mem (M c r) (M c' r)).
Definition compares (acc : accessors) (klen : N) (ky : N -> key) (M : (N -> nd) -> N -> mem) : Prop :=
  forall m c r a b, same_mem m (M c r) -> a <> 0 -> b <> 0 ->
    a_left_of acc m a b = (if (a <? klen) && (b <? klen) then Val (klt (ky a) (ky b)) else Panic) /\
    a_right_of acc m a b = (if (a <? klen) && (b <? klen) then Val (klt (ky b) (ky a)) else Panic).

Lemma upd_ext2 {B} (f g : N -> B) i v w : (forall w, f w = g w) -> upd f i v w = upd g i v w.
Proof. intros E. unfold upd. now destruct (w =? i). Qed.
Lemma same_trans a b c : same_mem a b -> same_mem b c -> same_mem a c.
Proof. intros (A & B & C & D) (A' & B' & C' & D'). repeat split; intros; congruence. Qed.
Lemma same_sym a b : same_mem a b -> same_mem b a.
Proof. intros (A & B & C & D). repeat split; intros; congruence. Qed.
Lemma same_refl a : same_mem a a.
Proof. repeat split. Qed.

Section Sim.
  Variables (acc : accessors) (s : shape) (rootw klen len : N) (ky : N -> key) (M : (N -> nd) -> N -> mem).
  Hypothesis SH : shaped acc s.
  Hypothesis HT : holds_tree s rootw len M.
  Hypothesis CM : compares acc klen ky M.

  (** One write of word [w]. *)
  Lemma poke_ok m c r w v c' r' : same_mem m (M c r) ->
    (forall x, sl_w (m_index (M c' r')) x = upd (sl_w (m_index (M c r))) w v x) ->
    same_mem (mkMem (m_data m) (mkSlice (sl_len (m_index m)) (upd (sl_w (m_index m)) w v))) (M c' r').
  Proof.
    intros (D & I & DW & IW) U. destruct HT as (HL & _ & _ & _ & _ & HD & _).
    split; [cbn; rewrite D; now rewrite (HD c c' r r')|]. split; [cbn; rewrite I; now rewrite !HL|]. split; cbn; intros x.
    - rewrite DW. now rewrite (HD c c' r r').
    - rewrite U. now apply upd_ext2.
  Qed.
  Lemma put_ok m c r n f v c' : n < len -> same_mem m (M c r) ->
    (forall w, sl_w (m_index (M c' r)) w = upd (sl_w (m_index (M c r))) (word_at (sh_fs s) n f) v w) ->
    exists m', ix_put (sh_fs s) m n f v = Val m' /\ same_mem m' (M c' r).
  Proof.
    intros L SM U. pose proof SM as (D & I & DW & IW). destruct HT as (HL & _).
    unfold ix_put, fld_put. rewrite I, HL. apply N.ltb_lt in L. rewrite L. cbn [obind]. eexists. split; [reflexivity|].
    rewrite <- (HL c r), <- I. eapply poke_ok; eauto.
  Qed.
  Lemma put_oob m c r n f v : (n <? len) = false -> same_mem m (M c r) -> ix_put (sh_fs s) m n f v = Panic.
  Proof. intros L (D & I & _). destruct HT as (HL & _). unfold ix_put, fld_put. now rewrite I, HL, L. Qed.
  Lemma get_ok m c r n f x : same_mem m (M c r) -> sl_w (m_index (M c r)) (word_at (sh_fs s) n f) = x ->
    fld (sh_fs s) (m_index m) n f = if n <? len then Val x else Panic.
  Proof. intros (D & I & DW & IW) E. destruct HT as (HL & _). unfold fld. now rewrite I, HL, IW, E. Qed.
  Lemma ref_ok m c r n f : same_mem m (M c r) -> fld_ref (sh_fs s) (m_index m) n f = if n <? len then Val (word_at (sh_fs s) n f) else Panic.
  Proof. intros (D & I & _). destruct HT as (HL & _). unfold fld_ref. now rewrite I, HL. Qed.

  Lemma simulates A (p : prog A) : forall c r m, same_mem m (M c r) ->
    agree M (on_tree klen len ky p c r) (on_memory acc rootw p m).
  Proof.
    destruct SH as (S1 & S2 & S3 & S4 & S5 & S6 & S7 & S8 & S9 & S10 & S11). cbv zeta in *.
    destruct HT as (HL & HN & HR & HW & HRW & HD & HE). cbv zeta in *.
    assert (PUT : forall (k : prog A), (forall c r m, same_mem m (M c r) -> agree M (on_tree klen len ky k c r) (on_memory acc rootw k m)) ->
      forall c r m n f v c', same_mem m (M c r) ->
      (n <> 0 -> forall w, sl_w (m_index (M c' r)) w = upd (sl_w (m_index (M c r))) (word_at (sh_fs s) n f) v w) ->
      agree M (node len n (on_tree klen len ky k c' r)) (let* m' := ix_put (sh_fs s) m n f v in on_memory acc rootw k m')).
    { intros k IH c r m n f v c' SM U. unfold node. destruct (N.eqb_spec n 0) as [|N0]; [exact I|].
      destruct (n <? len) eqn:L.
      - apply N.ltb_lt in L. destruct (put_ok m c r n f v c' L SM (U N0)) as (m' & -> & SM'). cbn [obind]. now apply IH.
      - rewrite (put_oob m c r n f v L SM). reflexivity. }
    assert (GET : forall (k : N -> prog A), (forall v c r m, same_mem m (M c r) -> agree M (on_tree klen len ky (k v) c r) (on_memory acc rootw (k v) m)) ->
      forall c r m n f x, same_mem m (M c r) -> (n <> 0 -> sl_w (m_index (M c r)) (word_at (sh_fs s) n f) = x) ->
      agree M (node len n (on_tree klen len ky (k x) c r)) (let* v := fld (sh_fs s) (m_index m) n f in on_memory acc rootw (k v) m)).
    { intros k IH c r m n f x SM E. unfold node. destruct (N.eqb_spec n 0) as [|N0]; [exact I|].
      rewrite (get_ok m c r n f x SM (E N0)). destruct (n <? len); [cbn [obind]; now apply IH|reflexivity]. }
    assert (IW : forall m c r w, same_mem m (M c r) -> sl_w (m_index m) w = sl_w (m_index (M c r)) w) by (intros m c r w (_ & _ & _ & E); apply E).
    induction p as [o|n k IH|n k IH|n k IH|n v k IH|n v k IH|n v k IH|n k IH|a b k IH|a b k IH|rf k IH|rf v k IH]; intros c r m SM; cbn [on_tree on_memory].
    - destruct o; cbn; auto. eexists; split; [reflexivity|exact SM].
    - rewrite S5. apply GET; auto. intros N0. apply (HN c r n N0).
    - rewrite S6. apply GET; auto. intros N0. apply (HN c r n N0).
    - rewrite S7. apply GET; auto. intros N0. apply (HN c r n N0).
    - rewrite S8. apply PUT with (c := c); auto. intros N0. apply (HW c r n v N0).
    - rewrite S9. apply PUT with (c := c); auto. intros N0. apply (HW c r n v N0).
    - rewrite S10. apply PUT with (c := c); auto. intros N0. apply (HW c r n v N0).
    - rewrite S11. unfold node. destruct (N.eqb_spec n 0) as [|N0]; [exact I|]. destruct (n <? len) eqn:L.
      + apply N.ltb_lt in L. pose proof (proj1 (HW c r n 0 N0)) as W1.
        destruct (put_ok m c r n (sh_l s) 0 _ L SM W1) as (m1 & -> & SM1). cbn [obind].
        pose proof (proj1 (proj2 (HW (upd c n (mkNd 0 (nr (c n)) (nz (c n)))) r n 0 N0))) as W2.
        destruct (put_ok m1 _ r n (sh_r s) 0 _ L SM1 W2) as (m2 & -> & SM2). cbn [obind].
        match type of SM2 with same_mem _ (M ?c2 _) => pose proof (proj2 (proj2 (HW c2 r n 0 N0))) as W3 end.
        destruct (put_ok m2 _ r n (sh_z s) 0 _ L SM2 W3) as (m3 & -> & SM3). cbn [obind].
        apply IH. eapply same_trans; [exact SM3|]. apply HE. intros i. rewrite !upd_same. cbn [nl nr nz].
        unfold upd. destruct (i =? n); reflexivity.
      + rewrite (put_oob m c r n _ 0 L SM). reflexivity.
    - unfold nodes. destruct (N.eqb_spec a 0) as [|A0]; [exact I|]. destruct (N.eqb_spec b 0) as [|B0]; [exact I|]. cbn [orb].
      rewrite (proj1 (CM m c r a b SM A0 B0)). destruct ((a <? klen) && (b <? klen)); [cbn [obind]; now apply IH|reflexivity].
    - unfold nodes. destruct (N.eqb_spec a 0) as [|A0]; [exact I|]. destruct (N.eqb_spec b 0) as [|B0]; [exact I|]. cbn [orb].
      rewrite (proj2 (CM m c r a b SM A0 B0)). destruct ((a <? klen) && (b <? klen)); [cbn [obind]; now apply IH|reflexivity].
    - destruct rf as [|n|n]; cbn [ref_word].
      + cbn [obind]. rewrite (IW m c r _ SM), HR. now apply IH.
      + unfold node. rewrite S1. destruct (N.eqb_spec n 0) as [|N0]; [exact I|]. rewrite (ref_ok m c r n _ SM).
        destruct (n <? len); [cbn [obind]|reflexivity]. rewrite (IW m c r _ SM), (proj1 (HN c r n N0)). now apply IH.
      + unfold node. rewrite S2. destruct (N.eqb_spec n 0) as [|N0]; [exact I|]. rewrite (ref_ok m c r n _ SM).
        destruct (n <? len); [cbn [obind]|reflexivity]. rewrite (IW m c r _ SM), (proj1 (proj2 (HN c r n N0))). now apply IH.
    - destruct rf as [|n|n]; cbn [mut_ref_word].
      + cbn [obind]. apply IH. apply (poke_ok m c r); auto.
      + unfold node. rewrite S3. destruct (N.eqb_spec n 0) as [|N0]; [exact I|]. rewrite (ref_ok m c r n _ SM).
        destruct (n <? len); [cbn [obind]|reflexivity]. apply IH. apply (poke_ok m c r); auto. apply (HW c r n v N0).
      + unfold node. rewrite S4. destruct (N.eqb_spec n 0) as [|N0]; [exact I|]. rewrite (ref_ok m c r n _ SM).
        destruct (n <? len); [cbn [obind]|reflexivity]. apply IH. apply (poke_ok m c r); auto. apply (HW c r n v N0).
  Qed.
End Sim.

(** * The six trees *)
Definition u_mem (st : ust) : mem := mkMem (mkSlice 0 (fun _ => 0)) (mkSlice (u_len st) (u_words st)).
Definition s_mem (st : sst) : mem := mkMem (mkSlice (s_dlen st) (s_dwords st)) (mkSlice (s_ilen st) (s_iwords st)).
Definition us_shape := mkShape link_fields "left_as_source" "right_as_source" "size_as_source".
Definition ut_shape := mkShape link_fields "left_as_target" "right_as_target" "size_as_target".
Definition ss_shape := mkShape index_fields "left_as_source" "right_as_source" "size_as_source".
Definition st_shape := mkShape index_fields "left_as_target" "right_as_target" "size_as_target".
(** The memory with another column and root. *)
Definition us_at (st : ust) c r := set_src st (set_sroot c r).
Definition ut_at (st : ust) c r := set_tgt st (set_troot c r).
Definition is_at (st : sst) v c r := s_set_src st (upd (s_rs st) v r) c.
Definition it_at (st : sst) v c r := s_set_tgt st (upd (s_rt st) v r) c.
Definition es_at (st : sst) c r := s_set_tgt (s_set_src st (s_rs st) c) (upd (s_rt st) 0 r) (s_it st).
Definition et_at (st : sst) c r := s_set_tgt st (s_rt st) (set_troot c r).

Lemma shaped_us : shaped us_acc us_shape. Proof. repeat split. Qed.
Lemma shaped_ut : shaped ut_acc ut_shape. Proof. repeat split. Qed.
Lemma shaped_is : shaped is_acc ss_shape. Proof. repeat split. Qed.
Lemma shaped_it : shaped it_acc st_shape. Proof. repeat split. Qed.
Lemma shaped_es : shaped es_acc ss_shape. Proof. repeat split. Qed.
Lemma shaped_et : shaped et_acc st_shape. Proof. repeat split. Qed.

Lemma flat_ext n cell cell' : n <> 0 -> (forall i k, k < n -> cell i k = cell' i k) -> forall w, flat n cell w = flat n cell' w.
Proof. intros N0 E w. unfold flat. apply E. now apply N.mod_lt. Qed.
(** One word of slot [i]: field number [k]. *)
Ltac cases := cbn; unfold set_sroot, set_troot, upd; cbn;
  repeat match goal with |- context [?x =? ?y] => destruct (N.eqb_spec x y); subst end;
  try reflexivity; try congruence; try (exfalso; tauto);
  try (match goal with |- context [match ?n with N0 => _ | Npos _ => _ end] => destruct n; [congruence|reflexivity] end).
Ltac word1 i k := apply (flat_upd 8 _ _ i k); [lia|lia|cases|
  let j := fresh "j" in let l := fresh "l" in let L := fresh "L" in let D := fresh "D" in
  intros j l L; pattern l; revert l L; apply lt8; intros D; cases].
Ltac open_mem := unfold u_mem, s_mem, u_words, s_iwords, us_root, ut_root, es_root, et_root, is_root, it_root, word_at;
  cbn [m_index sl_w us_shape ut_shape ss_shape st_shape sh_fs sh_l sh_r sh_z];
  change (size_of link_fields) with 8; change (size_of index_fields) with 8; change (size_of header_fields) with 8.
Ltac holds :=
  split; [reflexivity|]; cbv zeta; split; [|split; [|split; [|split; [|split]]]];
  [ intros c r n N0; open_mem; rewrite !flat_at by (vm_compute; reflexivity); cbn; unfold set_sroot, set_troot; now rewrite ?upd_other by auto
  | intros c r; open_mem; rewrite flat_at by (vm_compute; reflexivity); cbn; now rewrite ?upd_same
  | intros c r n x N0; open_mem; split; [|split]; intros w;
    match goal with |- context [n * 8 + ?p] => let q := eval vm_compute in p in change p with q; word1 n q end
  | intros c r x w; open_mem;
    match goal with |- context [upd _ (?i * 8 + ?p) x] => let q := eval vm_compute in p in change p with q; word1 i q end
  | reflexivity
  | intros c c' r E; repeat split; intros w; open_mem; apply flat_ext; [lia|];
    intros i; apply lt8; cbn; unfold set_sroot, set_troot, upd; rewrite ?E; reflexivity ].
Lemma holds_us st : holds_tree us_shape us_root (u_len st) (fun c r => u_mem (us_at st c r)).
Proof. holds. Qed.
Lemma holds_ut st : holds_tree ut_shape ut_root (u_len st) (fun c r => u_mem (ut_at st c r)).
Proof. holds. Qed.
Lemma holds_is st v : holds_tree ss_shape (is_root v) (s_ilen st) (fun c r => s_mem (is_at st v c r)).
Proof. holds. Qed.
Lemma holds_it st v : holds_tree st_shape (it_root v) (s_ilen st) (fun c r => s_mem (it_at st v c r)).
Proof. holds. Qed.
Lemma holds_es st : holds_tree ss_shape es_root (s_ilen st) (fun c r => s_mem (es_at st c r)).
Proof. holds. Qed.
Lemma holds_et st : holds_tree st_shape et_root (s_ilen st) (fun c r => s_mem (et_at st c r)).
Proof. holds. Qed.

(** The comparisons against the keys of the models. *)
Lemma src_left4_key a b c d : src_left4 a b c d = klt (a, b) (c, d).
Proof. reflexivity. Qed.
Lemma src_right4_key a b c d : src_right4 a b c d = klt (c, d) (a, b).
Proof. unfold src_right4, klt. cbn [fst snd]. now rewrite (N.eqb_sym a c). Qed.
Lemma tgt_left4_key a b c d : tgt_left4 a b c d = klt (b, a) (d, c).
Proof. reflexivity. Qed.
Lemma tgt_right4_key a b c d : tgt_right4 a b c d = klt (d, c) (b, a).
Proof. unfold tgt_right4, klt. cbn [fst snd]. now rewrite (N.eqb_sym b d). Qed.
Lemma one_key a b : klt (a, 0) (b, 0) = (a <? b).
Proof. unfold klt. cbn. now rewrite andb_false_r, orb_false_r. Qed.
Lemma u_source st i : u_words st (word_at link_fields i "source") = fst (u_data st i).
Proof. apply (L_C63_unit_reads st i). Qed.
Lemma u_target st i : u_words st (word_at link_fields i "target") = snd (u_data st i).
Proof. apply (L_C63_unit_reads st i). Qed.
Lemma s_source st i : s_dwords st (word_at data_fields i "source") = fst (s_data st i).
Proof. apply (L_C63_split_reads st i). Qed.
Lemma s_target st i : s_dwords st (word_at data_fields i "target") = snd (s_data st i).
Proof. apply (L_C63_split_reads st i). Qed.
Ltac compares := intros m c r a b (D & I & DW & IW) A0 B0;
  cbn [a_left_of a_right_of us_acc ut_acc is_acc it_acc es_acc et_acc]; unfold compare4, fld; rewrite ?D, ?I, ?DW, ?IW;
  cbn [m_data m_index u_mem s_mem sl_len sl_w];
  rewrite ?u_source, ?u_target, ?s_source, ?s_target;
  cbn [us_at ut_at is_at it_at es_at et_at set_src set_tgt s_set_src s_set_tgt u_len u_data s_data s_dlen s_ilen];
  match goal with |- context [a <? ?l] => destruct (a <? l), (b <? l) end; cbn [obind andb]; split; try reflexivity;
  unfold key_src, key_tgt, key_is, key_it; f_equal;
  rewrite ?src_left4_key, ?src_right4_key, ?tgt_left4_key, ?tgt_right4_key, ?one_key; reflexivity.
Lemma compares_us st : compares us_acc (u_len st) (key_src (u_data st)) (fun c r => u_mem (us_at st c r)).
Proof. compares. Qed.
Lemma compares_ut st : compares ut_acc (u_len st) (key_tgt (u_data st)) (fun c r => u_mem (ut_at st c r)).
Proof. compares. Qed.
Lemma compares_is st v : compares is_acc (s_dlen st) (key_is (s_data st)) (fun c r => s_mem (is_at st v c r)).
Proof. compares. Qed.
Lemma compares_it st v : compares it_acc (s_dlen st) (key_it (s_data st)) (fun c r => s_mem (it_at st v c r)).
Proof. compares. Qed.
Lemma compares_es st : compares es_acc (s_dlen st) (key_src (s_data st)) (fun c r => s_mem (es_at st c r)).
Proof. compares. Qed.
Lemma compares_et st : compares et_acc (s_dlen st) (key_tgt (s_data st)) (fun c r => s_mem (et_at st c r)).
Proof. compares. Qed.

(** The memory of a state is the memory with its own column and root. *)
Ltac itself := repeat split; intros w; open_mem; apply flat_ext; [lia|]; intros i; apply lt8; cases.
Lemma us_self st : same_mem (u_mem st) (u_mem (us_at st (u_src st) (h_sroot st))).
Proof. itself. Qed.
Lemma ut_self st : same_mem (u_mem st) (u_mem (ut_at st (u_tgt st) (h_troot st))).
Proof. itself. Qed.
Lemma is_self st v : same_mem (s_mem st) (s_mem (is_at st v (s_is st) (s_rs st v))).
Proof. itself. Qed.
Lemma it_self st v : same_mem (s_mem st) (s_mem (it_at st v (s_it st) (s_rt st v))).
Proof. itself. Qed.
Lemma es_self st : same_mem (s_mem st) (s_mem (es_at st (s_is st) (sh_sroot st))).
Proof. itself. Qed.
Lemma et_self st : same_mem (s_mem st) (s_mem (et_at st (s_it st) (sh_troot st))).
Proof. itself. Qed.

(** * C75 *)
(** Every algorithm over the accessors does to the memory of the store what it does to the bare
    tree: same result or same failure, the column and the root changed as there, all else as before. *)
Lemma L_C75_unit (st : ust) A (p : prog A) :
  agree (fun c r => u_mem (set_src st (set_sroot c r)))
    (on_tree (u_len st) (u_len st) (key_src (u_data st)) p (u_src st) (h_sroot st)) (on_memory us_acc us_root p (u_mem st)) /\
  agree (fun c r => u_mem (set_tgt st (set_troot c r)))
    (on_tree (u_len st) (u_len st) (key_tgt (u_data st)) p (u_tgt st) (h_troot st)) (on_memory ut_acc ut_root p (u_mem st)).
Proof.
  split.
  - apply (simulates _ _ _ _ _ _ _ shaped_us (holds_us st) (compares_us st)). apply us_self.
  - apply (simulates _ _ _ _ _ _ _ shaped_ut (holds_ut st) (compares_ut st)). apply ut_self.
Qed.
Lemma L_C75_split (st : sst) v A (p : prog A) :
  agree (fun c r => s_mem (s_set_src st (upd (s_rs st) v r) c))
    (on_tree (s_dlen st) (s_ilen st) (key_is (s_data st)) p (s_is st) (s_rs st v)) (on_memory is_acc (is_root v) p (s_mem st)) /\
  agree (fun c r => s_mem (s_set_tgt st (upd (s_rt st) v r) c))
    (on_tree (s_dlen st) (s_ilen st) (key_it (s_data st)) p (s_it st) (s_rt st v)) (on_memory it_acc (it_root v) p (s_mem st)) /\
  agree (fun c r => s_mem (s_set_tgt (s_set_src st (s_rs st) c) (upd (s_rt st) 0 r) (s_it st)))
    (on_tree (s_dlen st) (s_ilen st) (key_src (s_data st)) p (s_is st) (sh_sroot st)) (on_memory es_acc es_root p (s_mem st)) /\
  agree (fun c r => s_mem (s_set_tgt st (s_rt st) (set_troot c r)))
    (on_tree (s_dlen st) (s_ilen st) (key_tgt (s_data st)) p (s_it st) (sh_troot st)) (on_memory et_acc et_root p (s_mem st)).
Proof.
  split; [|split; [|split]].
  - apply (simulates _ _ _ _ _ _ _ shaped_is (holds_is st v) (compares_is st v)). apply is_self.
  - apply (simulates _ _ _ _ _ _ _ shaped_it (holds_it st v) (compares_it st v)). apply it_self.
  - apply (simulates _ _ _ _ _ _ _ shaped_es (holds_es st) (compares_es st)). apply es_self.
  - apply (simulates _ _ _ _ _ _ _ shaped_et (holds_et st) (compares_et st)). apply et_self.
Qed.
(** So the attach and detach steps of the models are the algorithm of the crate run on the memory,
    whatever program [p] over the accessors the crate's operation is on the tree at hand. *)
Definition computes (p : prog unit) (klen len : N) (k : N -> key) (c : N -> nd) (r : N) (t : out ((N -> nd) * N)) : Prop :=
  on_tree klen len k p c r = let* (c', r') := t in Val (tt, c', r').
Lemma L_C75_unit_steps (tops : tree_ops) (p : prog unit) (st st' : ust) i :
  let on k c r op := computes p (u_len st) (u_len st) (k (u_data st)) c r (op (k (u_data st)) c r i) in
  let runs acc root := exists m, on_memory acc root p (u_mem st) = Val (tt, m) /\ same_mem m (u_mem st') in
  (on key_src (u_src st) (h_sroot st) (t_attach tops) -> u_attach_source tops st i = Val st' -> runs us_acc us_root) /\
  (on key_src (u_src st) (h_sroot st) (t_detach tops) -> u_detach_source tops st i = Val st' -> runs us_acc us_root) /\
  (on key_tgt (u_tgt st) (h_troot st) (t_attach tops) -> u_attach_target tops st i = Val st' -> runs ut_acc ut_root) /\
  (on key_tgt (u_tgt st) (h_troot st) (t_detach tops) -> u_detach_target tops st i = Val st' -> runs ut_acc ut_root).
Proof.
  cbv zeta. unfold computes, u_attach_source, u_detach_source, u_attach_target, u_detach_target, u_header.
  destruct (0 <? u_len st); cbn [obind]; [|repeat split; discriminate].
  destruct (L_C75_unit st unit p) as [S1 S2].
  repeat match goal with |- _ /\ _ => split end; intros P E; rewrite P in S1 || rewrite P in S2;
    match type of E with context [let* (_, _) := ?o in _] => destruct o as [[c r]| | |]; try discriminate end;
    cbn [obind agree] in *; injection E as <-; assumption.
Qed.
Lemma L_C75_split_steps (tops : tree_ops) (p : prog unit) (st st' : sst) v i :
  let on k c r op := computes p (s_dlen st) (s_ilen st) (k (s_data st)) c r (op (k (s_data st)) c r i) in
  let runs acc root := exists m, on_memory acc root p (s_mem st) = Val (tt, m) /\ same_mem m (s_mem st') in
  (on key_is (s_is st) (s_rs st v) (t_attach tops) -> s_attach_is tops st v i = Val st' -> runs is_acc (is_root v)) /\
  (on key_is (s_is st) (s_rs st v) (t_detach tops) -> s_detach_is tops st v i = Val st' -> runs is_acc (is_root v)) /\
  (on key_it (s_it st) (s_rt st v) (t_attach tops) -> s_attach_it tops st v i = Val st' -> runs it_acc (it_root v)) /\
  (on key_it (s_it st) (s_rt st v) (t_detach tops) -> s_detach_it tops st v i = Val st' -> runs it_acc (it_root v)) /\
  (on key_src (s_is st) (sh_sroot st) (t_attach tops) -> s_attach_es tops st i = Val st' -> runs es_acc es_root) /\
  (on key_src (s_is st) (sh_sroot st) (t_detach tops) -> s_detach_es tops st i = Val st' -> runs es_acc es_root) /\
  (on key_tgt (s_it st) (sh_troot st) (t_attach tops) -> s_attach_et tops st i = Val st' -> runs et_acc et_root) /\
  (on key_tgt (s_it st) (sh_troot st) (t_detach tops) -> s_detach_et tops st i = Val st' -> runs et_acc et_root).
Proof.
  cbv zeta. unfold computes.
  unfold s_attach_is, s_detach_is, s_attach_it, s_detach_it, s_attach_es, s_detach_es, s_attach_et, s_detach_et, s_header, s_view, rd.
  destruct (s_dlen st =? s_dcap st), (0 <? s_ilen st), (v <? s_ilen st); cbn [obind]; try (repeat split; discriminate);
  destruct (L_C75_split st v unit p) as (S1 & S2 & S3 & S4);
  repeat match goal with |- _ /\ _ => split end; intros P E; try discriminate;
    first [rewrite P in S1|rewrite P in S2|rewrite P in S3|rewrite P in S4];
    match type of E with context [let* (_, _) := ?o in _] => destruct o as [[c r]| | |]; try discriminate end;
    cbn [obind agree] in *; injection E as <-; assumption.
Qed.
(** Whatever runs, even with 0 as a node, the data and the other fields stay: only the three fields
    of the tree and the word of the root can change. *)
Definition trees_shapes : list (accessors * shape) :=
  [(us_acc, us_shape); (ut_acc, ut_shape); (is_acc, ss_shape); (it_acc, st_shape); (es_acc, ss_shape); (et_acc, st_shape)].
Lemma shaped_all acc s : In (acc, s) trees_shapes -> shaped acc s.
Proof.
  cbn. intros H. decompose [or] H; try contradiction; match goal with E : _ = _ |- _ => injection E as <- <- end;
  [apply shaped_us|apply shaped_ut|apply shaped_is|apply shaped_it|apply shaped_es|apply shaped_et].
Qed.
Lemma L_C75_frame acc s rootw A (p : prog A) m m' a : In (acc, s) trees_shapes -> on_memory acc rootw p m = Val (a, m') ->
  m_data m' = m_data m /\ sl_len (m_index m') = sl_len (m_index m) /\
  forall w, w <> rootw ->
    (forall n f, In f [sh_l s; sh_r s; sh_z s] -> n < sl_len (m_index m) -> w <> word_at (sh_fs s) n f) ->
    sl_w (m_index m') w = sl_w (m_index m) w.
Proof.
  intros HI. apply shaped_all in HI. destruct HI as (S1 & S2 & S3 & S4 & S5 & S6 & S7 & S8 & S9 & S10 & S11). cbv zeta in *.
  set (keeps := fun m m' : mem => m_data m' = m_data m /\ sl_len (m_index m') = sl_len (m_index m) /\
    forall w, w <> rootw ->
      (forall n f, In f [sh_l s; sh_r s; sh_z s] -> n < sl_len (m_index m) -> w <> word_at (sh_fs s) n f) ->
      sl_w (m_index m') w = sl_w (m_index m) w).
  assert (TR : forall x y z, keeps x y -> keeps y z -> keeps x z).
  { intros x y z (D & L & W) (D' & L' & W'). split; [congruence|]. split; [congruence|]. intros w R F. rewrite W'; auto. rewrite L. auto. }
  assert (PUT : forall m n f v x, In f [sh_l s; sh_r s; sh_z s] -> ix_put (sh_fs s) m n f v = Val x -> keeps m x).
  { intros m0 n f v x HF E. unfold ix_put, fld_put in E. destruct (N.ltb_spec n (sl_len (m_index m0))) as [L|]; [|discriminate].
    cbn in E. injection E as <-. split; [reflexivity|]. split; [reflexivity|]. cbn. intros w R F. unfold upd.
    destruct (N.eqb_spec w (word_at (sh_fs s) n f)) as [EQ|]; auto. exfalso. exact (F n f HF L EQ). }
  assert (POKE : forall m w v, w = rootw \/ (exists n f, In f [sh_l s; sh_r s; sh_z s] /\ n < sl_len (m_index m) /\ w = word_at (sh_fs s) n f) ->
    keeps m (mkMem (m_data m) (mkSlice (sl_len (m_index m)) (upd (sl_w (m_index m)) w v)))).
  { intros m0 w v HW. split; [reflexivity|]. split; [reflexivity|]. cbn. intros x R F. unfold upd. destruct (N.eqb_spec x w) as [->|]; auto.
    exfalso. destruct HW as [->|(n & f & HF & L & ->)]; [now apply R|]. exact (F n f HF L eq_refl). }
  assert (IL : In (sh_l s) [sh_l s; sh_r s; sh_z s]) by (cbn; auto). assert (IR : In (sh_r s) [sh_l s; sh_r s; sh_z s]) by (cbn; auto).
  assert (IZ : In (sh_z s) [sh_l s; sh_r s; sh_z s]) by (cbn; auto).
  change (on_memory acc rootw p m = Val (a, m') -> keeps m m'). revert m.
  induction p as [o|n k IH|n k IH|n k IH|n v k IH|n v k IH|n v k IH|n k IH|x y k IH|x y k IH|rf k IH|rf v k IH]; intros m E; cbn [on_memory] in E.
  - destruct o; try discriminate. injection E as <- <-. repeat split.
  - destruct (a_left acc m n); try discriminate. eauto.
  - destruct (a_right acc m n); try discriminate. eauto.
  - destruct (a_size acc m n); try discriminate. eauto.
  - rewrite S8 in E. destruct (ix_put _ _ _ _ _) eqn:P in E; try discriminate. cbn [obind] in E. eapply TR; [eapply PUT; [|exact P]; assumption|eapply IH; exact E].
  - rewrite S9 in E. destruct (ix_put _ _ _ _ _) eqn:P in E; try discriminate. cbn [obind] in E. eapply TR; [eapply PUT; [|exact P]; assumption|eapply IH; exact E].
  - rewrite S10 in E. destruct (ix_put _ _ _ _ _) eqn:P in E; try discriminate. cbn [obind] in E. eapply TR; [eapply PUT; [|exact P]; assumption|eapply IH; exact E].
  - rewrite S11 in E. destruct (ix_put _ m _ _ _) as [m1| | |] eqn:P1; try discriminate. cbn [obind] in E.
    destruct (ix_put _ m1 _ _ _) as [m2| | |] eqn:P2; try discriminate. cbn [obind] in E.
    destruct (ix_put _ m2 _ _ _) as [m3| | |] eqn:P3; try discriminate. cbn [obind] in E.
    eapply TR; [eapply PUT; [|exact P1]; assumption|]. eapply TR; [eapply PUT; [|exact P2]; assumption|]. eapply TR; [eapply PUT; [|exact P3]; assumption|eapply IH; exact E].
  - destruct (a_left_of acc m x y); try discriminate. eauto.
  - destruct (a_right_of acc m x y); try discriminate. eauto.
  - destruct (ref_word acc rootw m rf); try discriminate. eauto.
  - destruct (mut_ref_word acc rootw m rf) as [w| | |] eqn:R; try discriminate. cbn [obind] in E.
    eapply TR; [apply (POKE m w v)|eapply IH; exact E].
    destruct rf as [|n|n]; cbn [mut_ref_word] in R; [injection R as <-; now left|right..];
      [rewrite S3 in R|rewrite S4 in R]; unfold fld_ref in R;
      destruct (N.ltb_spec n (sl_len (m_index m))); try discriminate; injection R as <-; eauto 6.
Qed.
(** Going through a pointer is the same as calling the method. *)
Lemma L_C75_pointers acc s rootw A n v (k : N -> prog A) (k' : prog A) m : In (acc, s) trees_shapes ->
  on_memory acc rootw (Read (LeftOf n) k) m = on_memory acc rootw (GetLeft n k) m /\
  on_memory acc rootw (Read (RightOf n) k) m = on_memory acc rootw (GetRight n k) m /\
  on_memory acc rootw (Write (LeftOf n) v k') m = on_memory acc rootw (SetLeft n v k') m /\
  on_memory acc rootw (Write (RightOf n) v k') m = on_memory acc rootw (SetRight n v k') m.
Proof.
  intros HI. apply shaped_all in HI. destruct HI as (S1 & S2 & S3 & S4 & S5 & S6 & S7 & S8 & S9 & S10 & S11). cbv zeta in *.
  cbn [on_memory ref_word mut_ref_word]. rewrite S1, S2, S3, S4, S5, S6, S8, S9. unfold fld_ref, fld, ix_put, fld_put.
  destruct (n <? sl_len (m_index m)); repeat split.
Qed.
(** The comparisons of each tree are a strict total order of the keys; nodes with the same source
    (target) are next to each other in the trees of sources (targets). *)
Lemma L_C75_order m a b c :
  let U f i := sl_w (m_index m) (word_at link_fields i f) in
  let D f i := sl_w (m_data m) (word_at data_fields i f) in
  let ordered acc (same : N -> N -> Prop) (major : N -> N) := forall x y z,
    a_left_of acc m a b = Val x -> a_left_of acc m b c = Val y -> a_left_of acc m a c = Val z ->
    a_right_of acc m b a = Val x /\
    (x = true -> y = true -> z = true) /\ (x = false -> y = false -> z = false) /\
    (x = true -> a_left_of acc m b a = Val false) /\
    (a_left_of acc m b a = Val false -> x = false -> same a b) /\ (same a b -> x = false) /\
    (x = true -> major a <= major b) in
  ordered us_acc (fun i j => U "source"%string i = U "source"%string j /\ U "target"%string i = U "target"%string j) (U "source"%string) /\
  ordered ut_acc (fun i j => U "source"%string i = U "source"%string j /\ U "target"%string i = U "target"%string j) (U "target"%string) /\
  ordered is_acc (fun i j => D "target"%string i = D "target"%string j) (D "target"%string) /\
  ordered it_acc (fun i j => D "source"%string i = D "source"%string j) (D "source"%string) /\
  ordered es_acc (fun i j => D "source"%string i = D "source"%string j /\ D "target"%string i = D "target"%string j) (D "source"%string) /\
  ordered et_acc (fun i j => D "source"%string i = D "source"%string j /\ D "target"%string i = D "target"%string j) (D "target"%string).
Proof.
  cbv zeta. cbn [a_left_of a_right_of us_acc ut_acc is_acc it_acc es_acc et_acc]. unfold compare4, fld.
  repeat match goal with |- _ /\ _ => split end;
  (match goal with |- context [sl_len ?s] => destruct (a <? sl_len s), (b <? sl_len s), (c <? sl_len s) end);
  cbn [obind]; intros x y z X Y Z; try discriminate;
  injection X as <-; injection Y as <-; injection Z as <-;
  unfold src_left4, src_right4, tgt_left4, tgt_right4;
  repeat match goal with |- context [sl_w ?s ?w] => generalize (sl_w s w); intro end;
  repeat split;
  repeat match goal with
   | |- Val ?p = Val ?q -> _ => let H := fresh in intros H; injection H as H; revert H
   | |- Val ?p = Val ?q => f_equal
   end;
  repeat match goal with |- context [?p <? ?q] => destruct (N.ltb_spec p q) | |- context [?p =? ?q] => destruct (N.eqb_spec p q) end;
  cbn [orb andb]; intros; try discriminate; try reflexivity; try lia.
  all: match goal with H : Val _ = Val _, H0 : _ = false |- _ => injection H as H; revert H H0 end;
    repeat match goal with |- context [?p <? ?q] => destruct (N.ltb_spec p q) | |- context [?p =? ?q] => destruct (N.eqb_spec p q) end;
    cbn [orb andb]; intros; try discriminate; lia.
Qed.

(** A plain insertion written against the methods and pointers: not the crate's algorithm, but one
    that fits on both sides. *)
Fixpoint insert_at (fuel : nat) (r : ref) (x : N) : prog unit :=
  match fuel with
  | O => Done Diverge
  | S f =>
      Read r (fun n =>
        if n =? 0 then Write r x (SetSize x 1 (Done (Val tt)))
        else GetSize n (fun z => SetSize n (z + 1)
          (IsLeft x n (fun l => if l then insert_at f (LeftOf n) x else insert_at f (RightOf n) x))))
  end.
(** A store whose link 3 has been taken out of the trees, one tree after the other. *)
Definition ex_out : ust :=
  match u_detach_source ref_tree_ops (ex_st ex3) 3 with
  | Val s => match u_detach_target ref_tree_ops s 3 with Val s' => s' | _ => ex_start end
  | _ => ex_start
  end.
Definition ex_ops : tree_ops :=
  mkTreeOps (fun k c r x => let* (_, c', r') := on_tree 8 8 k (insert_at 8 Root x) c r in Val (c', r')) (fun _ _ _ _ => Panic).
Lemma ex_ops_computes k c r x : computes (insert_at 8 Root x) 8 8 k c r (t_attach ex_ops k c r x).
Proof. unfold computes, ex_ops. cbn [t_attach]. destruct (on_tree _ _ _ _ _ _) as [[[[] c'] r']| | |]; reflexivity. Qed.
Lemma L_C75_nonvacuous :
  u_len ex_out = 8 /\ u_attach_source ex_ops ex_out 3 <> Panic /\
  computes (insert_at 8 Root 3) 8 8 (key_src (u_data ex_out)) (u_src ex_out) (h_sroot ex_out)
    (t_attach ex_ops (key_src (u_data ex_out)) (u_src ex_out) (h_sroot ex_out) 3) /\
  exists m1 m2, on_memory us_acc us_root (insert_at 8 Root 3) (u_mem ex_out) = Val (tt, m1) /\
    on_memory ut_acc ut_root (insert_at 8 Root 3) m1 = Val (tt, m2) /\
    map (u_words ex_out) (map N.of_nat (seq 0 32)) =
      [3; 7; 0; 0; 1; 1; 0; 0;  1; 1; 0; 2; 2; 0; 2; 2;  1; 2; 0; 0; 1; 0; 0; 1;  2; 1; 0; 0; 0; 0; 0; 0] /\
    map (sl_w (m_index m2)) (map N.of_nat (seq 0 32)) =
      [3; 7; 0; 0; 1; 1; 0; 0;  1; 1; 0; 2; 3; 0; 2; 3;  1; 2; 0; 3; 2; 3; 0; 2;  2; 1; 0; 0; 1; 0; 0; 1] /\
    map (sl_w (m_index m2)) (map N.of_nat (seq 0 32)) = map (u_words (ex_st ex3)) (map N.of_nat (seq 0 32)).
Proof.
  split; [vm_compute; reflexivity|]. split; [vm_compute; discriminate|]. split; [apply ex_ops_computes|].
  exists (match on_memory us_acc us_root (insert_at 8 Root 3) (u_mem ex_out) with Val (_, m) => m | _ => u_mem ex_start end).
  exists (match on_memory us_acc us_root (insert_at 8 Root 3) (u_mem ex_out) with
          | Val (_, m) => match on_memory ut_acc ut_root (insert_at 8 Root 3) m with Val (_, m2) => m2 | _ => u_mem ex_start end
          | _ => u_mem ex_start end).
  split; [vm_compute; reflexivity|]. split; [vm_compute; reflexivity|]. split; [vm_compute; reflexivity|]. split; vm_compute; reflexivity.
Qed.
(** 0 is not a node: in the single memory its size as a source is the root of the tree of sources,
    and its left as a target the root of the tree of targets. *)
Lemma L_C75_zero_node (st : ust) v : 0 < u_len st ->
  (exists m, on_memory us_acc us_root (SetSize 0 v (Read Root (fun r => Done (Val r)))) (u_mem st) = Val (v, m)) /\
  (exists m, on_memory ut_acc ut_root (SetLeft 0 v (Read Root (fun r => Done (Val r)))) (u_mem st) = Val (v, m)).
Proof.
  intros L. apply N.ltb_lt in L.
  split; eexists; cbn [on_memory a_set_size a_set_left us_acc ut_acc]; unfold ix_put, fld_put; cbn [m_index u_mem sl_len]; rewrite L; cbn [obind on_memory ref_word m_index sl_w];
    unfold upd; rewrite N.eqb_refl; reflexivity.
Qed.
(** In the split store: link 2 taken out of the internal tree of source 1 and put back. *)
Definition ex_sout : sst := match s_detach_is ref_tree_ops (ex_sst ex3) 1 2 with Val s => s | _ => ex_sstart end.
Lemma L_C75_split_nonvacuous :
  exists m, on_memory is_acc (is_root 1) (insert_at 8 Root 2) (s_mem ex_sout) = Val (tt, m) /\
    map (s_iwords ex_sout) (map N.of_nat (seq 8 16)) = [1; 0; 0; 1; 1; 0; 3; 2;  3; 0; 0; 0; 2; 0; 0; 1] /\
    map (sl_w (m_index m)) (map N.of_nat (seq 0 32)) = map (s_iwords (ex_sst ex3)) (map N.of_nat (seq 0 32)) /\
    map (s_iwords (ex_sst ex3)) (map N.of_nat (seq 8 16)) = [1; 0; 2; 2; 1; 0; 3; 2;  3; 0; 0; 1; 2; 0; 0; 1].
Proof.
  exists (match on_memory is_acc (is_root 1) (insert_at 8 Root 2) (s_mem ex_sout) with Val (_, m) => m | _ => s_mem ex_sout end).
  split; [vm_compute; reflexivity|]. split; [vm_compute; reflexivity|]. split; vm_compute; reflexivity.
Qed.

(** * The lists of free links *)
Record list_acc := mkLAcc {
  la_first : mem -> out N;
  la_last : mem -> out N;
  la_size : mem -> out N;
  la_set_first : mem -> N -> out mem;
  la_set_last : mem -> N -> out mem;
  la_set_size : mem -> N -> out mem;
  la_prev : mem -> N -> out N;
  la_next : mem -> N -> out N;
  la_set_prev : mem -> N -> N -> out mem;
  la_set_next : mem -> N -> N -> out mem
}.
(** unit/generic/unused_links.rs; the header is slot 0 of the one memory (19-25) *)
Definition ul_acc : list_acc := {|
  la_first := fun m => fld header_fields (m_index m) 0 "first_free"; (* 37-39 *)
  la_last := fun m => fld header_fields (m_index m) 0 "last_free"; (* 41-43 *)
  la_size := fun m => fld header_fields (m_index m) 0 "free"; (* 45-47 *)
  la_set_first := fun m v => ix_put header_fields m 0 "first_free" v; (* 49-51 *)
  la_set_last := fun m v => ix_put header_fields m 0 "last_free" v; (* 53-55 *)
  la_set_size := fun m v => ix_put header_fields m 0 "free" v; (* 57-59 *)
  la_prev := fun m n => fld link_fields (m_index m) n "source"; (* 63-65 *)
  la_next := fun m n => fld link_fields (m_index m) n "target"; (* 67-69 *)
  la_set_prev := fun m n v => ix_put link_fields m n "source" v; (* 71-73 *)
  la_set_next := fun m n v => ix_put link_fields m n "target" v (* 75-77 *)
|}.
(** split/generic/unused_links.rs; the header is slot 0 of the index memory (21-27), the links are
    in the data memory (29-35) *)
Definition sl_acc : list_acc := {|
  la_first := fun m => fld header_fields (m_index m) 0 "first_free"; (* 39-41 *)
  la_last := fun m => fld header_fields (m_index m) 0 "last_free"; (* 43-45 *)
  la_size := fun m => fld header_fields (m_index m) 0 "free"; (* 47-49 *)
  la_set_first := fun m v => ix_put header_fields m 0 "first_free" v; (* 51-53 *)
  la_set_last := fun m v => ix_put header_fields m 0 "last_free" v; (* 55-57 *)
  la_set_size := fun m v => ix_put header_fields m 0 "free" v; (* 59-61 *)
  la_prev := fun m n => fld data_fields (m_data m) n "source"; (* 65-67 *)
  la_next := fun m n => fld data_fields (m_data m) n "target"; (* 69-71 *)
  la_set_prev := fun m n v => dt_put data_fields m n "source" v; (* 73-75 *)
  la_set_next := fun m n v => dt_put data_fields m n "target" v (* 77-79 *)
|}.

Inductive lprog (A : Type) : Type :=
| LDone (o : out A)
| GetFirst (k : N -> lprog A) | GetLast (k : N -> lprog A) | GetCount (k : N -> lprog A)
| SetFirst (v : N) (k : lprog A) | SetLast (v : N) (k : lprog A) | SetCount (v : N) (k : lprog A)
| GetPrev (n : N) (k : N -> lprog A) | GetNext (n : N) (k : N -> lprog A)
| SetPrev (n v : N) (k : lprog A) | SetNext (n v : N) (k : lprog A).
Arguments LDone {A}. Arguments GetFirst {A}. Arguments GetLast {A}. Arguments GetCount {A}. Arguments SetFirst {A}.
Arguments SetLast {A}. Arguments SetCount {A}. Arguments GetPrev {A}. Arguments GetNext {A}. Arguments SetPrev {A}. Arguments SetNext {A}.

Fixpoint list_on_memory {A} (acc : list_acc) (p : lprog A) (m : mem) : out (A * mem) :=
  match p with
  | LDone o => let* a := o in Val (a, m)
  | GetFirst k => let* v := la_first acc m in list_on_memory acc (k v) m
  | GetLast k => let* v := la_last acc m in list_on_memory acc (k v) m
  | GetCount k => let* v := la_size acc m in list_on_memory acc (k v) m
  | SetFirst v k => let* m' := la_set_first acc m v in list_on_memory acc k m'
  | SetLast v k => let* m' := la_set_last acc m v in list_on_memory acc k m'
  | SetCount v k => let* m' := la_set_size acc m v in list_on_memory acc k m'
  | GetPrev n k => let* v := la_prev acc m n in list_on_memory acc (k v) m
  | GetNext n k => let* v := la_next acc m n in list_on_memory acc (k v) m
  | SetPrev n v k => let* m' := la_set_prev acc m n v in list_on_memory acc k m'
  | SetNext n v k => let* m' := la_set_next acc m n v in list_on_memory acc k m'
  end.
(** On a bare list: its header and the pairs of the elements. *)
Fixpoint on_list {A} (len : N) (p : lprog A) (h : lhdr) (d : N -> N * N) : out (A * lhdr * (N -> N * N)) :=
  match p with
  | LDone o => let* a := o in Val (a, h, d)
  | GetFirst k => on_list len (k (lfirst h)) h d
  | GetLast k => on_list len (k (llast h)) h d
  | GetCount k => on_list len (k (lcount h)) h d
  | SetFirst v k => on_list len k (mkLhdr v (llast h) (lcount h)) d
  | SetLast v k => on_list len k (mkLhdr (lfirst h) v (lcount h)) d
  | SetCount v k => on_list len k (mkLhdr (lfirst h) (llast h) v) d
  | GetPrev n k => node len n (on_list len (k (fst (d n))) h d)
  | GetNext n k => node len n (on_list len (k (snd (d n))) h d)
  | SetPrev n v k => node len n (on_list len k h (upd d n (v, snd (d n))))
  | SetNext n v k => node len n (on_list len k h (upd d n (fst (d n), v)))
  end.
Definition lagree {A} (M : lhdr -> (N -> N * N) -> mem) (x : out (A * lhdr * (N -> N * N))) (y : out (A * mem)) : Prop :=
  match x with
  | Val (a, h, d) => exists m, y = Val (a, m) /\ same_mem m (M h d)
  | Panic => y = Panic
  | Diverge => y = Diverge
  | UB => True
  end.

(** A read or write of one word of a memory that looks like [m0] and then like [m1]. *)
Lemma rd_index F m m0 i f : same_mem m m0 -> fld F (m_index m) i f = fld F (m_index m0) i f.
Proof. intros (D & I & DW & IW). unfold fld. now rewrite I, IW. Qed.
Lemma rd_data F m m0 i f : same_mem m m0 -> fld F (m_data m) i f = fld F (m_data m0) i f.
Proof. intros (D & I & DW & IW). unfold fld. now rewrite D, DW. Qed.
Lemma wr_index F m m0 m1 i f v : same_mem m m0 -> i < sl_len (m_index m0) -> sl_len (m_index m1) = sl_len (m_index m0) ->
  sl_len (m_data m1) = sl_len (m_data m0) -> (forall w, sl_w (m_data m1) w = sl_w (m_data m0) w) ->
  (forall w, sl_w (m_index m1) w = upd (sl_w (m_index m0)) (word_at F i f) v w) ->
  exists m', ix_put F m i f v = Val m' /\ same_mem m' m1.
Proof.
  intros (D & I & DW & IW) L E1 E2 E3 E4. unfold ix_put, fld_put. rewrite I. apply N.ltb_lt in L. rewrite L. cbn [obind].
  eexists. split; [reflexivity|]. split; [cbn; congruence|]. split; [cbn; congruence|]. split; cbn; intros w; [now rewrite E3|].
  rewrite E4. now apply upd_ext2.
Qed.
Lemma wr_data F m m0 m1 i f v : same_mem m m0 -> i < sl_len (m_data m0) -> sl_len (m_index m1) = sl_len (m_index m0) ->
  sl_len (m_data m1) = sl_len (m_data m0) -> (forall w, sl_w (m_index m1) w = sl_w (m_index m0) w) ->
  (forall w, sl_w (m_data m1) w = upd (sl_w (m_data m0)) (word_at F i f) v w) ->
  exists m', dt_put F m i f v = Val m' /\ same_mem m' m1.
Proof.
  intros (D & I & DW & IW) L E1 E2 E3 E4. unfold dt_put, fld_put. rewrite D. apply N.ltb_lt in L. rewrite L. cbn [obind].
  eexists. split; [reflexivity|]. split; [cbn; congruence|]. split; [cbn; congruence|]. split; cbn; intros w; [|now rewrite E3].
  rewrite E4. now apply upd_ext2.
Qed.

Section LSim.
  Variables (acc : list_acc) (len : N) (M : lhdr -> (N -> N * N) -> mem).
  (** what the ten methods do to a memory that holds the list *)
  Hypothesis RF : forall m h d, same_mem m (M h d) -> la_first acc m = Val (lfirst h) /\ la_last acc m = Val (llast h) /\ la_size acc m = Val (lcount h).
  Hypothesis WF : forall m h d v, same_mem m (M h d) ->
    (exists m', la_set_first acc m v = Val m' /\ same_mem m' (M (mkLhdr v (llast h) (lcount h)) d)) /\
    (exists m', la_set_last acc m v = Val m' /\ same_mem m' (M (mkLhdr (lfirst h) v (lcount h)) d)) /\
    (exists m', la_set_size acc m v = Val m' /\ same_mem m' (M (mkLhdr (lfirst h) (llast h) v) d)).
  Hypothesis RN : forall m h d n, same_mem m (M h d) -> n <> 0 ->
    la_prev acc m n = (if n <? len then Val (fst (d n)) else Panic) /\ la_next acc m n = (if n <? len then Val (snd (d n)) else Panic).
  Hypothesis WN : forall m h d n v, same_mem m (M h d) -> n <> 0 -> n < len ->
    (exists m', la_set_prev acc m n v = Val m' /\ same_mem m' (M h (upd d n (v, snd (d n))))) /\
    (exists m', la_set_next acc m n v = Val m' /\ same_mem m' (M h (upd d n (fst (d n), v)))).
  Hypothesis WP : forall m h d n v, same_mem m (M h d) -> n <> 0 -> (n <? len) = false -> la_set_prev acc m n v = Panic /\ la_set_next acc m n v = Panic.

  Lemma list_simulates A (p : lprog A) : forall h d m, same_mem m (M h d) -> lagree M (on_list len p h d) (list_on_memory acc p m).
  Proof.
    induction p as [o|k IH|k IH|k IH|v k IH|v k IH|v k IH|n k IH|n k IH|n v k IH|n v k IH]; intros h d m SM; cbn [on_list list_on_memory].
    - destruct o; cbn; auto. eexists; split; [reflexivity|exact SM].
    - rewrite (proj1 (RF m h d SM)). now apply IH.
    - rewrite (proj1 (proj2 (RF m h d SM))). now apply IH.
    - rewrite (proj2 (proj2 (RF m h d SM))). now apply IH.
    - destruct (WF m h d v SM) as ((m' & -> & SM') & _ & _). now apply IH.
    - destruct (WF m h d v SM) as (_ & (m' & -> & SM') & _). now apply IH.
    - destruct (WF m h d v SM) as (_ & _ & (m' & -> & SM')). now apply IH.
    - unfold node. destruct (N.eqb_spec n 0) as [|N0]; [exact I|]. rewrite (proj1 (RN m h d n SM N0)). destruct (n <? len); [now apply IH|reflexivity].
    - unfold node. destruct (N.eqb_spec n 0) as [|N0]; [exact I|]. rewrite (proj2 (RN m h d n SM N0)). destruct (n <? len); [now apply IH|reflexivity].
    - unfold node. destruct (N.eqb_spec n 0) as [|N0]; [exact I|]. destruct (n <? len) eqn:L.
      + apply N.ltb_lt in L. destruct (WN m h d n v SM N0 L) as ((m' & -> & SM') & _). now apply IH.
      + now rewrite (proj1 (WP m h d n v SM N0 L)).
    - unfold node. destruct (N.eqb_spec n 0) as [|N0]; [exact I|]. destruct (n <? len) eqn:L.
      + apply N.ltb_lt in L. destruct (WN m h d n v SM N0 L) as (_ & (m' & -> & SM')). now apply IH.
      + now rewrite (proj2 (WP m h d n v SM N0 L)).
  Qed.
End LSim.
(** In the single memory [d] must not touch the header, which the model keeps in [u_data] too. *)
Definition ul_at (st : ust) (h : lhdr) (d : N -> N * N) : mem := u_mem (set_lhdr st h d).
Definition sl_at (st : sst) (h : lhdr) (d : N -> N * N) : mem := s_mem (s_set_lhdr st h d).
Ltac word2 i k := apply (flat_upd 2 _ _ i k); [lia|lia|cases|
  let j := fresh "j" in let l := fresh "l" in let L := fresh "L" in let D := fresh "D" in
  intros j l L; pattern l; revert l L; apply lt2; intros D; cases].
Ltac in_word :=
  match goal with |- _ = upd (flat 8 _) (?i * 8 + ?p) _ _ => let q := eval vm_compute in p in change p with q; word1 i q
                | |- _ = upd (flat 2 _) (?i * 2 + ?p) _ _ => let q := eval vm_compute in p in change p with q; word2 i q end.
Ltac open_lists := unfold ul_at, sl_at, u_mem, s_mem, u_words, s_iwords, s_dwords, set_lhdr, s_set_lhdr, word_at;
  cbn [m_index m_data sl_w sl_len u_len s_dlen s_ilen];
  change (size_of link_fields) with 8; change (size_of index_fields) with 8; change (size_of header_fields) with 8; change (size_of data_fields) with 2.

Lemma ul_simulates st A (p : lprog A) : 0 < u_len st ->
  lagree (ul_at st) (on_list (u_len st) p (u_lhdr st) (u_data st)) (list_on_memory ul_acc p (u_mem st)).
Proof.
  intros L0. pose proof L0 as L0'. apply N.ltb_lt in L0'.
  apply list_simulates.
  - intros m h d SM. cbn [la_first la_last la_size ul_acc]. rewrite !(rd_index _ _ _ _ _ SM). unfold fld. open_lists. rewrite L0'.
    rewrite !flat_at by (vm_compute; reflexivity). repeat split.
  - intros m h d v SM. cbn [la_set_first la_set_last la_set_size ul_acc]. split; [|split];
    (eapply wr_index; [exact SM|exact L0|reflexivity|reflexivity|reflexivity|]); intros w; open_lists; in_word.
  - intros m h d n SM N0. cbn [la_prev la_next ul_acc]. rewrite !(rd_index _ _ _ _ _ SM). unfold fld. open_lists.
    rewrite !flat_at by (vm_compute; reflexivity). split; reflexivity.
  - intros m h d n v SM N0 L. cbn [la_set_prev la_set_next ul_acc]. split;
    (eapply wr_index; [exact SM|exact L|reflexivity|reflexivity|reflexivity|]); intros w; open_lists; in_word.
  - intros m h d n v (D & I & _) N0 L. cbn [la_set_prev la_set_next ul_acc]. unfold ix_put, fld_put. rewrite I.
    change (sl_len (m_index (ul_at st h d))) with (u_len st). rewrite L. split; reflexivity.
  - repeat split. intros w. open_lists. apply flat_ext; [lia|]. intros i. apply lt8; cases.
Qed.
Lemma sl_simulates st A (p : lprog A) : 0 < s_ilen st ->
  lagree (sl_at st) (on_list (s_dlen st) p (s_lhdr st) (s_data st)) (list_on_memory sl_acc p (s_mem st)).
Proof.
  intros L0. pose proof L0 as L0'. apply N.ltb_lt in L0'.
  apply list_simulates.
  - intros m h d SM. cbn [la_first la_last la_size sl_acc]. rewrite !(rd_index _ _ _ _ _ SM). unfold fld. open_lists. rewrite L0'.
    rewrite !flat_at by (vm_compute; reflexivity). repeat split.
  - intros m h d v SM. cbn [la_set_first la_set_last la_set_size sl_acc]. split; [|split];
    (eapply wr_index; [exact SM|exact L0|reflexivity|reflexivity|reflexivity|]); intros w; open_lists; in_word.
  - intros m h d n SM N0. cbn [la_prev la_next sl_acc]. rewrite !(rd_data _ _ _ _ _ SM). unfold fld. open_lists.
    rewrite !flat_at by (vm_compute; reflexivity). split; reflexivity.
  - intros m h d n v SM N0 L. cbn [la_set_prev la_set_next sl_acc]. split;
    (eapply wr_data; [exact SM|exact L|reflexivity|reflexivity|reflexivity|]); intros w; open_lists; in_word.
  - intros m h d n v (D & I & _) N0 L. cbn [la_set_prev la_set_next sl_acc]. unfold dt_put, fld_put. rewrite D.
    change (sl_len (m_data (sl_at st h d))) with (s_dlen st). rewrite L. split; reflexivity.
  - repeat split. intros w. open_lists. apply flat_ext; [lia|]. intros i. apply lt8; cases.
Qed.

(** * C76 *)
(** Every algorithm over the methods of the free list does to the memory of the store what it does
    to the bare list, and the rest of the memory stays. *)
Lemma L_C76_lists A (p : lprog A) :
  (forall st : ust, 0 < u_len st ->
     lagree (fun h d => u_mem (set_lhdr st h d)) (on_list (u_len st) p (u_lhdr st) (u_data st)) (list_on_memory ul_acc p (u_mem st))) /\
  (forall st : sst, 0 < s_ilen st ->
     lagree (fun h d => s_mem (s_set_lhdr st h d)) (on_list (s_dlen st) p (s_lhdr st) (s_data st)) (list_on_memory sl_acc p (s_mem st))).
Proof. split; intros st L; [now apply ul_simulates|now apply sl_simulates]. Qed.
(** So taking a link off the free list and putting one on it in the models are the crate's
    operations run on the memory, whatever programs over the methods they are. *)
Definition lcomputes (p : lprog unit) (len : N) (h : lhdr) (d : N -> N * N) (t : out (lhdr * (N -> N * N))) : Prop :=
  on_list len p h d = let* (h', d') := t in Val (tt, h', d').
Lemma L_C76_unit_steps (lops : list_ops) (p : lprog unit) (st st' : ust) i : 0 < u_len st ->
  let on op := lcomputes p (u_len st) (u_lhdr st) (u_data st) (op (u_lhdr st) (u_data st) i) in
  let runs := exists m, list_on_memory ul_acc p (u_mem st) = Val (tt, m) /\ same_mem m (u_mem st') in
  (on (l_attach lops) -> u_unused_attach lops st i = Val st' -> runs) /\ (on (l_detach lops) -> u_unused_detach lops st i = Val st' -> runs).
Proof.
  intros L. cbv zeta. unfold lcomputes, u_unused_attach, u_unused_detach.
  pose proof (proj1 (L_C76_lists unit p) st L) as S.
  split; intros P E; rewrite P in S;
    match type of E with context [let* (_, _) := ?o in _] => destruct o as [[h d]| | |]; try discriminate end;
    cbn [obind lagree] in *; injection E as <-; assumption.
Qed.
Lemma L_C76_split_steps (lops : list_ops) (p : lprog unit) (st st' : sst) i : 0 < s_ilen st ->
  let on op := lcomputes p (s_dlen st) (s_lhdr st) (s_data st) (op (s_lhdr st) (s_data st) i) in
  let runs := exists m, list_on_memory sl_acc p (s_mem st) = Val (tt, m) /\ same_mem m (s_mem st') in
  (on (l_attach lops) -> s_unused_attach lops st i = Val st' -> runs) /\ (on (l_detach lops) -> s_unused_detach lops st i = Val st' -> runs).
Proof.
  intros L. cbv zeta. unfold lcomputes, s_unused_attach, s_unused_detach, s_view.
  pose proof (proj2 (L_C76_lists unit p) st L) as S.
  destruct (s_dlen st =? s_dcap st); cbn [obind]; [|split; discriminate].
  split; intros P E; rewrite P in S;
    match type of E with context [let* (_, _) := ?o in _] => destruct o as [[h d]| | |]; try discriminate end;
    cbn [obind lagree] in *; injection E as <-; assumption.
Qed.
(** Whatever runs, even with 0 as an element, only first_free, last_free and free of the header and
    the source and target of slots can change: no field of a tree, no root, and in the split store
    neither allocated nor reserved. *)
Lemma L_C76_frame A (p : lprog A) m m' a :
  let H f := word_at header_fields 0 f in
  (list_on_memory ul_acc p m = Val (a, m') -> m_data m' = m_data m /\ sl_len (m_index m') = sl_len (m_index m) /\
     forall w, ~ In w [H "first_free"; H "last_free"; H "free"]%string ->
       (forall n f, In f ["source"; "target"]%string -> n < sl_len (m_index m) -> w <> word_at link_fields n f) ->
       sl_w (m_index m') w = sl_w (m_index m) w) /\
  (list_on_memory sl_acc p m = Val (a, m') -> sl_len (m_data m') = sl_len (m_data m) /\ sl_len (m_index m') = sl_len (m_index m) /\
     (forall w, ~ In w [H "first_free"; H "last_free"; H "free"]%string -> sl_w (m_index m') w = sl_w (m_index m) w) /\
     forall w, 2 * sl_len (m_data m) <= w -> sl_w (m_data m') w = sl_w (m_data m) w).
Proof.
  cbv zeta. split.
  - set (keeps := fun m m' : mem => m_data m' = m_data m /\ sl_len (m_index m') = sl_len (m_index m) /\
      forall w, ~ In w [word_at header_fields 0 "first_free"; word_at header_fields 0 "last_free"; word_at header_fields 0 "free"]%string ->
        (forall n f, In f ["source"; "target"]%string -> n < sl_len (m_index m) -> w <> word_at link_fields n f) ->
        sl_w (m_index m') w = sl_w (m_index m) w).
    assert (TR : forall x y z, keeps x y -> keeps y z -> keeps x z).
    { intros x y z (D & L & W) (D' & L' & W'). split; [congruence|]. split; [congruence|]. intros w R F. rewrite W'; auto. rewrite L. auto. }
    assert (HP : forall m f v x, In f ["first_free"; "last_free"; "free"]%string -> ix_put header_fields m 0 f v = Val x -> keeps m x).
    { intros m0 f v x HF E. unfold ix_put, fld_put in E. destruct (N.ltb_spec 0 (sl_len (m_index m0))); [|discriminate].
      cbn [obind] in E. injection E as <-. split; [reflexivity|]. split; [reflexivity|]. cbn [m_index sl_w]. intros w R F. unfold upd.
      destruct (N.eqb_spec w (word_at header_fields 0 f)) as [->|]; auto. exfalso. apply R. cbn [In] in HF |- *. destruct HF as [<-|[<-|[<-|[]]]]; auto. }
    assert (LP : forall m n f v x, In f ["source"; "target"]%string -> ix_put link_fields m n f v = Val x -> keeps m x).
    { intros m0 n f v x HF E. unfold ix_put, fld_put in E. destruct (N.ltb_spec n (sl_len (m_index m0))) as [L|]; [|discriminate].
      cbn [obind] in E. injection E as <-. split; [reflexivity|]. split; [reflexivity|]. cbn [m_index sl_w]. intros w R F. unfold upd.
      destruct (N.eqb_spec w (word_at link_fields n f)) as [EQ|]; auto. exfalso. exact (F n f HF L EQ). }
    change (list_on_memory ul_acc p m = Val (a, m') -> keeps m m'). revert m.
    induction p as [o|k IH|k IH|k IH|v k IH|v k IH|v k IH|n k IH|n k IH|n v k IH|n v k IH]; intros m E; cbn [list_on_memory] in E;
      try (match type of E with (let* _ := ?o in _) = _ => destruct o as [x| | |] eqn:P; try discriminate end; cbn [obind] in E).
    1: { injection E as <- <-. repeat split. }
    1-3,7,8: now apply (IH x).
    1-3: eapply TR; [eapply HP; [|exact P]; cbn; tauto|now apply IH].
    all: eapply TR; [eapply LP; [|exact P]; cbn; tauto|now apply IH].
  - set (keeps := fun m m' : mem => sl_len (m_data m') = sl_len (m_data m) /\ sl_len (m_index m') = sl_len (m_index m) /\
      (forall w, ~ In w [word_at header_fields 0 "first_free"; word_at header_fields 0 "last_free"; word_at header_fields 0 "free"]%string -> sl_w (m_index m') w = sl_w (m_index m) w) /\
      forall w, 2 * sl_len (m_data m) <= w -> sl_w (m_data m') w = sl_w (m_data m) w).
    assert (TR : forall x y z, keeps x y -> keeps y z -> keeps x z).
    { intros x y z (D & L & W & V) (D' & L' & W' & V'). split; [congruence|]. split; [congruence|]. split; [intros w R; rewrite W'; auto|].
      intros w G. rewrite V'; [auto|now rewrite D]. }
    assert (HP : forall m f v x, In f ["first_free"; "last_free"; "free"]%string -> ix_put header_fields m 0 f v = Val x -> keeps m x).
    { intros m0 f v x HF E. unfold ix_put, fld_put in E. destruct (N.ltb_spec 0 (sl_len (m_index m0))); [|discriminate].
      cbn [obind] in E. injection E as <-. split; [reflexivity|]. split; [reflexivity|]. split; [|reflexivity]. cbn [m_index sl_w]. intros w R. unfold upd.
      destruct (N.eqb_spec w (word_at header_fields 0 f)) as [->|]; auto. exfalso. apply R. cbn [In] in HF |- *. destruct HF as [<-|[<-|[<-|[]]]]; auto. }
    assert (LP : forall m n f v x, In f ["source"; "target"]%string -> dt_put data_fields m n f v = Val x -> keeps m x).
    { intros m0 n f v x HF E. unfold dt_put, fld_put in E. destruct (N.ltb_spec n (sl_len (m_data m0))) as [L|]; [|discriminate].
      cbn [obind] in E. injection E as <-. split; [reflexivity|]. split; [reflexivity|]. split; [reflexivity|]. cbn [m_data sl_w]. intros w G. unfold upd.
      destruct (N.eqb_spec w (word_at data_fields n f)) as [EQ|]; auto. exfalso. subst w.
      assert (PF : position data_fields f < 2) by (cbn in HF; decompose [or] HF; subst; try contradiction; vm_compute; reflexivity).
      unfold word_at in G. change (size_of data_fields) with 2 in G. lia. }
    change (list_on_memory sl_acc p m = Val (a, m') -> keeps m m'). revert m.
    induction p as [o|k IH|k IH|k IH|v k IH|v k IH|v k IH|n k IH|n k IH|n v k IH|n v k IH]; intros m E; cbn [list_on_memory] in E;
      try (match type of E with (let* _ := ?o in _) = _ => destruct o as [x| | |] eqn:P; try discriminate end; cbn [obind] in E).
    1: { injection E as <- <-. repeat split. }
    1-3,7,8: now apply (IH x).
    1-3: eapply TR; [eapply HP; [|exact P]; cbn; tauto|now apply IH].
    all: eapply TR; [eapply LP; [|exact P]; cbn; tauto|now apply IH].
Qed.
(** The two list operations written against the methods. *)
Definition attach_first (x : N) : lprog unit :=
  GetFirst (fun f =>
    (if f =? 0 then fun k => SetFirst x (SetLast x (SetPrev x x (SetNext x x k)))
     else fun k => GetPrev f (fun p => SetPrev x p (SetNext x f (SetNext p x (SetPrev f x (SetFirst x k))))))
    (GetCount (fun c => SetCount (c + 1) (LDone (Val tt))))).
Definition detach (x : N) : lprog unit :=
  GetPrev x (fun p => GetNext x (fun n =>
    (if n =? x then fun k => SetFirst 0 (SetLast 0 k)
     else fun k => SetNext p n (SetPrev n p
       (GetFirst (fun f => (if f =? x then SetFirst n else fun q => q)
         (GetLast (fun l => (if l =? x then SetLast p else fun q => q) k))))))
    (SetPrev x 0 (SetNext x 0 (GetCount (fun c => SetCount (c - 1) (LDone (Val tt)))))))).
(** On every ring in the memory they are the operations the models are run with, so the hypotheses
    of the steps above can be met for the operations the contract is met by. *)
Lemma L_C76_realised len h d l x : lrep h d l -> (forall y, In y l -> y < len) -> x <> 0 -> x < len ->
  (forall h' d', l_attach ref_list_ops h d x = Val (h', d') -> ~ In x l ->
     exists d2, on_list len (attach_first x) h d = Val (tt, h', d2) /\ forall i, d2 i = d' i) /\
  (forall h' d', l_detach ref_list_ops h d x = Val (h', d') -> In x l ->
     exists d2, on_list len (detach x) h d = Val (tt, h', d2) /\ forall i, d2 i = d' i).
Proof.
  intros R B X0 XL.
  assert (NODE : forall T n (k : out T), n <> 0 -> n < len -> node len n k = k).
  { intros T n k N0 L. unfold node. destruct (N.eqb_spec n 0); [contradiction|]. apply N.ltb_lt in L. now rewrite L. }
  assert (CLR : forall (D : N -> N * N) i, upd (upd D x (0, snd (D x))) x (fst (upd D x (0, snd (D x)) x), 0) i = upd D x (0, 0) i).
  { intros D i. rewrite upd_same. unfold upd. destruct (i =? x); reflexivity. }
  destruct R as (ND & NZ & HF & HL & HC & HS).
  assert (MEM : forall y, In y l -> y <> 0 /\ In (fst (d y)) l /\ In (snd (d y)) l).
  { intros y Y. assert (LN : l <> []) by (intros ->; contradiction).
    destruct (seg_in_pair d l (last l 0) (hd 0 l) y HS Y) as [P Q]. split; [intros ->; contradiction|]. split.
    - destruct P as [<-|P]; auto. now apply last_in.
    - apply in_app_or in Q. destruct Q as [Q|[<-|[]]]; auto. destruct l; [contradiction|now left]. }
  split; intros h' d' E XI.
  - cbn [l_attach ref_list_ops] in E. unfold impl_attach_as_first in E. unfold attach_first. cbn [on_list].
    destruct (N.eqb_spec (lfirst h) 0) as [F0|F0].
    + injection E as <- <-. cbn [on_list]. rewrite ?NODE by auto. cbn [on_list obind lfirst llast lcount]. eexists. split; [reflexivity|].
      intros i. unfold set_next, set_prev, upd. destruct (i =? x) eqn:EI; [|rewrite ?EI; reflexivity]. rewrite ?N.eqb_refl. reflexivity.
    + assert (FI : In (lfirst h) l) by (rewrite HF in *; destruct l; [now contradiction F0|now left]).
      destruct (MEM _ FI) as (_ & PI & _). destruct (MEM _ PI) as (P0 & _ & _).
      injection E as <- <-. cbn [on_list]. rewrite ?NODE by auto. cbn [on_list obind lfirst llast lcount]. eexists. split; [reflexivity|].
      intros i. unfold set_next, set_prev. reflexivity.
  - destruct (MEM _ XI) as (_ & PI & QI). destruct (MEM _ PI) as (P0 & _ & _), (MEM _ QI) as (Q0 & _ & _).
    cbn [l_detach ref_list_ops] in E. unfold impl_detach in E. unfold detach. cbn [on_list]. rewrite ?NODE by auto. cbn [on_list].
    rewrite ?NODE by auto.
    destruct (N.eqb_spec (snd (d x)) x) as [SX|SX].
    + injection E as <- <-. cbn [on_list]. rewrite ?NODE by auto. cbn [on_list]. rewrite ?NODE by auto. cbn [on_list obind lfirst llast lcount].
      eexists. split; [reflexivity|]. intros i. apply CLR.
    + injection E as <- <-. cbn [on_list]. rewrite ?NODE by auto. cbn [on_list]. rewrite ?NODE by auto. cbn [on_list].
      destruct (lfirst h =? x) eqn:EF; cbn [on_list lfirst llast lcount]; destruct (llast h =? x) eqn:EL; cbn [on_list lfirst llast lcount];
        rewrite ?NODE by auto; cbn [on_list]; rewrite ?NODE by auto; cbn [on_list obind lfirst llast lcount];
        (eexists; split; [reflexivity|]); intros i; unfold set_next, set_prev;
        apply CLR.
Qed.
(** Five links of which 2, 3 and 4 were deleted: 3 is taken off the list and put in front. *)
Definition ex_free : list cmd := [Cr; Cr; Cr; Cr; Cr; Up 1 1 1; De 2; De 3; De 4].
Definition ex_lops : list_ops :=
  mkListOps (fun h d x => let* (_, h', d') := on_list 8 (attach_first x) h d in Val (h', d'))
            (fun h d x => let* (_, h', d') := on_list 8 (detach x) h d in Val (h', d')).
Lemma L_C76_nonvacuous :
  let st := ex_st ex_free in let ss := ex_sst ex_free in
  0 < u_len st /\ 0 < s_ilen ss /\
  lrep (u_lhdr st) (u_data st) [4; 3; 2] /\ lrep (s_lhdr ss) (s_data ss) [4; 3; 2] /\ u_len st = 8 /\ s_dlen ss = 8 /\
  lcomputes (detach 3) (u_len st) (u_lhdr st) (u_data st) (l_detach ex_lops (u_lhdr st) (u_data st) 3) /\
  (exists m1 m2, list_on_memory ul_acc (detach 3) (u_mem st) = Val (tt, m1) /\ list_on_memory ul_acc (attach_first 3) m1 = Val (tt, m2) /\
     map (u_words st) (map N.of_nat (seq 0 8)) = [5; 7; 3; 4; 1; 1; 2; 0] /\
     map (fun i => (sl_w (m_index m1) (8 * i), sl_w (m_index m1) (8 * i + 1))) [2; 3; 4] = [(4, 4); (0, 0); (2, 2)] /\
     map (sl_w (m_index m2)) (map N.of_nat (seq 0 8)) = [5; 7; 3; 3; 1; 1; 2; 0] /\
     map (fun i => (sl_w (m_index m2) (8 * i), sl_w (m_index m2) (8 * i + 1))) [2; 3; 4] = [(4, 3); (2, 4); (3, 2)]) /\
  (exists m1 m2, list_on_memory sl_acc (detach 3) (s_mem ss) = Val (tt, m1) /\ list_on_memory sl_acc (attach_first 3) m1 = Val (tt, m2) /\
     map (s_iwords ss) (map N.of_nat (seq 0 8)) = [5; 7; 3; 4; 0; 0; 2; 0] /\
     map (sl_w (m_index m2)) (map N.of_nat (seq 0 8)) = [5; 7; 3; 3; 0; 0; 2; 0] /\
     map (fun i => (sl_w (m_data m2) (2 * i), sl_w (m_data m2) (2 * i + 1))) [2; 3; 4] = [(4, 3); (2, 4); (3, 2)]).
Proof.
  cbv zeta. split; [vm_compute; reflexivity|]. split; [vm_compute; reflexivity|].
  split; [split; [repeat constructor; cbn; intuition discriminate|]; split; [cbn; intuition discriminate|]; repeat split; vm_compute; reflexivity|].
  split; [split; [repeat constructor; cbn; intuition discriminate|]; split; [cbn; intuition discriminate|]; repeat split; vm_compute; reflexivity|].
  split; [vm_compute; reflexivity|]. split; [vm_compute; reflexivity|].
  split.
  { change (u_len (ex_st ex_free)) with 8 || replace (u_len (ex_st ex_free)) with 8 by (vm_compute; reflexivity).
    generalize (u_lhdr (ex_st ex_free)) (u_data (ex_st ex_free)). intros h d. unfold lcomputes, ex_lops. cbn [l_detach].
    destruct (on_list 8 (detach 3) h d) as [[[[] h'] d']| | |]; reflexivity. }
  split.
  - exists (match list_on_memory ul_acc (detach 3) (u_mem (ex_st ex_free)) with Val (_, m) => m | _ => u_mem ex_start end).
    exists (match list_on_memory ul_acc (detach 3) (u_mem (ex_st ex_free)) with
            | Val (_, m) => match list_on_memory ul_acc (attach_first 3) m with Val (_, m2) => m2 | _ => u_mem ex_start end
            | _ => u_mem ex_start end).
    repeat match goal with |- _ /\ _ => split end; vm_compute; reflexivity.
  - exists (match list_on_memory sl_acc (detach 3) (s_mem (ex_sst ex_free)) with Val (_, m) => m | _ => s_mem ex_sstart end).
    exists (match list_on_memory sl_acc (detach 3) (s_mem (ex_sst ex_free)) with
            | Val (_, m) => match list_on_memory sl_acc (attach_first 3) m with Val (_, m2) => m2 | _ => s_mem ex_sstart end
            | _ => s_mem ex_sstart end).
    repeat match goal with |- _ /\ _ => split end; vm_compute; reflexivity.
Qed.
