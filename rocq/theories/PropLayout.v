(** Property C63: the layout of the memory. *)
From Coq Require Import NArith List Bool String Lia.
From Verif Require Import Layout Base Trees Lists UnitModel SplitModel UnitHist SplitHist.
Import ListNotations.
Open Scope N_scope.

(** The header fits slot 0 exactly, and different fields of different slots are different words. *)
Theorem C63_sizes :
  size_of header_fields = size_of link_fields /\ size_of header_fields = size_of index_fields /\
  (forall fs i f j g, In fs [header_fields; link_fields; index_fields; data_fields] -> In f fs -> In g fs ->
     word_at fs i f = word_at fs j g -> i = j /\ f = g) /\
  (forall fs f g i, In fs [link_fields; index_fields] -> In f header_fields -> In g fs -> 1 <= i ->
     word_at header_fields 0 f < word_at fs i g).
Proof. exact L_C63_sizes. Qed.
Print Assumptions C63_sizes.

(** Every accessor of the model reads the word of the field it is named after. *)
Theorem C63_unit_reads :
  forall st i,
  let H f := u_words st (word_at header_fields 0 f) in let L f := u_words st (word_at link_fields i f) in
  H "allocated"%string = h_alloc st /\ H "reserved"%string = h_reserved st /\ H "free"%string = h_free st /\
  H "first_free"%string = h_first st /\ H "root_as_source"%string = h_sroot st /\ H "root_as_target"%string = h_troot st /\
  H "last_free"%string = h_last st /\
  L "source"%string = fst (u_data st i) /\ L "target"%string = snd (u_data st i) /\
  L "left_as_source"%string = nl (u_src st i) /\ L "right_as_source"%string = nr (u_src st i) /\ L "size_as_source"%string = nz (u_src st i) /\
  L "left_as_target"%string = nl (u_tgt st i) /\ L "right_as_target"%string = nr (u_tgt st i) /\ L "size_as_target"%string = nz (u_tgt st i).
Proof. exact L_C63_unit_reads. Qed.
Print Assumptions C63_unit_reads.

Theorem C63_split_reads :
  forall st i,
  let H f := s_iwords st (word_at header_fields 0 f) in let X f := s_iwords st (word_at index_fields i f) in
  let D f := s_dwords st (word_at data_fields i f) in
  H "allocated"%string = sh_alloc st /\ H "reserved"%string = sh_reserved st /\ H "free"%string = sh_free st /\
  H "first_free"%string = sh_first st /\ H "root_as_source"%string = sh_sroot st /\ H "root_as_target"%string = sh_troot st /\
  H "last_free"%string = sh_last st /\
  X "root_as_source"%string = s_rs st i /\ X "left_as_source"%string = nl (s_is st i) /\ X "right_as_source"%string = nr (s_is st i) /\
  X "size_as_source"%string = nz (s_is st i) /\ X "root_as_target"%string = s_rt st i /\ X "left_as_target"%string = nl (s_it st i) /\
  X "right_as_target"%string = nr (s_it st i) /\ X "size_as_target"%string = nz (s_it st i) /\
  D "source"%string = fst (s_data st i) /\ D "target"%string = snd (s_data st i).
Proof. exact L_C63_split_reads. Qed.
Print Assumptions C63_split_reads.

(** Every write of the models writes the words it is named after and no others. *)
Theorem C63_unit_writes :
  forall st i s t v h d,
  let H f := word_at header_fields 0 f in let L f := word_at link_fields i f in let W := u_words st in
  writes W (u_words (set_alloc st v)) [(H "allocated"%string, v)] /\
  writes W (u_words (set_reserved st v)) [(H "reserved"%string, v)] /\
  writes W (u_words (set_src st (set_sroot (u_src st) v))) [(H "root_as_source"%string, v)] /\
  writes W (u_words (set_tgt st (set_troot (u_tgt st) v))) [(H "root_as_target"%string, v)] /\
  writes W (u_words (set_data st (upd (u_data st) i (s, t)))) [(L "source"%string, s); (L "target"%string, t)] /\
  (d = u_data st ->
   writes W (u_words (set_lhdr st h d)) [(H "free"%string, lcount h); (H "first_free"%string, lfirst h); (H "last_free"%string, llast h)]).
Proof. exact L_C63_unit_writes. Qed.
Print Assumptions C63_unit_writes.

Theorem C63_split_writes :
  forall st i s t v h d,
  let H f := word_at header_fields 0 f in let X f := word_at index_fields i f in let D f := word_at data_fields i f in
  let W := s_iwords st in
  writes W (s_iwords (s_set_alloc st v)) [(H "allocated"%string, v)] /\
  writes W (s_iwords (s_set_reserved st v)) [(H "reserved"%string, v)] /\
  writes W (s_iwords (s_set_src st (upd (s_rs st) i v) (s_is st))) [(X "root_as_source"%string, v)] /\
  writes W (s_iwords (s_set_tgt st (upd (s_rt st) i v) (s_it st))) [(X "root_as_target"%string, v)] /\
  writes (s_dwords st) (s_dwords (s_set_data st (upd (s_data st) i (s, t)))) [(D "source"%string, s); (D "target"%string, t)] /\
  writes W (s_iwords (s_set_lhdr st h d)) [(H "free"%string, lcount h); (H "first_free"%string, lfirst h); (H "last_free"%string, llast h)].
Proof. exact L_C63_split_writes. Qed.
Print Assumptions C63_split_writes.

(** The first four slots of the example stores (links 1: 1 1, 2: 1 2, 3: 2 1), word by word. *)
Theorem C63_nonvacuous :
  map (u_words (ex_st ex3)) (map N.of_nat (seq 0 32)) =
    [3; 7; 0; 0; 1; 1; 0; 0;  1; 1; 0; 2; 3; 0; 2; 3;  1; 2; 0; 3; 2; 3; 0; 2;  2; 1; 0; 0; 1; 0; 0; 1] /\
  map (s_dwords (ex_sst ex3)) (map N.of_nat (seq 0 8)) = [0; 0; 1; 1; 1; 2; 2; 1] /\
  map (s_iwords (ex_sst ex3)) (map N.of_nat (seq 0 32)) =
    [3; 7; 0; 0; 0; 0; 0; 0;  1; 0; 2; 2; 1; 0; 3; 2;  3; 0; 0; 1; 2; 0; 0; 1;  0; 0; 0; 1; 0; 0; 0; 1].
Proof. exact L_C63_nonvacuous. Qed.
Print Assumptions C63_nonvacuous.
