{"id": "C01", "title": "Update round trip and frame (unit store)", "statement": "After update(i,s,t) succeeds on the single-memory store, get_link(i) is exactly (i,s,t) and get_link(j) is unchanged for every other j; the set of existing links is unchanged. update succeeds for every existing i.", "quantifier": "every reachable store state (any history of create/update/delete within the duplicate-pair discipline), every index, every source and target value including null, self references, dangling and external references", "why_tests_cant": "the effect goes through two intrusive search trees that share memory with the link; only finitely many tree shapes and histories can be tested", "anchors": ["doublets/src/mem/unit/store.rs: update_links, get_link", "doublets/src/data/traits.rs: update, update_by_with"]}
{"id": "C02", "title": "count() equals the links that exist, and each visits exactly them", "statement": "count() is the number of indices i for which get_link(i) is Some, and each([]) / each([any]) / each([any,any,any]) calls the handler once for each of them, in ascending index order.", "quantifier": "every reachable state, every handler that does not break", "why_tests_cant": "count is computed from header arithmetic (allocated - free) while existence is read from tree sizes; agreement in all states is an invariant over histories", "anchors": ["doublets/src/mem/unit/store.rs: get_total, is_unused, exists, each_core, count_links"]}
{"id": "C03", "title": "each_by visits exactly the matching links", "statement": "For the query shapes [i], [i,v], [i,s,t], [any,s,any], [any,any,t], [any,s,t] (s,t non-null), each_by calls the handler for exactly the existing links that match, each of them once; for [any,v] it visits first the links with source v and then the links with target v (so a link v->v is visited twice).", "quantifier": "every reachable state, every query of these shapes, every handler", "why_tests_cant": "correctness depends on the search-tree ordering and size invariants in every reachable tree shape", "anchors": ["doublets/src/mem/unit/store.rs: each_core", "doublets/src/mem/unit/generic/sources_recursionless_size_balanced_tree.rs: each_usages_core, search", "doublets/src/mem/unit/generic/targets_recursionless_size_balanced_tree.rs: each_usages_core"]}
{"id": "C04", "title": "count_by equals the number of links each_by visits", "statement": "For every query of length 0 to 3 the value returned by count_by is the number of handler calls each_by makes for the same query when the handler never breaks (store without duplicate pairs).", "quantifier": "every reachable state and every query of length at most 3, including null, any and dangling components", "why_tests_cant": "count_usages uses subtree-size arithmetic while each_usages walks the tree; they agree only by a global invariant", "anchors": ["doublets/src/mem/unit/store.rs: count_links, each_core", "doublets/src/mem/unit/generic/sources_recursionless_size_balanced_tree.rs: count_usages"]}
{"id": "C05", "title": "search finds a link iff it exists", "statement": "search(s,t) with non-null s returns Some(i) only when get_link(i)=(i,s,t), and returns None only when no existing link is s->t.", "quantifier": "every reachable state, every non-null source and every target other than the any constant", "why_tests_cant": "completeness of a tree search is a statement about all reachable tree shapes", "anchors": ["doublets/src/data/traits.rs: search, find", "doublets/src/mem/unit/store.rs: each_core", "doublets/src/mem/unit/generic/sources_recursionless_size_balanced_tree.rs: search"]}
{"id": "C06", "title": "create yields a fresh empty link and touches nothing else", "statement": "A successful create returns an index that did not exist before, lies in the internal range, exists afterwards as (i,0,0), and every other link is unchanged; count grows by one.", "quantifier": "every reachable state and every allocation behaviour of the memory", "why_tests_cant": "freshness depends on the whole history of deletions (free list) and on memory growth", "anchors": ["doublets/src/mem/unit/store.rs: create_links", "doublets/src/mem/unit/generic/unused_links.rs: UnusedLinks"]}
{"id": "C07", "title": "Index reuse policy", "statement": "create returns the most recently deleted index that is still a hole, and when there is no hole the successor of the highest existing index; the highest index in use is always an existing link (holes at the top are given back at deletion).", "quantifier": "every history of create/update/delete", "why_tests_cant": "a statement about histories of unbounded length", "anchors": ["doublets/src/mem/unit/store.rs: create_links, delete_links"]}
{"id": "C08", "title": "delete removes exactly one link", "statement": "After delete(i) succeeds get_link(i) is None, every other link is unchanged (also links that refer to i), and count drops by one. delete succeeds for every existing i.", "quantifier": "every reachable state and every index", "why_tests_cant": "deletion rewrites both trees, the free list and may trim an unbounded run of holes", "anchors": ["doublets/src/mem/unit/store.rs: delete_links"]}
{"id": "C09", "title": "Operations on missing links fail and change nothing", "statement": "update and delete of an index that does not exist return NotExists with that index, do not call the handler, and leave the store exactly as it was.", "quantifier": "every reachable state, every index without a link (null, hole, beyond the end, external), any handler", "why_tests_cant": "needs all states and all indices", "anchors": ["doublets/src/mem/unit/store.rs: update_links, delete_links", "doublets/src/data/traits.rs: try_get_link"]}
{"id": "C10", "title": "LimitReached exactly when the internal range is full", "statement": "create returns LimitReached(max) iff every index of the internal range exists; the store is then unchanged.", "quantifier": "every reachable state, every internal range", "why_tests_cant": "tests cannot fill a 2^32 or 2^64 range, and only reuse makes the condition non-trivial", "anchors": ["doublets/src/mem/unit/store.rs: create_links"]}
{"id": "C11", "title": "No panic, undefined behaviour or endless loop", "statement": "In every history of create, update, delete, count, each and get, no operation panics (bounds, arithmetic overflow, unreachable!, expect), reads outside memory through unwrap_unchecked, or fails to terminate, provided queries have length at most 3 and the address type has room for one growth step above the internal range.", "quantifier": "every history within the duplicate-pair discipline, every query, every handler, every memory-allocation outcome", "why_tests_cant": "absence of failure over all histories", "anchors": ["doublets/src/mem/unit/store.rs: whole file", "doublets/src/mem/unit/generic/*.rs"]}
{"id": "C12", "title": "Deleting everything in any order resets the store", "statement": "Whatever history led to a store, deleting all existing links in any order leaves it observably equal to a new one: no links, no holes; the next creates return 1, 2, 3, ...", "quantifier": "every reachable state and every permutation of its links as deletion order", "why_tests_cant": "factorially many orders, unbounded sizes", "anchors": ["doublets/src/mem/unit/store.rs: delete_links (trim loop)"]}
{"id": "C13", "title": "Reopening the memory restores the store", "statement": "Opening a new store over the memory of a store of the same type gives a store with the same links, counts and index policy.", "quantifier": "every reachable state; every memory size", "why_tests_cant": "off-by-one in the reopening capacity shows only at allocated >= 2^20 links", "anchors": ["doublets/src/mem/unit/store.rs: init", "doublets/src/mem/split/store.rs: init"]}
{"id": "C14", "title": "The before link handed to update handlers is the old link", "statement": "When update(i,s,t) calls the handler, the first argument is the link as it was before the call and the second the link as it is after.", "quantifier": "every state, every update; both stores", "why_tests_cant": "tests look at a few handlers; the claim is about every update", "anchors": ["doublets/src/mem/unit/store.rs: update_links (old_source)", "doublets/src/mem/split/store.rs: update_links"]}
{"id": "C15", "title": "Create and delete handlers are told the truth", "statement": "create calls the handler exactly once with before = (0,0,0) and after = (i,0,0); delete calls it exactly once with before = the deleted link and after = (0,0,0); a failed call never calls it.", "quantifier": "every state, every handler", "why_tests_cant": "claim over all states and handlers", "anchors": ["doublets/src/mem/unit/store.rs: create_links, delete_links", "doublets/src/mem/split/store.rs: create_links, delete_links"]}
{"id": "C16", "title": "delete_all empties any store", "statement": "delete_all() succeeds on every store and leaves no links.", "quantifier": "every reachable store, with and without holes", "why_tests_cant": "fails only on stores with holes; existing tests use dense stores", "anchors": ["doublets/src/data/traits.rs: delete_all"]}
{"id": "C17", "title": "delete_usages deletes exactly the users of a link", "statement": "delete_usages(i) succeeds for every store and deletes exactly the links other than i that have i as source or target.", "quantifier": "every reachable store and index", "why_tests_cant": "fails only when some link has i on both sides", "anchors": ["doublets/src/data/traits.rs: delete_usages_with, delete_usages"]}
{"id": "C18", "title": "rebase redirects every usage", "statement": "After rebase(old,new) succeeds no link other than old refers to old; every former usage has old replaced by new on both sides, every other link is unchanged.", "quantifier": "every reachable store and every pair old,new", "why_tests_cant": "fails only for links with old on both sides", "anchors": ["doublets/src/data/traits.rs: rebase_with"]}
{"id": "C19", "title": "After a handler breaks it is not called again", "statement": "Operations that promise to fuse the handler (create_link_with, delete_query_with, delete_usages_with, rebase_with) never call the user handler again after it has returned Break.", "quantifier": "every handler and every sequence of events", "why_tests_cant": "needs a stateful handler that observes calls after a break", "anchors": ["doublets/src/data/handler.rs: Fuse, call_mut", "doublets/src/data/traits.rs: create_link_with, delete_query_with"]}
{"id": "C20", "title": "count_usages and usages agree with the links", "statement": "For existing i, count_usages(i) = length of usages(i); usages(i) lists exactly the other links using i (twice when on both sides); has_usages(i) iff some other link uses i; for missing i both fail with NotExists.", "quantifier": "every reachable store and index", "why_tests_cant": "all states", "anchors": ["doublets/src/data/traits.rs: count_usages, usages, has_usages"]}
{"id": "C21", "title": "get_or_create is idempotent and never duplicates", "statement": "get_or_create(s,t) with non-null s returns the index of a link s->t; if one existed the store is unchanged, otherwise exactly one link is added; calling it again returns the same index without change, so a store built by get_or_create only has no duplicate pairs.", "quantifier": "every reachable store, every non-null s and every t different from any; every allocation outcome", "why_tests_cant": "idempotence over all histories", "anchors": ["doublets/src/data/traits.rs: get_or_create"]}
{"id": "C22", "title": "create_link and create_point", "statement": "create_link(s,t) returns a fresh i and the store then contains (i,s,t) in addition to its previous links; create_point returns a fresh i with (i,i,i).", "quantifier": "every reachable store and values", "why_tests_cant": "all states and values", "anchors": ["doublets/src/data/traits.rs: create_link, create_point"]}
{"id": "C23", "title": "Break stops iteration at once", "statement": "each_by calls the handler on the matching links one after another and stops right after the first call that breaks; its result is that break; without a break every match is visited and the result is success. The same handler state is threaded through all calls.", "quantifier": "every reachable store, every query of length at most 3, every stateful handler", "why_tests_cant": "all handlers and states", "anchors": ["doublets/src/data/traits.rs: each_by", "doublets/src/mem/unit/store.rs: each_core", "doublets/src/mem/unit/generic/sources_recursionless_size_balanced_tree.rs: each_usages_core"]}
{"id": "C24", "title": "find, single, found and iterators agree with each", "statement": "find(q) is the first link each_by(q) visits; found(q) iff there is one; single(q) is Some(l) iff exactly one visit is made; each_iter(q)/iter() yield the visited links in order and have exactly count_by(q) elements.", "quantifier": "every reachable store and query of length at most 3", "why_tests_cant": "all states and queries", "anchors": ["doublets/src/data/traits.rs: find, found, single, each_iter, iter"]}
{"id": "C25", "title": "The split store is a correct link store under its discipline", "statement": "For histories of the two-memory store in which a link with null target has null source, a link with a non-null source is not updated to refer to itself, no link is detached from a tree (by an update or delete of it or of a link it uses) while another link has its pair, and create never returns an index still referred to, create/update/delete/get/count() behave exactly as a finite map with the index policy of C07, never panic and never fail otherwise.", "quantifier": "every such history", "why_tests_cant": "up to 2n+2 intrusive trees share one memory; correctness is an invariant over histories", "anchors": ["doublets/src/mem/split/store.rs: whole file", "doublets/src/mem/split/generic/*.rs"]}
{"id": "C26", "title": "Split store: an updated link stays readable", "statement": "After update(i,s,t) succeeds on the split store get_link(i) = (i,s,t).", "quantifier": "every reachable split state and every s,t", "why_tests_cant": "fails only for s non-null with t null", "anchors": ["doublets/src/mem/split/store.rs: is_unused, update_links"]}
{"id": "C27", "title": "Split store: count_by equals the number of visited links", "statement": "For every query of length at most 3 count_by equals the number of links each_by visits, on the split store.", "quantifier": "every reachable split state and query", "why_tests_cant": "fails only for particular shapes and states (virtual source with concrete target, [i,v] with one matching side, free list non-empty with empty external tree)", "anchors": ["doublets/src/mem/split/store.rs: count_links, try_each_by_core", "doublets/src/mem/split/generic/external_sources_recursion_less_tree.rs: count_usages"]}
{"id": "C28", "title": "Split store: dangling references survive index reuse", "statement": "If a link x refers to a deleted index i and i is created again, queries by i still find x.", "quantifier": "every reachable split state", "why_tests_cant": "needs delete of a used link followed by reuse", "anchors": ["doublets/src/mem/split/store.rs: resolve_danglind_external, create_links"]}
{"id": "C29", "title": "Split store: a link updated to refer to itself is found by queries", "statement": "After update(i,i,t) on the split store, each_by([any,i,any]) visits i.", "quantifier": "every reachable split state", "why_tests_cant": "fails only if the old source was non-null", "anchors": ["doublets/src/mem/split/store.rs: update_links (virtual_source)"]}
{"id": "C30", "title": "Both stores are observably equal under the common discipline", "statement": "Running the same history of create/update/delete (within both disciplines) on a unit and a split store with the same constants gives the same results for every call, the same get_link and count() answers, and the same search answers.", "quantifier": "every history within the discipline", "why_tests_cant": "equivalence of two data structures over all histories", "anchors": ["doublets/src/mem/unit/store.rs", "doublets/src/mem/split/store.rs"]}
{"id": "C31", "title": "FFI callbacks: continue means continue, break means break", "statement": "In the C interface, a create/update/delete/each callback that returns the Continue constant leads to the Continue result and one that returns the Break constant leads to the Break result.", "quantifier": "every callback, every store state", "why_tests_cant": "create has the comparison inverted; depends on values returned by foreign code", "anchors": ["doublets-ffi/src/lib.rs: create_united, each_united, update_united, delete_united"]}
{"id": "C32", "title": "FFI constants conversion round trips", "statement": "Converting link constants to the C struct and back gives the same constants.", "quantifier": "every constants value, with and without external range", "why_tests_cant": "all values", "anchors": ["doublets-ffi/src/lib.rs: Constants, Range, From impls"]}
{"id": "C33", "title": "Queries of any length are answered", "statement": "count_by and each_by return normally for every query slice.", "quantifier": "every query", "why_tests_cant": "length is unbounded", "anchors": ["doublets/src/mem/unit/store.rs: todo!() in count_links/each_core", "doublets/src/mem/split/store.rs: todo!() in count_links/try_each_by_core"]}
{"id": "C34", "title": "Opening a store succeeds for every address type", "statement": "Store::new over empty memory succeeds for every supported address type (u8, u16, u32, u64).", "quantifier": "every address type, allocations succeed", "why_tests_cant": "u8/u16 are in the LinkType trait but not tested", "anchors": ["doublets/src/mem/unit/store.rs: init", "doublets/src/mem/split/store.rs: init"]}
{"id": "C35", "title": "Creation succeeds until the internal range is full", "statement": "As long as memory allocation succeeds create fails only with LimitReached (and never panics on growth).", "quantifier": "every reachable state, every address type and constants", "why_tests_cant": "needs about 2^32 links to observe", "anchors": ["doublets/src/mem/unit/store.rs: create_links (T::try_from(reserved).expect)"]}
{"id": "C36", "title": "UniqueValidator keeps pairs unique", "statement": "Through the UniqueValidator decorator an update to a pair held by another link fails with AlreadyExists and changes nothing, every other update is passed through; so a store whose pairs are distinct keeps distinct pairs.", "quantifier": "every inner store obeying the store contract, every update", "why_tests_cant": "all states", "anchors": ["doublets-decorators/src/unique_validator.rs"]}
{"id": "C37", "title": "UniqueResolver merges duplicates", "statement": "Through the UniqueResolver decorator an update of i to a pair held by another link j deletes i and leaves j; other updates are passed through; the store never acquires duplicate pairs.", "quantifier": "every inner store obeying the store contract", "why_tests_cant": "all states", "anchors": ["doublets-decorators/src/unique_resolver.rs"]}
{"id": "C38", "title": "UsagesValidator forbids deleting used links", "statement": "Through the UsagesValidator decorator delete of a link used by another link fails with HasUsages and changes nothing; otherwise it deletes; no dangling reference is ever created by deletion.", "quantifier": "every inner store obeying the store contract", "why_tests_cant": "all states", "anchors": ["doublets-decorators/src/usages_validator.rs"]}
{"id": "C39", "title": "NonNullDeletionResolver nulls a link before deletion", "statement": "Through NonNullDeletionResolver a successful delete removes exactly that link, with the inner store seeing an update to (0,0) first.", "quantifier": "every inner store obeying the store contract", "why_tests_cant": "all states", "anchors": ["doublets-decorators/src/non_null_deletion_resolver.rs"]}
{"id": "C40", "title": "CascadeUsagesResolver leaves no dangling references", "statement": "Through CascadeUsagesResolver a successful delete(i) also deletes the links using i (transitively), and afterwards no link refers to i.", "quantifier": "every inner store obeying the store contract, including cyclic usage graphs", "why_tests_cant": "recursion over arbitrary usage graphs", "anchors": ["doublets-decorators/src/cascade_usages_resolver.rs"]}
{"id": "C41", "title": "CascadeUniqueResolver redirects usages", "statement": "Through CascadeUniqueResolver an update of i to a pair held by j redirects usages of i to j and deletes i.", "quantifier": "every inner store obeying the store contract", "why_tests_cant": "all states", "anchors": ["doublets-decorators/src/cascade_unique_resolver.rs"]}
{"id": "C42", "title": "delete_query_with deletes exactly the matches", "statement": "delete_query_with(q,h) on the unit store, for queries that visit no link twice, succeeds and removes exactly the links matching q before the call; h is told every deleted link once.", "quantifier": "every reachable store, query and handler", "why_tests_cant": "all states", "anchors": ["doublets/src/data/traits.rs: delete_query_with"]}
{"id": "C43", "title": "exist", "statement": "exist(i) holds iff i is external or get_link(i) is Some.", "quantifier": "every reachable store and index and constants", "why_tests_cant": "all states", "anchors": ["doublets/src/data/traits.rs: exist"]}
{"id": "C44", "title": "Interrupted update is recoverable", "statement": "If the process stops between two memory writes of an update and the memory is reopened, count() still equals the number of links each visits.", "quantifier": "every state, every update, every intermediate point between tree operations", "why_tests_cant": "crash points cannot be enumerated by tests", "anchors": ["doublets/src/mem/unit/store.rs: update_links, is_unused"]}
{"id": "C45", "title": "A failed allocation leaves the store unchanged", "statement": "If growing memory fails inside create, create returns AllocFailed and the store (links, index policy, memory view) is as before and remains usable.", "quantifier": "every state and every allocation failure", "why_tests_cant": "needs fault injection at each growth", "anchors": ["doublets/src/mem/unit/store.rs: create_links", "doublets/src/mem/split/store.rs: create_links"]}
{"id": "C46", "title": "Link predicates and slices", "statement": "from_slice/as_slice round trip for three elements; is_null iff all parts are null; is_full iff index=source=target; is_partial iff index equals source or target; from_slice with fewer elements panics and with more is defined.", "quantifier": "every link and slice", "why_tests_cant": "all values; slices longer than 3 hit unreachable_unchecked", "anchors": ["doublets/src/data/link.rs"]}
{"id": "C47", "title": "Modifying calls return the documented index", "statement": "update returns the updated index, create the created one; rebase_and_delete(old,new) returns new; delete returns the deleted index.", "quantifier": "every state", "why_tests_cant": "return values of delete paths are not asserted", "anchors": ["doublets/src/data/traits.rs: delete_by, update_by, rebase_and_delete"]}
{"id": "C48", "title": "Null components in queries", "statement": "each_by([any,0,any]) and each_by([any,any,0]) visit the links whose source (target) is null.", "quantifier": "every reachable state", "why_tests_cant": "null-sided links are in no tree", "anchors": ["doublets/src/mem/unit/store.rs: each_core, update_links"]}
{"id": "C49", "title": "FFI handles are usable", "statement": "The handle returned by a successful New/NewWithConstants can be passed to every other exported function, which then works on the store that was opened.", "quantifier": "every heap, every opened store, every exported function", "why_tests_cant": "undefined behaviour: a thin pointer to the store is reinterpreted as a Box<dyn Doublets>; a test may crash or appear to work", "anchors": ["doublets-ffi/src/lib.rs: new_with_constants_united_links, unnull_or_error, WrappedLinks"]}
{"id": "C50", "title": "rebase_and_delete merges a link into another", "statement": "rebase_and_delete(old,new) for an existing old different from new removes old, replaces old by new at both ends of every other link and changes nothing else, so no link refers to old afterwards; with old = new nothing changes; with a missing old it fails with NotExists and changes nothing.", "quantifier": "every reachable unit store, every old and new", "why_tests_cant": "The tests merge one pair of links with a single usage; links with old at both ends or links that become duplicates are not tried.", "anchors": ["doublets/src/data/traits.rs:541-551"]}
{"id": "C51", "title": "Split store: each_by visits exactly the matching links", "statement": "On the two-memory store each_by(q) with at most three parts visits every link matching q once and no other link (an exact pair visits one of its matches; [any, v] visits the links with source v and then those with target v).", "quantifier": "All reachable states of split::Store under the discipline of C25, all queries of length at most 3, all handlers", "why_tests_cant": "Visits go through four trees whose choice depends on whether the ends are links at the moment of the query; every combination of states and queries cannot be enumerated.", "anchors": ["doublets/src/mem/split/store.rs:352-485"]}
{"id": "C52", "title": "Split store: search is exact", "statement": "On the two-memory store search(s,t) returns a link with source s and target t if there is one, and nothing otherwise.", "quantifier": "All reachable states of split::Store under the discipline of C25, all s and t other than the any value", "why_tests_cant": "Which of four trees is walked depends on whether the ends are links and whether a deleted index exists; tests search only for pairs of existing links.", "anchors": ["doublets/src/data/traits.rs:392-406", "doublets/src/mem/split/store.rs:315-325", "doublets/src/mem/split/store.rs:352-485"]}
{"id": "C53", "title": "Split store: create_link, create_point and get_or_create add exactly one link", "statement": "On the two-memory store create_link(s,t) adds one link with these ends, create_point adds one link to itself and get_or_create(s,t) returns the existing link with this pair or adds one; every other link stays as it was and can still be found; if the range is full or memory cannot grow an error is returned and no link changes.", "quantifier": "All reachable states of split::Store under the discipline of C25, all s and t", "why_tests_cant": "The index that is reused may still be referred to by other links; tests do not combine reuse with dangling references.", "anchors": ["doublets/src/data/traits.rs:336-371", "doublets/src/data/traits.rs:425-434"]}
{"id": "C54", "title": "Split store: usages are reported and deleted exactly", "statement": "On the two-memory store usages(i), count_usages(i) and has_usages(i) report every link other than i that has i as source or target, once per end, and fail with NotExists for a missing i; delete_usages(i) deletes exactly these links and tells the handler each of them once.", "quantifier": "All reachable states of split::Store under the discipline of C25, every i whose usages share no pair with another link", "why_tests_cant": "The usages come from two trees that change while links are deleted; tests have at most one usage per end.", "anchors": ["doublets/src/data/traits.rs:297-334", "doublets/src/data/traits.rs:436-478", "doublets/src/data/traits.rs:492-498"]}
{"id": "C55", "title": "Split store: find, found, single, each_iter, iter and exist agree with the visits", "statement": "On the two-memory store each_by stops when the handler breaks, find returns the first visited link, found tells whether there is one, single returns a link exactly if it is the only one, each_iter and iter list the visited links, and exist(i) holds exactly for external references and links.", "quantifier": "All reachable states of split::Store under the discipline of C25, all queries that mention neither the null reference nor, for counts, an end that C27 excludes", "why_tests_cant": "found and iter combine a count with a visit, which take different routes through the trees; the combinations of states and queries cannot be enumerated.", "anchors": ["doublets/src/data/traits.rs:105-133", "doublets/src/data/traits.rs:373-423", "doublets/src/data/traits.rs:480-490", "doublets/src/data/traits.rs:652-690"]}
{"id": "C56", "title": "Split store: everything can be deleted", "statement": "On the two-memory store deleting all links one by one in any order leaves an empty store that gives out indices from 1 again; delete_all does this in one call; delete_query deletes exactly the links matching the query.", "quantifier": "All reachable states of split::Store under the discipline of C25 with distinct pairs, every order, every query C55 covers", "why_tests_cant": "All orders of deletion and all states cannot be enumerated; tests delete one small store in one order.", "anchors": ["doublets/src/data/traits.rs:258-295"]}
{"id": "C57", "title": "Split store: rebase redirects every usage", "statement": "On the two-memory store rebase(old,new) for an existing old replaces old by new at both ends of every other link and changes nothing else, and the redirected links can be found by their new ends; rebase_and_delete also removes old.", "quantifier": "All reachable states of split::Store under the discipline of C25 with distinct pairs, every old and new", "why_tests_cant": "Redirecting a link can make it refer to itself or give it the pair of another link; tests rebase one link with one usage.", "anchors": ["doublets/src/data/traits.rs:500-551"]}
{"id": "C58", "title": "The randomized test cannot fail", "statement": "Started on an empty store, the repository's randomized test (cycles of create and get_or_create of random existing ends, each followed by delete_all) never fails an assertion, panics or reads undefined memory: it ends with an empty store, unless a creation finds no memory or no index left.", "quantifier": "Both stores, every empty state of every history, every number of cycles and of steps per cycle, every outcome of the random choices", "why_tests_cant": "The test runs one random history per execution out of infinitely many.", "anchors": ["doublets/tests/extensions.rs:114-148", "doublets/tests/multi.rs:9-31"]}
{"id": "C59", "title": "Memory is reused before it grows", "statement": "Only a successful create makes the memory of a store larger, by exactly one growth step, and only if there is no deleted index to reuse and at most one cell is left unused; so the memory never exceeds the largest number of links there ever were at one time by more than one step and the header (or stays within a step of the larger of page and step), however many links were created and deleted.", "quantifier": "Both stores, every history of creations, updates, deletions and reopenings under the discipline of C01 and C25, every handler", "why_tests_cant": "No finite run shows that memory does not leak over arbitrarily long histories, and the tests never look at the size of the memory.", "anchors": ["doublets/src/mem/unit/store.rs:429-463", "doublets/src/mem/unit/store.rs:522-555", "doublets/src/mem/split/store.rs:691-734", "doublets/src/mem/split/store.rs:812-849"]}
{"id": "C60", "title": "Interrupted create and delete", "statement": "If the process dies inside create or delete of the single-memory store, the store opened from the memory left behind shows either exactly the links before the call or exactly the links after it, and count and each agree.", "quantifier": "All reachable states of unit::Store below the growth step, every link, every point between two writes of the store to its memory", "why_tests_cant": "Tests never stop a call half way, and the number of points grows with the number of deleted links below the top.", "anchors": ["doublets/src/mem/unit/store.rs:429-463", "doublets/src/mem/unit/store.rs:522-555"]}
{"id": "C61", "title": "Generated C functions match the generic ones", "statement": "specialize_for adds one exported function per listed type: it calls the generic function at that type with its own parameters in order, its parameter and result types are those of the generic function with the type parameter replaced, and the exported names are pairwise different; items it cannot treat this way are rejected when the crate is built.", "quantifier": "Every function item, every list of types and every name pattern; and the eleven annotated functions of the C interface", "why_tests_cant": "The macro runs at build time on whatever items it is given; a wrong signature links without error and corrupts the caller's stack.", "anchors": ["doublets-ffi/ffi-attributes/src/lib.rs:15-189", "doublets-ffi/src/lib.rs:147-383"]}
{"id": "C62", "title": "Configured decorators: value and type agree", "statement": "For the same environment variable, env_value builds an expression whose type is the one env_type writes, with the first name as the outermost decorator; without the variable both leave their argument alone.", "quantifier": "Every value of the variable, every type pattern, expression and default type", "why_tests_cant": "The number and order of names is free, and no test sets the variable.", "anchors": ["doublets-ffi/env-decorators/src/lib.rs:22-78"]}
{"id": "C63", "title": "Header and links share the memory without interfering", "statement": "The header takes exactly the words of slot 0, every link exactly the words of its own slot, and reading or writing a field of the header or of a link reads or changes the word at the offset of that field and no other word, in the single memory and in both memories of the split store.", "quantifier": "Every state, every link address, every value written", "why_tests_cant": "Tests see the values through the same accessors that wrote them; a field at a shared or shifted offset would only show for particular values and neighbours.", "anchors": ["doublets/src/mem/header.rs:3-15", "doublets/src/mem/unit/raw_link.rs:3-14", "doublets/src/mem/split/data_part.rs:3-8", "doublets/src/mem/split/index_part.rs:3-15", "doublets/src/mem/unit/store.rs:113-129", "doublets/src/mem/split/store.rs:133-149"]}
{"id": "C64", "title": "The usages of a source as a linked list", "statement": "In the list variant of the sources index, after any sequence of attaching unattached links, detaching attached ones, data writes and growth, each_usages(s) visits exactly the links attached under s, each once, from the last attached to the first, ends, and stops when the handler breaks; count_usages(s) is their number; get_first and get_last are the ends of the list although set_last does nothing; lists of other sources are not touched. For any memory the walk ends after at most as many rounds as there are cells or not at all.", "quantifier": "Every history of the list operations, every source, every handler; for the last sentence every memory and every handler that does not break", "why_tests_cant": "The list is switched off by a constant, so no test of the store runs it; a ring that misses its first member only appears for particular orders of attach and detach.", "anchors": ["doublets/src/mem/split/generic/internal_sources_linked_list.rs:16-21", "doublets/src/mem/split/generic/internal_sources_linked_list.rs:66-85", "doublets/src/mem/split/generic/internal_sources_linked_list.rs:88-144", "doublets/src/mem/split/store.rs:59"]}
{"id": "C65", "title": "Printed links, pairs and errors are unambiguous", "statement": "Two links with the same Debug text are equal, two pairs with the same Display text are equal, and two errors with the same message are the same error with the same contents: the address, the list of links, the pair, the limit, or the text of the wrapped error.", "quantifier": "Every two links, pairs, errors, of any addresses and any number of links in the list", "why_tests_cant": "Two different values with one text would need particular digits on both sides of a separator; tests print a handful of values.", "anchors": ["doublets/src/data/link.rs:79-83", "doublets/src/data/doublet.rs:17-21", "doublets/src/data/error.rs:5-24"]}
{"id": "C66", "title": "Handlers watch", "statement": "What a handler of a modifying call answers, or keeps to itself, changes neither the store nor the outcome nor the calls the handler gets: for each call there is one script (final store, list of link pairs told, success or error, or a panic) that every handler sees. This holds for create, update, delete and every provided method with a handler, on both stores and under any stack of decorators; through the C interface too.", "quantifier": "Every store state (reachable or not), every query and change, every handler and its state, every stack of decorators", "why_tests_cant": "Tests pass one or two handlers; a handler that breaks early, or with a large state, might skip part of the work in one of the nested calls of a decorator.", "anchors": ["doublets/src/data/traits.rs:52-250", "doublets/src/data/traits.rs:271-530", "doublets/src/data/handler.rs:1-95", "doublets/src/mem/unit/store.rs:429-580", "doublets/src/mem/split/store.rs:691-896", "doublets-decorators/src/lib.rs:1-20"]}
{"id": "C67", "title": "Undone calls leave no trace", "statement": "After a creation and the deletion of the created link, after an update and the update back, after the deletion of a link that is not the last one and its creation with the same pair, and after closing and opening again, a store answers every later sequence of calls (create, update, delete, get_link, count, each) as it would have done without them, up to the order of the visits and up to a failed allocation. Updates of two links can be swapped. The implementations of the trees and lists do not show in the answers, and a new split store and a new unit store answer alike.", "quantifier": "Every reachable store, every later sequence of calls within the discipline of the store, every implementation of trees and lists that meets the contract", "why_tests_cant": "The internal trees and lists differ after the detour; a later answer that depends on their shape shows only for particular continuations of any length.", "anchors": ["doublets/src/mem/unit/store.rs:429-580", "doublets/src/mem/split/store.rs:691-896", "doublets/src/data/traits.rs:271-530"]}
{"id": "C68", "title": "Order of the visits", "statement": "A store with two memories visits the links from a link v (query [any, v, any], and first in [any, v]) by ascending target, so find returns one with the lowest target; where no two of them have the same target their order is decided by the links alone, not by earlier calls or by the trees used. Queries for everything visit by ascending index in both stores. For the other searches the same links may be visited in another order: the links to a target in either store, the links from a source in the store with one memory, and the links from a source that is not a link.", "quantifier": "Every reachable store, every link v, every handler, every implementation of trees and lists that meets the contract", "why_tests_cant": "A test sees the order left by the calls it made; that no sequence of calls leaves another one is a statement about all histories.", "anchors": ["doublets/src/mem/split/store.rs:398-483", "doublets/src/mem/split/generic/internal_sources_recursion_less_tree.rs:95-124", "doublets/src/mem/unit/store.rs:300-428"]}
{"id": "C69", "title": "Interrupted update of the split store", "statement": "If the process dies inside an update of the store with two memories, the store opened from the memories left behind still has the link, with its old, its new or a mix of both ends, all other links are as before, and count equals the number of links each visits.", "quantifier": "All reachable states of split::Store, every link, every pair of new ends, every point between two tree operations or field writes of the update", "why_tests_cant": "Tests never stop a call half way, and whether a link is seen after reopening depends on the trees left by all earlier calls.", "anchors": ["doublets/src/mem/split/store.rs:740-811", "doublets/src/mem/split/store.rs:315-342"]}
{"id": "C70", "title": "Interrupted create and delete of the split store", "statement": "If the process dies inside create or delete of the store with two memories, the store opened from the memories left behind shows either exactly the links before the call or exactly the links after it, and count and each agree.", "quantifier": "All reachable states of split::Store, every link, every point between two tree, list or field writes, including those of the loop that moves the users of a deleted link", "why_tests_cant": "Tests never stop a call half way, and the number of points grows with the number of users and of deleted links below the top.", "anchors": ["doublets/src/mem/split/store.rs:691-738", "doublets/src/mem/split/store.rs:812-870"]}
{"id": "C71", "title": "Unique decorators over the split store", "statement": "Over the store with two memories, UniqueValidator refuses exactly the updates to a pair held by a link and passes the others on; UniqueResolver deletes the updated link if another one holds the pair and leaves that one as it is; both keep pairs distinct through any sequence of operations.", "quantifier": "All reachable states of split::Store, all links and pairs, all sequences of operations through the decorators, all handlers", "why_tests_cant": "The decorator tests use the store with one memory and a few links; which answers the lookup gives depends on the trees, holes and outer references left by all earlier calls.", "anchors": ["doublets-decorators/src/unique_validator.rs:50-70", "doublets-decorators/src/unique_resolver.rs:50-75", "doublets/src/mem/split/store.rs:551-660"]}
{"id": "C72", "title": "Deleting decorators over the split store", "statement": "Over the store with two memories, UsagesValidator refuses to delete or update used links and lists their users; NonNullDeletionResolver deletes exactly the link; CascadeUsagesResolver deletes the link with everything that uses it; CascadeUniqueResolver redirects the usages of a merged link; afterwards every remaining link can be found.", "quantifier": "All reachable states of split::Store, all links, all handlers", "why_tests_cant": "Whether a link is found after a cascade depends on the order in which the trees of all referred links are changed; tests check a few links of the other store.", "anchors": ["doublets-decorators/src/usages_validator.rs:50-94", "doublets-decorators/src/non_null_deletion_resolver.rs:60-78", "doublets-decorators/src/cascade_usages_resolver.rs:60-76", "doublets-decorators/src/cascade_unique_resolver.rs:50-88"]}
{"id": "C73", "title": "Default methods on a decorated store", "statement": "create_link, create_point, get_or_create and update called on a decorated store return the link that holds the pair afterwards and change no other link; a refused call changes nothing.", "quantifier": "All stores that obey the store contract, all reachable states, all pairs, the decorators UniqueResolver, UniqueValidator and UsagesValidator", "why_tests_cant": "The decorator tests call update and delete directly; the methods built on them run several calls whose refusals leave intermediate states.", "anchors": ["doublets/src/data/traits.rs:336-371", "doublets/src/data/traits.rs:425-434", "doublets-decorators/src/unique_resolver.rs:50-75", "doublets-decorators/src/unique_validator.rs:50-70", "doublets-decorators/src/usages_validator.rs:50-94"]}
{"id": "C74", "title": "Decorators on top of decorators", "statement": "A stack of UsagesValidator with UniqueValidator or UniqueResolver, in either order, keeps pairs distinct and leaves no reference to a missing link, and a refused call changes nothing.", "quantifier": "All stores that obey the store contract, all sequences of calls through the stack, all handlers", "why_tests_cant": "No test stacks decorators; what an outer decorator leaves behind when an inner one refuses depends on the usages of all links.", "anchors": ["doublets-decorators/src/usages_validator.rs:50-94", "doublets-decorators/src/unique_validator.rs:50-70", "doublets-decorators/src/unique_resolver.rs:50-75", "doublets-decorators/src/non_null_deletion_resolver.rs:60-78", "doublets-ffi/env-decorators/src/lib.rs:22-37"]}
{"id": "C75", "title": "Tree algorithms reach one tree only", "statement": "Whatever an algorithm does through the methods of one of the six tree types and the pointers they hand out, with links as nodes, it does to the memory what it does to the bare tree of left, right, size fields and root: same results, same panics out of bounds, and every field outside that tree stays. Writing through a pointer is writing with the setter, clear_node clears the three fields, and the comparisons are a strict total order of the keys in which links with equal sources (targets) are neighbours.", "quantifier": "All states of both stores, all programs over the methods, all nodes and values", "why_tests_cant": "A wrong field in one accessor corrupts another tree or the header only when the balancing reaches that accessor, and the corruption shows in later searches for other links.", "anchors": ["doublets/src/mem/unit/generic/sources_recursionless_size_balanced_tree.rs:32-101", "doublets/src/mem/unit/generic/sources_recursionless_size_balanced_tree.rs:202-250", "doublets/src/mem/unit/generic/targets_recursionless_size_balanced_tree.rs:32-101", "doublets/src/mem/unit/generic/targets_recursionless_size_balanced_tree.rs:202-250", "doublets/src/mem/split/generic/internal_sources_recursion_less_tree.rs:36-91", "doublets/src/mem/split/generic/internal_sources_recursion_less_tree.rs:143-173", "doublets/src/mem/split/generic/internal_targets_recursion_less_tree.rs:36-91", "doublets/src/mem/split/generic/internal_targets_recursion_less_tree.rs:150-180", "doublets/src/mem/split/generic/external_sources_recursion_less_tree.rs:38-107", "doublets/src/mem/split/generic/external_sources_recursion_less_tree.rs:211-267", "doublets/src/mem/split/generic/external_targets_recursion_less_tree.rs:36-105", "doublets/src/mem/split/generic/external_targets_recursion_less_tree.rs:209-265", "doublets/src/mem/unit/store.rs:145-187", "doublets/src/mem/split/store.rs:174-257"]}
{"id": "C76", "title": "The free list reaches its own fields only", "statement": "Whatever an algorithm does through the methods of the list of free links, with links as elements, it does to the memory what it does to a bare list of first, last, size and the pairs of the elements; all tree fields, the roots and, in the split store, everything else in the index memory stay.", "quantifier": "All states of both stores, all programs over the methods, all elements and values", "why_tests_cant": "The list shares its words with the sources and targets of links and with the header; a wrong word only shows for particular orders of deletion and creation.", "anchors": ["doublets/src/mem/unit/generic/unused_links.rs:19-78", "doublets/src/mem/split/generic/unused_links.rs:21-80"]}
{"id": "C77", "title": "A stop inside a tree operation of an update hurts no other link", "statement": "If the process stops while an update of the single-memory store is inside one of its four tree operations, after any number of accesses of the balancing algorithm, then in the reopened store every link other than the updated one is as before and the updated link is there with the fields it has at that moment.", "quantifier": "All reachable stores, all links and new ends, all four tree operations, all algorithms over the methods of the trees that end and keep the sizes of other nodes zero or non-zero, and every number of accesses", "why_tests_cant": "The process would have to be killed between two particular memory writes of an external crate; there are as many points as accesses and as many algorithms as implementations.", "anchors": ["doublets/src/mem/unit/store.rs:483-514", "doublets/src/mem/unit/store.rs:205-244", "doublets/src/mem/unit/generic/sources_recursionless_size_balanced_tree.rs:32-101", "doublets/src/mem/unit/generic/targets_recursionless_size_balanced_tree.rs:32-101"]}
{"id": "C78", "title": "Stopping inside a tree operation shows what stopping before or after it shows", "statement": "If the process stops while either store is inside a tree operation that enters or takes out a link, after any number of accesses of the balancing algorithm, then the reopened store reads, counts and visits the same links as one reopened from the memory just before the operation or from the memory just after it.", "quantifier": "All states of both stores, all trees of both (per link and whole), all links entered or taken out, all algorithms over the methods of the trees that keep the sizes of other nodes zero or non-zero, and every number of accesses", "why_tests_cant": "The process would have to be killed between two particular memory writes of an external crate; there are as many points as accesses and as many algorithms as implementations.", "anchors": ["doublets/src/mem/unit/store.rs:190-244", "doublets/src/mem/unit/store.rs:483-514", "doublets/src/mem/split/store.rs:315-342", "doublets/src/mem/split/store.rs:740-810", "doublets/src/mem/split/generic/internal_sources_recursion_less_tree.rs:30-110", "doublets/src/mem/split/generic/external_targets_recursion_less_tree.rs:30-110"]}
{"id": "C79", "title": "Stopping inside an operation of the free list leaves nothing that was not there", "statement": "If the process stops while either store takes a link off its free list (create reusing a link, delete giving back the end of the memory) or puts one on it (delete), after any number of accesses of the list's algorithm, then the reopened store shows every link other than the one being created or deleted as before, shows that one as it was or as it becomes, and count and each agree.", "quantifier": "All states of both stores, all three calls of the free list made by create and delete, all algorithms over the methods of the list that keep it in order, and every number of accesses", "why_tests_cant": "The process would have to be killed between two particular memory writes of an external crate, in every state of the list.", "anchors": ["doublets/src/mem/unit/store.rs:429-463", "doublets/src/mem/unit/store.rs:522-555", "doublets/src/mem/unit/generic/unused_links.rs:36-78", "doublets/src/mem/split/store.rs:691-734", "doublets/src/mem/split/store.rs:812-849", "doublets/src/mem/split/generic/unused_links.rs:38-80"]}
{"id": "C80", "title": "Counting the usages of a link never overflows", "statement": "For every existing link v, count([any, v]), count_usages(v), has_usages(v) and usages(v) give the exact numbers and lists, whatever the size of the address type.", "quantifier": "All histories of both stores, all links, all sizes of the address type and all internal ranges inside it", "why_tests_cant": "With the address types of the tests the sum only overflows after billions of links.", "anchors": ["doublets/src/mem/unit/store.rs:350-357", "doublets/src/mem/split/store.rs:570-586", "doublets/src/data/traits.rs:436-498"]}
{"id": "C81", "title": "delete_query([any, v]) deletes the links at v", "statement": "delete_query_with given the query [any, v] deletes every link that has v as its source or its target and no other, tells the handler of each of them once, and succeeds.", "quantifier": "All histories of both stores, all values v, all handlers", "why_tests_cant": "The two halves of the query visit a link from v to v twice, and the repository's test of delete_query asks by source only; whether any link survives the failure depends on the order the trees give.", "anchors": ["doublets/src/data/traits.rs:271-295", "doublets/src/mem/unit/store.rs:350-357", "doublets/src/mem/split/store.rs:570-586"]}
{"id": "C82", "title": "A store reopened from interrupted calls keeps its promises", "statement": "After any number of updates, creations and deletions interrupted between two of their writes, each followed by opening the memory again, with any calls in between: the links shown can be read, updated and deleted with the usual effect and no effect on the others, creation takes an index in use by nothing, and queries and searches agree with the links shown; a link lost to an interruption stays lost.", "quantifier": "All lives of a single-memory store: histories, interruptions at any point of any update, creation or deletion, reopenings, further calls, all handlers and constants", "why_tests_cant": "No test stops a process between two writes; the number of interruptions and what is done after them is unbounded, and the damage shows only in later calls on other links.", "anchors": ["doublets/src/mem/unit/store.rs:469-555", "doublets/src/mem/unit/store.rs:96-134", "doublets/src/mem/unit/store.rs:429-463", "doublets/src/mem/unit/generic/unused_links.rs:18-60"]}
{"id": "C83", "title": "A two-memory store keeps its promises when links refer to indices given out later and to themselves", "statement": "A two-memory store whose links may refer to any index, including ones not in use yet and their own, keeps its promises through any calls and reopenings: the links can be read, updated and deleted with the usual effect and no effect on the others, creation works, and queries and searches find exactly the links that match.", "quantifier": "All lives of a two-memory store: any histories of creations, updates to any ends, deletions and reopenings, all handlers and constants", "why_tests_cant": "Which links become unfindable depends on the whole history of indices given out; the damage shows only in later queries, updates or deletions, and there are unboundedly many histories.", "anchors": ["doublets/src/mem/split/store.rs:487-533", "doublets/src/mem/split/store.rs:691-734", "doublets/src/mem/split/store.rs:740-849", "doublets/src/mem/split/store.rs:536-690"]}
{"id": "C84", "title": "Sequences written into a store are read back", "statement": "write_seq of the project's tests, called any number of times on a store in use, returns the root of each sequence or reports that there is no room; it changes no link that was there before; and read_seq of each root gives back exactly the sequence written.", "quantifier": "All one- and two-memory stores in use, all lists of sequences of any values and lengths, all constants", "why_tests_cant": "The test writes one text a hundred times into an empty store and never compares what it reads; which links are found while reading depends on every index given out before and since, and on links that referred to those indices earlier.", "anchors": ["doublets/tests/seq.rs:12-26", "doublets/tests/seq.rs:28-45", "doublets/tests/seq.rs:47-57", "doublets/tests/seq.rs:91-110"]}
{"id": "C85", "title": "Default methods of a split store used freely", "statement": "On a two-memory store in which links may refer to indices that are given out later and to themselves, create_link and create_point give a new link with the pair and change no other; get_or_create makes a new link only if none has the pair; usages, count_usages and has_usages tell of exactly the links that refer to the given one; delete_usages and delete_query delete exactly the links that refer to the given one, or answer the query, and tell the handler of each once; rebase changes exactly the links that refer to the old one, tells the handler of each once, and rebase_and_delete then deletes the old one.", "quantifier": "All states of split::Store reached by free use (C83), all pairs and indices, all failures of memory", "why_tests_cant": "Whether a link is found or counted depends on whether its ends were links when it was last filed, so on the order of all earlier calls; the tests use fresh stores whose links refer to links that exist.", "anchors": ["doublets/src/data/traits.rs:271-334", "doublets/src/data/traits.rs:336-371", "doublets/src/data/traits.rs:425-434", "doublets/src/data/traits.rs:436-498", "doublets/src/data/traits.rs:500-551", "doublets/src/mem/split/store.rs:740-810"]}
{"id": "C86", "title": "Using a split store after interruptions", "statement": "A two-memory store whose updates, creations and deletions were interrupted any number of times, with the memories opened again each time, goes on working: every link can be read, found, changed and deleted as in a store that was never interrupted, and nothing that was stored is lost or shown differently.", "quantifier": "All sequences of creations, updates, deletions, reopenings and interruptions at every point of the three operations; all states reached, all indices, pairs and queries; all memories, trees and lists within their contracts", "why_tests_cant": "The states come from a process that dies between two writes; no test of the project stops one, and what a stopped write does to later calls depends on which trees every link is in.", "anchors": ["doublets/src/mem/split/store.rs:283-336", "doublets/src/mem/split/store.rs:487-549", "doublets/src/mem/split/store.rs:551-689", "doublets/src/mem/split/store.rs:691-738", "doublets/src/mem/split/store.rs:740-810", "doublets/src/mem/split/store.rs:812-849"]}
{"id": "C87", "title": "Default methods after interruptions", "statement": "On a store of either kind whose updates, creations and deletions were interrupted any number of times, with the memories opened again each time, the default methods of the traits go on working: create_link and create_point make a new link and change no other, get_or_create gives the link with the pair or makes it, usages, count_usages and has_usages answer for the links that refer to a link, and delete_usages deletes those.", "quantifier": "All sequences of creations, updates, deletions, reopenings and interruptions that the two models of use after interruptions allow (C82, C86); all states reached, all indices and pairs, all handlers; all memories, trees and lists within their contracts", "why_tests_cant": "The states come from a process that dies between two writes, which no test of the project does; the default methods combine several queries that see different parts of such a state.", "anchors": ["doublets/src/data/traits.rs:297-371", "doublets/src/data/traits.rs:392-434", "doublets/src/data/traits.rs:436-498", "doublets/src/mem/unit/store.rs:231-427", "doublets/src/mem/split/store.rs:487-689"]}
{"id": "C88", "title": "Handlers that panic", "statement": "A handler given to a modifying method may panic and the panic be caught by the caller. Whatever decorators are put over a store of either kind, create, update and delete, their variants with queries, create_link_with, delete_query_with, delete_usages_with and rebase_with are sequences of whole calls of the store, and the handler is told of each after it; so when it panics the store is as the last of those calls left it, nothing of a call is half done, and what every call keeps is kept. delete_usages_with and delete_query_with then have deleted exactly the links the handler was told of, create_link_with has made the link, empty or whole. With handlers that return, the methods are those of the other claims.", "quantifier": "All states of both stores, all stacks of the six decorators, all arguments, all handlers with any state that may return or panic at any call; for what is deleted or made: all histories of the earlier claims, all memories, trees and lists within their contracts", "why_tests_cant": "No test of the project has a handler that panics; the property ranges over every point at which one may, in methods that call it any number of times.", "anchors": ["doublets/src/mem/unit/store.rs:429-555", "doublets/src/mem/split/store.rs:691-849", "doublets/src/data/traits.rs:52-75", "doublets/src/data/traits.rs:135-222", "doublets/src/data/traits.rs:271-359", "doublets/src/data/traits.rs:500-531", "doublets/src/data/handler.rs:77-93", "doublets-decorators/src/cascade_usages_resolver.rs", "doublets-decorators/src/cascade_unique_resolver.rs", "doublets-decorators/src/unique_resolver.rs", "doublets-decorators/src/non_null_deletion_resolver.rs", "doublets-decorators/src/usages_validator.rs", "doublets-decorators/src/unique_validator.rs"]}
{"id": "C89", "title": "The version bump changes the version and nothing else", "statement": "bump-version.mjs finds the version the manifest gives: the text in quotes of the first line that assigns one to version. If it is three numbers with dots, the script writes the next version of the kind asked for (major, minor, patch), which is later in the order of versions; every other character of the file stays as it is, and the version is then found in the same place. With another argument, or a manifest without such a version, nothing is changed and the script fails; nor is anything changed when the script only shows what it would do.", "quantifier": "All texts as manifests with all spacing and line ends, all numbers below 2^53, all arguments, dry runs or not", "why_tests_cant": "The scripts have no tests, and the property ranges over every text around the version and every number in it.", "anchors": ["scripts/bump-version.mjs:40-119", "scripts/version-and-commit.mjs:71-120", "scripts/collect-changelog.mjs:29-39"]}
{"id": "C90", "title": "The fragments decide the kind of the next version", "statement": "get-bump-type.mjs tells the highest of the kinds the changelog fragments declare (patch, minor, major), and the default if none does. A fragment is an entry of changelog.d whose name ends in .md and is not README.md; it declares what the last line bump: ... of its front matter says. The order in which the directory lists its entries does not matter, their number is told in decimal, and an entry that cannot be read makes the script fail without telling anything.", "quantifier": "All directories with any number of entries in any order and any texts, with front matter written with any spacing, all defaults", "why_tests_cant": "The scripts have no tests, and the property ranges over all directories and all texts in them.", "anchors": ["scripts/get-bump-type.mjs:34-152"]}
{"id": "C91", "title": "Collecting the fragments", "statement": "collect-changelog.mjs puts one section into the changelog, headed by the version of the manifest and the date, with the texts of all fragments without their front matter and surrounding space, in the order of their names. It goes behind the mark if there is one, otherwise before the first heading of a version, otherwise at the end, or into a new changelog; all that was there before stays, in order. Then exactly the fragments are removed. If the version is missing or a fragment cannot be read, nothing is changed and the script fails; if there is nothing to collect, nothing is changed.", "quantifier": "All manifests with a version, all changelogs or none, all directories with any number of entries in any order and any texts, all dates", "why_tests_cant": "The scripts have no tests, and the property ranges over all texts of changelogs and fragments.", "anchors": ["scripts/collect-changelog.mjs:17-170"]}
{"id": "C92", "title": "The notes of a release", "statement": "create-github-release.mjs takes as the notes of a version the text under its heading in the changelog, up to the next heading of a version or the end, without surrounding space; if the changelog has no such heading, or there is none, the notes are the words Release and the version. So the notes of a version whose fragments have been collected are the texts of these fragments.", "quantifier": "All changelogs, versions and dates; for collected fragments all manifests, directories and texts of C91", "why_tests_cant": "The scripts have no tests, and the property ranges over all texts.", "anchors": ["scripts/create-github-release.mjs:53-81", "scripts/collect-changelog.mjs:58-130"]}
{"id": "C93", "title": "A release", "statement": "version-and-commit.mjs starts its git commands in a fixed order, each only after the ones before have answered as needed: the name and mail, the question for the tag of the next version, then add, diff, commit, tag, push and push of the tags. Files change only if the tag does not exist; then the manifest has the next version and nothing else changed in it, and the changelog has the section of that version in its place. version_committed=true is told exactly if all commands have been run and answered as needed; with an existing tag, nothing to commit, or a failure, what is told and the exit code say so. The notes of the version are then the texts of the fragments. Fragments are collected once, a failed release leaves nothing behind, and the changes of a release are in its notes.", "quantifier": "All answers of git depending on all commands before, all manifests, changelogs, directories, arguments, descriptions and dates", "why_tests_cant": "The scripts have no tests, and the property ranges over all answers of git at every point and all texts.", "anchors": ["scripts/version-and-commit.mjs:32-276", "changelog.d/README.md", "CONTRIBUTING.md", ".github/workflows/ci.yml:260-398"]}
{"id": "C94", "title": "The check of the sizes of files", "statement": "check-file-size.mjs succeeds exactly if every directory and every Rust file it reaches can be read and every such file has less than 1000 line feeds. It reaches everything whose path contains neither target, .git nor node_modules, at any depth. A file of 1000 lines passes, and every Rust file of the project is checked.", "quantifier": "All trees of directories of any depth with any names and texts, all working directories", "why_tests_cant": "The scripts have no tests, and the property ranges over all trees of files.", "anchors": ["scripts/check-file-size.mjs"]}
{"id": "C95", "title": "The job auto-release", "statement": "The job releases only what has been built, with a tag v and a version, and the notes the changelog has for that version. Without fragments it changes nothing, and releases the version of doublets/Cargo.toml unless its tag exists. With fragments it runs version-and-commit.mjs with the kind they ask for, releases only if that script came to its end, and leaves on the branch the next version in the manifest and its section in the changelog if it pushed, and what was there otherwise. A run that pushes a version releases that version.", "quantifier": "All manifests, changelogs, directories of fragments and texts of doublets/Cargo.toml, all answers of git, of the build and of GitHub, all sequences of runs", "why_tests_cant": "The workflow has no tests; it runs on GitHub only, and the property ranges over all texts and all answers of the commands.", "anchors": [".github/workflows/ci.yml:260-338", "scripts/get-bump-type.mjs", "scripts/version-and-commit.mjs", "scripts/create-github-release.mjs"]}
{"id": "C96", "title": "The job manual-release, and jobs one after another", "statement": "The job releases only what has been built, under the version version-and-commit.mjs tells, if that version was committed or its tag was there. Without fragments the branch then has the next version of the kind asked for and nothing else changed, and the release has its tag and the notes the changelog has. Over any sequence of both jobs the version of the manifest only goes up, nothing else of the manifest changes, and every release is of the version of doublets/Cargo.toml or of one later than the first. With a manifest without a version no job passes and nothing changes or is released once there is a fragment, as it is in this repository. The notes of a release tell the changes that were collected for it, and a change is told once.", "quantifier": "All manifests, changelogs, directories of fragments and texts of doublets/Cargo.toml, all kinds and descriptions, all answers of git, of the build and of GitHub, all sequences of runs of both jobs", "why_tests_cant": "The workflow has no tests, and the property ranges over all texts, all answers of the commands and sequences of runs of any length.", "anchors": [".github/workflows/ci.yml:341-398", ".github/workflows/ci.yml:260-338", "scripts/collect-changelog.mjs", "scripts/version-and-commit.mjs", "Cargo.toml"]}
{"id": "C97", "title": "Which jobs the workflow runs, and what must pass before a release", "statement": "A run of the workflow releases, tags, commits or pushes something only if formatting, clippy, the check of file sizes (so every Rust file it reaches has fewer than 1000 line ends), the tests and doc tests on all systems with all flags, and the build ended well, and the event is a push to main, for which it does what auto-release does, or a dispatch, for which it does what manual-release does; and it does that whenever they ended well. Pull requests and pushes to other branches change nothing. The job for all checks ends well exactly if lint, tests, build and coverage do. The check for fragments of a pull request fails only if git does, and warns exactly if a file of one of the three source directories is changed and there is no fragment. All checks must pass before a release; releases are made from main; a pull request that changes sources without a fragment of its own is warned.", "quantifier": "All events, all results of the steps, all file trees, file lists and branches, all sequences of release jobs", "why_tests_cant": "The workflow has no tests and runs on GitHub only; the property ranges over all combinations of results of the jobs and all contents of the repository.", "anchors": [".github/workflows/ci.yml:3-21", ".github/workflows/ci.yml:31-257", ".github/workflows/ci.yml:260-264", ".github/workflows/ci.yml:341-345", "scripts/check-file-size.mjs"]}
{"id": "C98", "title": "Decorators over stores used freely", "statement": "Over a two-memory store whose links may refer to any index, including ones not in use yet and their own, the decorators do what they are for: UniqueValidator refuses exactly the updates to a pair that a link has; UniqueResolver and CascadeUniqueResolver leave the link that has the pair, delete the one that was to get it and, the latter, turn its users to the first; UsagesValidator refuses exactly the updates and deletions of links with users; NonNullDeletionResolver empties a link, then deletes it; CascadeUsagesResolver deletes the users of a link with it. Nothing else is changed, and the handler is told of each change once.", "quantifier": "All lives of a two-memory store: any histories of creations, updates to any ends, deletions and reopenings, all links and pairs, all handlers and constants", "why_tests_cant": "The decorator tests use the store with one memory and a few links; which links the store finds depends on the whole history of indices given out.", "anchors": ["doublets-decorators/src/unique_validator.rs:50-70", "doublets-decorators/src/unique_resolver.rs:50-75", "doublets-decorators/src/usages_validator.rs:52-94", "doublets-decorators/src/non_null_deletion_resolver.rs:62-78", "doublets-decorators/src/cascade_usages_resolver.rs:62-76", "doublets-decorators/src/cascade_unique_resolver.rs:54-88"]}
{"id": "C99", "title": "What a cancelled run of the workflow leaves, and what later runs make of it", "statement": "A run that is cancelled anywhere has done the first of its git commands; the branch is as it was or as the whole run would leave it, with the next version in the manifest, and a tag it sent is of the version the branch then has. Over any sequence of runs, cancelled or not, and pushes of others that leave the manifest alone, the version in the manifest never goes back, and every tag made is of a version later than the first, as is every release that is not of a version doublets/Cargo.toml had. A version that was pushed is tagged, and one that was tagged is released, by its run or by a later one.", "quantifier": "All jobs, all answers of git, builds and GitHub, all points at which a run is cancelled, all sequences of runs and pushes of others", "why_tests_cant": "Cancellation (concurrency, cancel-in-progress) happens on GitHub at any moment between any two commands; the property ranges over all such moments and all later histories of the branch.", "anchors": [".github/workflows/ci.yml:23-25", ".github/workflows/ci.yml:313-338", ".github/workflows/ci.yml:380-398", "scripts/version-and-commit.mjs:211-274", "scripts/create-github-release.mjs:45-110"]}
{"id": "C100", "title": "The benchmark programs measure the links they say they do", "statement": "From an empty store, creating n points and deleting those a filter chooses never panics except by an unwrapped error of a creation that found no memory or no index left; afterwards iter, each and each into a vector all give exactly the points that were not deleted, by growing index, and the vector is given room for exactly that many. Any number of rounds of n created points leaves exactly the points 1 to rounds * n, or ends with such an error.", "quantifier": "All numbers of links and of rounds, all filters, both stores, all histories that leave the store empty, all configurations with room for a growth step", "why_tests_cant": "The benchmark fixes a million links, one filter and one store, checks nothing, and the number of rounds is up to the harness.", "anchors": ["doublets/benches/iter.rs:6-43", "doublets/benches/iter.rs:45-60"]}
{"id": "C101", "title": "Builds without overflow checks behave like those with them", "statement": "In a build where + and - on addresses wrap around instead of panicking, every call that returns in a checked build returns the same. The disciplined histories of both stores are the same in both builds. A count of the uses of a link is the number of uses reduced modulo the size of the address type, and usages lists them all. has_usages is true exactly of used links.", "quantifier": "All states (also broken ones) for single calls and trait methods; all disciplined histories, configurations, tree and list implementations meeting their contracts", "why_tests_cant": "The continuous integration tests with and builds releases without overflow checks; a difference needs more links than half the address type or a damaged file.", "anchors": [".github/workflows/ci.yml:329", "doublets/src/data/traits.rs:436-498", "doublets/src/mem/unit/store.rs:330-427", "doublets/src/mem/split/store.rs:551-689"]}
{"id": "C102", "title": "Decorators and the C interface keep working without overflow checks", "statement": "Over any store whose build without overflow checks returns whatever the checked one returns, every decorator and every function of the C interface does so too. UsagesValidator refuses to delete or update exactly the links that are used by another, telling exactly their users, in every disciplined history of both stores, also where the number of usages wraps around to 0 and a checked build panics.", "quantifier": "All stores, states, calls and callbacks for the first sentence; all disciplined histories of both stores and all configurations for the second", "why_tests_cant": "The number of usages wraps around only when a link has more users than the address type can count, and tests run with the checks.", "anchors": ["doublets-decorators/src/usages_validator.rs:25-94", "doublets-decorators/src/cascade_unique_resolver.rs:29-88", "doublets-ffi/src/lib.rs:222-408", "doublets/src/data/traits.rs:457-478"]}
{"id": "C103", "title": "Outside disciplined histories, modifying calls are the same without overflow checks", "statement": "On every state of the single-memory store, also of damaged files, update, delete, each and get end alike in builds with and without overflow checks, be it in a value, a panic or undefined behaviour; so does create if the header says that links are reserved, which opening any file ensures and interruptions keep. In the two-memory store, create and the permitted deletions are the same in free use and after interruptions.", "quantifier": "All states, queries and handlers for the single-memory store, and all tree and list implementations that are the same in both builds; all free and interrupted histories of the two-memory store", "why_tests_cant": "Damaged files and interrupted calls are not tested, and tests run with the checks on.", "anchors": ["doublets/src/mem/unit/store.rs:429-555", "doublets/src/mem/split/store.rs:691-849", ".github/workflows/ci.yml:329"]}
{"id": "C104", "title": "The benchmarks and the randomized test do the same without overflow checks", "statement": "In the builds that cargo bench makes, without overflow checks, the benchmark programs see exactly the points that were not deleted, by growing index, and the creation benchmark leaves exactly the points it made, unless a creation finds no memory or no index left. The repository's randomized test never fails an assertion in such a build and ends with an empty store under the same condition.", "quantifier": "All numbers of links and rounds, all filters of deleted links, all random draws, all disciplined histories that left the store empty, both stores, configurations with room for a growth step", "why_tests_cant": "The benchmarks check nothing and run one size; the randomized test runs in checked builds with the draws of one run.", "anchors": ["doublets/benches/iter.rs:6-63", "doublets/tests/extensions.rs:114-148", ".github/workflows/benchmark.yml:28-37"]}
