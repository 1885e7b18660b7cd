{"id": "C01", "title": "partition/merge round trip preserves every attribute", "statement": "For a module m, m.partition().merge() (= m.clone()) returns a module in which following any sequence of attribute names gives the same thing as in m: the same class of module, the same node value (container class, metadata, value), the same static value, or the same absence.", "quantifier": "every reachable interpreter state, every module in it (any depth, sharing, cycles), every attribute path; attribute names without '/' and static names not starting with the reserved prefix '_module__'", "why_tests_cant": "module graphs are unbounded: depth, width, aliasing and cycles can be combined in infinitely many ways and a test samples a handful", "anchors": ["nnx/module.py:Module.partition", "nnx/module.py:ModuleDef.merge", "nnx/module.py:_get_module_def", "nnx/module.py:_get_module_state", "nnx/module.py:_build_module", "nnx/module.py:_update_module"]}
{"id": "C02", "title": "round trip preserves sharing and cycles exactly", "statement": "In the module returned by partition().merge(), two attribute paths lead to the same submodule object if and only if they lead to the same submodule object in the original (shared submodules stay shared, distinct ones stay distinct, cycles stay cycles).", "quantifier": "every module, every pair of attribute paths", "why_tests_cant": "module graphs are unbounded: depth, width, aliasing and cycles can be combined in infinitely many ways and a test samples a handful", "anchors": ["nnx/module.py:_make_module_def_recursive", "nnx/module.py:_build_module_recursive"]}
{"id": "C03", "title": "merge creates fresh objects and partition mutates nothing", "statement": "partition() changes no module; merge() returns objects that did not exist before, changes no pre-existing module, and the clone and the original never reach a common module object through submodule attributes, so later writes to one are invisible in the other.", "quantifier": "every module and every state merged", "why_tests_cant": "module graphs are unbounded: depth, width, aliasing and cycles can be combined in infinitely many ways and a test samples a handful", "anchors": ["nnx/module.py:ModuleDef.merge", "nnx/module.py:Module.clone", "nnx/module.py:_build_module"]}
{"id": "C04", "title": "get_state lists each reachable node attribute exactly once", "statement": "get_state() terminates on every module graph, including cyclic ones, and returns exactly one entry for every node attribute of every reachable submodule, under a '/'-joined path that leads to it from the root; submodules and static attributes never appear; the keys are sorted.", "quantifier": "every module graph", "why_tests_cant": "module graphs are unbounded: depth, width, aliasing and cycles can be combined in infinitely many ways and a test samples a handful; termination on cycles is a liveness claim", "anchors": ["nnx/module.py:_iter_state", "nnx/module.py:_iter_state_recursive", "nnx/module.py:_get_module_state", "nnx/nodes.py:is_node"]}
{"id": "C05", "title": "round trip is idempotent on state and definition", "statement": "The clone has the same State (same keys, same order, same values) and an equal ModuleDef as the original, so partition(merge(partition(m))) = partition(m) and no recompilation is triggered.", "quantifier": "every module", "why_tests_cant": "module graphs are unbounded: depth, width, aliasing and cycles can be combined in infinitely many ways and a test samples a handful", "anchors": ["nnx/module.py:Module.clone", "nnx/module.py:ModuleDef.__eq__", "nnx/module.py:Module.partition"]}
{"id": "C06", "title": "ModuleDef equality is sound and hash-consistent", "statement": "Two ModuleDefs obtained from modules compare equal only if the modules have the same structure: same classes, same static attributes and the same aliasing between attribute paths; == is an equivalence relation and equal ModuleDefs have equal hashes.", "quantifier": "every pair of modules", "why_tests_cant": "quantifies over pairs of unbounded graphs; jit cache hits depend on it", "anchors": ["nnx/module.py:ModuleDef.__eq__", "nnx/module.py:ModuleDef.__hash__"]}
{"id": "C07", "title": "update_state changes exactly the given entries", "statement": "After m.update_state(u) with u's keys among m.get_state()'s keys, m.get_state() equals the old state overridden by u (the container class and metadata of each attribute are kept), the ModuleDef is unchanged, and no other module in the heap changes.", "quantifier": "every module, every tuple of update states with compatible containers", "why_tests_cant": "module graphs are unbounded: depth, width, aliasing and cycles can be combined in infinitely many ways and a test samples a handful and updates", "anchors": ["nnx/module.py:Module.update_state", "nnx/module.py:_update_module", "nnx/module.py:_set_value_at_path", "nnx/containers.py:Container.replace"]}
{"id": "C08", "title": "update_state is all-or-nothing", "statement": "If update_state raises, the module is unchanged.", "quantifier": "every module and every update", "why_tests_cant": "the failing entry can sit anywhere in an unbounded update", "anchors": ["nnx/module.py:_update_module", "nnx/module.py:Module._setattr"]}
{"id": "C09", "title": "partition by filters and merge in any order", "statement": "m.partition(f1..fn) followed by moduledef.merge of the returned states in any order gives the same module as merging the unfiltered state.", "quantifier": "every module, filter list and permutation of the states", "why_tests_cant": "filters are arbitrary predicates; permutations and graphs are unbounded", "anchors": ["nnx/module.py:Module.partition", "nnx/state.py:State.partition", "nnx/module.py:ModuleDef.merge"]}
{"id": "C10", "title": "trace-level guard on attribute assignment", "statement": "Assigning an attribute, or calling update_state, sow, Dict.__setitem__ or MutableLeaf.value= on a module whose recorded jax/nnx trace is not the current one raises TraceContextError and changes nothing.", "quantifier": "every module, attribute, value and every pair of trace contexts", "why_tests_cant": "holds for every schedule of trace entries/exits", "anchors": ["nnx/module.py:Module._setattr", "nnx/tracers.py:TraceState.is_valid"]}
{"id": "C11", "title": "pop_state removes and returns exactly the matching nodes", "statement": "On an acyclic module graph, pop_state(filters) returns, for each filter, the node attributes it is the first to match, and afterwards no reachable node attribute matches a (path-independent) filter; everything not matched is untouched.", "quantifier": "every acyclic module graph and every list of path-independent filters", "why_tests_cant": "module graphs are unbounded: depth, width, aliasing and cycles can be combined in infinitely many ways and a test samples a handful", "anchors": ["nnx/module.py:Module.pop_state", "nnx/module.py:_pop_recursive"]}
{"id": "C12", "title": "pop_state works on modules with reference cycles", "statement": "pop_state terminates on every module, including modules with reference cycles (which the README says are supported).", "quantifier": "every module graph", "why_tests_cant": "termination over all graphs", "anchors": ["nnx/module.py:_pop_recursive"]}
{"id": "C13", "title": "pop_state respects the trace-level guard", "statement": "pop_state on a module from a different trace level raises TraceContextError like every other mutation.", "quantifier": "every module and trace context", "why_tests_cant": "schedule of trace entries", "anchors": ["nnx/module.py:_pop_recursive"]}
{"id": "C14", "title": "pop_state and get_state agree on paths", "statement": "The keys of the State returned by pop_state(...) are the keys under which get_state() lists the same nodes.", "quantifier": "every acyclic module", "why_tests_cant": "depends on insertion order vs sorted order in unbounded graphs", "anchors": ["nnx/module.py:_pop_recursive", "nnx/module.py:_iter_state_recursive"]}
{"id": "C15", "title": "for_each visits every reachable module of the type exactly once", "statement": "m.for_each(T, fn) calls fn exactly once on each reachable module that is an instance of T, in every graph including cyclic ones, and on no other module.", "quantifier": "every module graph and type", "why_tests_cant": "module graphs are unbounded: depth, width, aliasing and cycles can be combined in infinitely many ways and a test samples a handful", "anchors": ["nnx/module.py:Module.for_each", "nnx/module.py:Module._on_all"]}
{"id": "C16", "title": "init flag bracket", "statement": "During m.init(...) every module reachable at entry reports is_initializing, and when it returns or raises every module then reachable reports not initializing; the result or exception of the call is passed through.", "quantifier": "every module, every body including raising ones", "why_tests_cant": "every body and every crash point", "anchors": ["nnx/module.py:Module.init"]}
{"id": "C17", "title": "sow accumulates values in call order", "statement": "Any sequence of sow calls of one variable type under a fresh name leaves a Variable of that type whose value is the tuple of the sown values in order; sow on an existing non-variable, wrongly typed or non-tuple attribute raises ValueError and changes nothing.", "quantifier": "every sequence of values; every prior attribute", "why_tests_cant": "unbounded histories", "anchors": ["nnx/module.py:Module.sow"]}
{"id": "C18", "title": "apply runs on a copy", "statement": "moduledef.apply(states)(...) and module.apply(...) leave every pre-existing module and the input states unchanged when the called method only mutates its own module graph, and return the state after the call.", "quantifier": "every module, state and method body", "why_tests_cant": "every method body", "anchors": ["nnx/module.py:ModuleDef.apply", "nnx/module.py:Module.apply", "nnx/module.py:Pure.call"]}
{"id": "C19", "title": "apply can reach nested methods", "statement": "moduledef.apply(state).a.b(...) calls attribute b of submodule a ('apply can call any nested method or submodule as long as it can be accessed via the . or [] operators', README).", "quantifier": "every accessor chain", "why_tests_cant": "chains of any length", "anchors": ["nnx/module.py:CallableProxy", "nnx/module.py:DelayedAccessor"]}
{"id": "C20", "title": "module identity is unique in every history", "statement": "In every interpreter state reachable by any sequence of module operations, and by calls of jit, grad, remat, scan, init, apply, constructors and copy.deepcopy nested in any way, whether they return or raise, distinct modules have distinct ids, all submodule references are valid, no attribute dictionary has duplicate names, modules keep their ids, and the trace level after a call is the one before it.", "quantifier": "every finite history of API operations and (nested) transform calls, every user function", "why_tests_cant": "all histories", "anchors": ["nnx/module.py:ModuleState", "nnx/ids.py:UUIDManager", "nnx/module.py:ModuleMeta._meta_call"]}
{"id": "C21", "title": "State.partition is first-match, disjoint and exhaustive", "statement": "s.partition(f1..fn) succeeds iff every entry matches some filter (and filters are valid with ... only last); each entry then appears in exactly one output, that of the first filter it matches, with its value unchanged; otherwise ValueError.", "quantifier": "every State and every filter list", "why_tests_cant": "arbitrary predicates over unbounded mappings", "anchors": ["nnx/state.py:State.partition", "nnx/state.py:_split_state"]}
{"id": "C22", "title": "merging a partition gives back the State", "statement": "State.merge of the outputs of s.partition(...) equals s, in any order of the outputs; State.filter(f1..fn) returns the same states as partition(f1..fn, ...) without the remainder.", "quantifier": "every State, filter list and permutation", "why_tests_cant": "unbounded", "anchors": ["nnx/state.py:State.merge", "nnx/state.py:State.filter"]}
{"id": "C23", "title": "State algebra", "statement": "(a|b)[k] is b[k] if k in b else a[k]; a-b keeps exactly the entries of a whose key is not in b; | is associative, idempotent, has the empty State as identity; (a-b) and b have disjoint keys; a|b - b = a-b.", "quantifier": "all States", "why_tests_cant": "algebraic laws over all mappings", "anchors": ["nnx/state.py:State.__or__", "nnx/state.py:State.__sub__", "nnx/state.py:State.merge"]}
{"id": "C24", "title": "State key order is canonical", "statement": "Every State built by State(...), merge, |, -, partition, filter or unflatten of its own flattening has strictly increasing keys, so States with the same entries have the same treedef regardless of insertion order; flatten/unflatten is the identity.", "quantifier": "every sequence of State operations and insertion orders", "why_tests_cant": "all histories", "anchors": ["nnx/state.py:State.__init__", "nnx/state.py:_state_flatten_with_keys", "nnx/state.py:_state_unflatten"]}
{"id": "C25", "title": "filter algebra", "statement": "A type filter matches exactly instances (incl. subclasses); tuple filters match iff some element does; All iff all do; Not iff the element does not; ... everything; None nothing; De Morgan laws hold; str and non-filter objects raise TypeError, at any nesting depth.", "quantifier": "every filter expression, path and value", "why_tests_cant": "arbitrary nesting", "anchors": ["nnx/partitioning.py:to_predicate", "nnx/partitioning.py:Any", "nnx/partitioning.py:All", "nnx/partitioning.py:Not", "nnx/partitioning.py:OfType"]}
{"id": "C26", "title": "no RNG key derivation is ever repeated", "statement": "In any history of make_rng, partition, merge, copy and context creation in which root keys are distinct and each PureContext is merged at most once, no two make_rng calls derive a key from the same (root key, fold data).", "quantifier": "every operation history over any number of contexts and streams", "why_tests_cant": "all histories", "anchors": ["nnx/contextlib.py:Context.make_rng", "nnx/contextlib.py:Context.partition", "nnx/contextlib.py:ContextDef.merge"]}
{"id": "C27", "title": "fold data encoding is injective", "statement": "Different count paths are encoded to different byte strings before hashing.", "quantifier": "all pairs of count tuples", "why_tests_cant": "all pairs of unbounded tuples", "anchors": ["nnx/contextlib.py:_stable_hash"]}
{"id": "C28", "title": "merging a PureContext is deterministic and isolated", "statement": "Two contexts merged from the same PureContext produce the same key sequences for the same calls, whatever happens in between to other contexts, and using a merged context never changes the keys the parent context produces.", "quantifier": "all interleavings of calls", "why_tests_cant": "all interleavings", "anchors": ["nnx/contextlib.py:PureContext.merge", "nnx/contextlib.py:Context.make_rng"]}
{"id": "C29", "title": "context copies share counters", "statement": "Context.copy() shares streams with the original, so keys drawn from the copy and the original together never repeat.", "quantifier": "all interleavings of draws from a context and its copies", "why_tests_cant": "all interleavings", "anchors": ["nnx/contextlib.py:Context.copy"]}
{"id": "C30", "title": "streams with different names are independent", "statement": "Two differently named streams of a context produce different keys, also when seeded with the same integer.", "quantifier": "all names and seeds", "why_tests_cant": "all seeds", "anchors": ["nnx/contextlib.py:context", "nnx/contextlib.py:Context.make_rng"]}
{"id": "C31", "title": "folded hash never collides", "statement": "make_rng never returns the same key twice on one stream, for any number of calls.", "quantifier": "any number of calls on one stream, any hash function", "why_tests_cant": "needs more than 2^32 calls to observe", "anchors": ["nnx/contextlib.py:_stable_hash"]}
{"id": "C32", "title": "trace guard on contexts", "statement": "make_rng and partition on a Context from another trace level raise TraceContextError and consume no counter; unknown stream names raise ValueError and consume no counter.", "quantifier": "every context, trace pair and name", "why_tests_cant": "all schedules", "anchors": ["nnx/contextlib.py:Context.make_rng", "nnx/contextlib.py:Context.partition"]}
{"id": "C33", "title": "rng filter semantics", "statement": "An rng filter matches a stream name iff: string equality, membership of any alternative for sequences, any key mapped to true for mappings (keys mapped to false are ignored), everything for ..., nothing for None.", "quantifier": "every filter expression and name", "why_tests_cant": "arbitrary nesting", "anchors": ["nnx/contextlib.py:to_rng_predicate"]}
{"id": "C34", "title": "uuid uniqueness under concurrency", "statement": "However many threads call uuid() any number of times under any interleaving, all ids returned are pairwise different (also for copies of ids).", "quantifier": "every number of threads and every schedule", "why_tests_cant": "all interleavings", "anchors": ["nnx/ids.py:UUIDManager.__call__", "nnx/ids.py:UUID.__copy__"]}
{"id": "C35", "title": "context managers restore thread-local stacks on every exit", "statement": "nnx_trace, logical_axis_rules and repr's add_indent leave the trace stack, the axis rules and the indent stack as they were on entry for every nesting and every exit path including exceptions.", "quantifier": "every program of nested blocks with exceptions anywhere", "why_tests_cant": "all crash points", "anchors": ["nnx/tracers.py:nnx_trace", "nnx/spmd.py:logical_axis_rules", "nnx/reprlib.py:add_indent"]}
{"id": "C36", "title": "container replace/copy laws", "statement": "c.replace(**kw) has the class of c, exactly c's metadata keys, the replaced values and c's others; unknown keys raise ValueError; a container value must have the same class and metadata; replace(value=c.value) and copy() equal c; replacing twice equals replacing once with the later values.", "quantifier": "all containers and keyword sets", "why_tests_cant": "all inputs", "anchors": ["nnx/containers.py:Container.replace", "nnx/containers.py:Container.copy", "nnx/containers.py:Container.is_equivalent"]}
{"id": "C37", "title": "container construction from a container", "statement": "C(x) for a container x succeeds iff x has class C and metadata equal to those of the new container, and then equals x.", "quantifier": "all container classes and metadata", "why_tests_cant": "all inputs", "anchors": ["nnx/containers.py:ContainerMetaclass.__call__"]}
{"id": "C38", "title": "Pytree flatten/unflatten round trip and canonical order", "statement": "Unflattening a flattened Pytree gives the same attributes; the leaf order does not depend on the order attributes were assigned in __init__.", "quantifier": "every Pytree object and assignment order", "why_tests_cant": "all objects", "anchors": ["nnx/pytreelib.py:Pytree._pytree__flatten", "nnx/pytreelib.py:Pytree._pytree__unflatten"]}
{"id": "C39", "title": "Pytree immutability", "statement": "After construction, no sequence of attribute assignments changes an immutable Pytree, and no sequence of assignments changes the set of fields of any Pytree; the initialising/mutable markers are gone after construction, also when __init__ raises.", "quantifier": "every sequence of assignments, every constructor", "why_tests_cant": "all histories and crash points", "anchors": ["nnx/pytreelib.py:Pytree._setattr", "nnx/pytreelib.py:PytreeMeta.call"]}
{"id": "C40", "title": "Pytree.replace laws", "statement": "p.replace(**kw) leaves p unchanged and returns an object that differs from p exactly in the given fields (keeping containers' class and metadata); unknown fields raise.", "quantifier": "every Pytree and keyword set", "why_tests_cant": "all inputs", "anchors": ["nnx/pytreelib.py:Pytree.replace"]}
{"id": "C41", "title": "flax serialization round trip", "statement": "from_state_dict(p, to_state_dict(p)) equals p; missing or unknown fields raise ValueError.", "quantifier": "every Pytree including nested ones", "why_tests_cant": "all nestings", "anchors": ["nnx/pytreelib.py:Pytree._to_flax_state_dict", "nnx/pytreelib.py:Pytree._from_flax_state_dict"]}
{"id": "C42", "title": "add_axis / remove_axis are inverse on sharding metadata", "statement": "remove_axis(add_axis(s, i, params), i, params) = s.", "quantifier": "every State, index and sharding", "why_tests_cant": "all indices incl. negative and beyond the rank", "anchors": ["nnx/spmd.py:add_axis", "nnx/spmd.py:remove_axis"]}
{"id": "C43", "title": "logical_to_mesh_axes never assigns a mesh axis twice", "statement": "The result has one entry per array dimension, each entry comes from a rule naming that dimension, no mesh axis is used by two dimensions, rules are applied in priority order, unmatched dimensions are None; duplicate dimension names raise ValueError.", "quantifier": "every dimension-name list and every rule list", "why_tests_cant": "all inputs", "anchors": ["nnx/spmd.py:_logical_to_mesh_axes", "nnx/spmd.py:logical_to_mesh_axes"]}
{"id": "C44", "title": "Sequence behaves like the list it was built from", "statement": "len, indexing and iteration of Sequence(xs) agree with xs, also after clone.", "quantifier": "every list of elements", "why_tests_cant": "all lengths incl. zero", "anchors": ["nnx/helpers.py:Sequence"]}
{"id": "C45", "title": "Dict behaves like the mapping it was built from", "statement": "len, iteration and item access of Dict(d) agree with d.", "quantifier": "every mapping", "why_tests_cant": "all mappings", "anchors": ["nnx/helpers.py:Dict"]}
{"id": "C46", "title": "nnx.jit is transparent for state", "statement": "nnx.jit(f)(m, ...) has the same effect on m's state as running f(m, ...) directly, for f assigning node attributes; with stateful=False m is unchanged.", "quantifier": "every module and every program of attribute assignments", "why_tests_cant": "all programs", "anchors": ["nnx/transforms.py:JitTransform"]}
{"id": "C47", "title": "deletions inside nnx.jit are propagated", "statement": "State removed inside a jitted function (e.g. pop_state of intermediates) is removed from the module after the call.", "quantifier": "every module and removed attribute", "why_tests_cant": "all programs", "anchors": ["nnx/transforms.py:JitTransform.__call__", "nnx/module.py:_update_module"]}
{"id": "C48", "title": "nnx.grad differentiates exactly the selected state", "statement": "nnx.grad(f, wrt)(m) returns a State whose keys are exactly the keys of m.filter(wrt), calls f on a module equal to m, and updates m's state with what f did.", "quantifier": "every module and filter", "why_tests_cant": "all modules/filters", "anchors": ["nnx/transforms.py:GradTransform"]}
{"id": "C49", "title": "scan equals the sequential loop", "statement": "nnx.scan over per-layer state (axes), carry state and broadcast state gives the outputs, final carry and final module state of the Python loop that applies f to layer 0..n-1 in turn. If the function raises in some layer, scan raises the same exception and nothing has changed; whatever happens, the module changes only by scan's last act, one update_state.", "quantifier": "every step function, length, state split", "why_tests_cant": "all lengths and step functions", "anchors": ["nnx/transforms.py:scan_apply"]}
{"id": "C50", "title": "scan splits RNG streams per layer", "statement": "Inside scan, streams selected by split_rngs get pairwise different keys in different layers; the others get the same key in each layer; the parent context never repeats them.", "quantifier": "all lengths and stream sets", "why_tests_cant": "all lengths", "anchors": ["nnx/transforms.py:scan_apply"]}
{"id": "C51", "title": "Pure.update_state applies the updates", "statement": "pure.update_state(u).get_state() is pure's state overridden by u.", "quantifier": "every Pure and update", "why_tests_cant": "all inputs", "anchors": ["nnx/module.py:Pure.update_state"]}
{"id": "C52", "title": "Pure operations agree with State operations", "statement": "Pure.get_state, filter, partition, pop_state commute with the corresponding State operations whatever way the states are split.", "quantifier": "every Pure and filter list", "why_tests_cant": "all inputs", "anchors": ["nnx/module.py:Pure"]}
{"id": "C53", "title": "Dropout", "statement": "With rate 0 or deterministic the input is returned unchanged and no rng is consumed; otherwise every output entry is 0 or input/(1-rate), constant along broadcast dims, exactly one rng key is consumed; the deterministic flag is resolved call > module > context.", "quantifier": "all inputs, rates, masks", "why_tests_cant": "all inputs", "anchors": ["nnx/nn/stochastic.py:Dropout.__call__", "nnx/module.py:first_from"]}
{"id": "C54", "title": "BatchNorm running statistics", "statement": "With use_running_average the statistics do not change; otherwise after any sequence of batches they are the exponential moving average of the batch statistics; variance is non-negative.", "quantifier": "every sequence of batches", "why_tests_cant": "all histories", "anchors": ["nnx/nn/normalization.py:BatchNorm.__call__", "nnx/nn/normalization.py:_compute_stats"]}
{"id": "C55", "title": "Conv padding preserves size and causality", "statement": "With stride 1, CIRCULAR and CAUSAL padding keep the spatial size; CAUSAL output at t depends only on inputs at times <= t; canonicalize_padding accepts exactly str, int, or a rank-long sequence of ints/pairs.", "quantifier": "all sizes, kernels, dilations", "why_tests_cant": "all sizes", "anchors": ["nnx/nn/linear.py:Conv.__call__", "nnx/nn/linear.py:canonicalize_padding"]}
{"id": "C56", "title": "A jitted function computes the same however often it was compiled before", "statement": "Whatever calls were made before, on whatever modules, a call of a jitted function returns the output, the new state or the exception that the function itself has on that call's module. No recompilation happens exactly when the modules have the same static structure, are in the same phase (is_initializing) and their states have the same paths with entries of the same class, metadata and abstract value.", "quantifier": "all functions over modules, all histories of calls, all module graphs with sharing and cycles, all values", "why_tests_cant": "a stale cache entry shows only for particular pairs of calls in a history; tests call a compiled function a few times", "anchors": ["nnx/transforms.py:JitTransform", "nnx/module.py:ModuleDef.__eq__", "nnx/module.py:_moddef_flatten", "nnx/state.py:_state_flatten", "nnx/containers.py:NodeBase"]}
{"id": "C57", "title": "partition and merge keep stream names, root keys and flags", "statement": "Merging the PureContext made by Context.partition gives a context with the same stream names and flags whose streams have the same root keys, fresh counters, and belong to the trace level at the merge.", "quantifier": "every context and every two trace levels", "why_tests_cant": "all contexts and all prior uses of the streams", "anchors": ["nnx/contextlib.py:Context.partition", "nnx/contextlib.py:ContextDef.merge"]}
{"id": "C58", "title": "repr of nested objects", "statement": "repr(x) of an object nested in another one is its top-level repr with every line after the first indented by the nesting's indentation; the indentation state is the same after repr returns or raises, so later reprs are unaffected.", "quantifier": "every tree of representable objects, every indentation, exceptions anywhere", "why_tests_cant": "ranges over all nestings and over exceptions raised at any depth", "anchors": ["nnx/reprlib.py:get_repr", "nnx/reprlib.py:add_indent"]}
{"id": "C59", "title": "with_logical_constraint fallbacks", "statement": "With rules and distinct dimension names, an array whose dimensions are all matched is constrained by logical_to_mesh_axes of its names when a mesh is available; if some dimension is unmatched, AXIS_IS_UNSHARDED still constrains it, RAISE_ERROR raises ValueError and NO_CONSTRAINT leaves the array alone; with no rules or no names the array is untouched.", "quantifier": "every rule list, name list and fallback", "why_tests_cant": "whether a dimension is matched depends on the whole rule list and on conflicts between earlier rules", "anchors": ["nnx/spmd.py:with_logical_constraint", "nnx/spmd.py:_with_sharding_constraint_one_fallback"]}
{"id": "C60", "title": "Calling a Sequence composes its elements", "statement": "Sequence(fs)(*args, ctx=c, **kwargs) calls the elements in order, each on the output of the previous one (tuple as positional, dict as keyword, anything else as single argument), passes ctx exactly to elements that accept it by keyword, and raises TypeError at the first element that is not callable.", "quantifier": "every list of functions, every argument list, every way of splitting the list", "why_tests_cant": "all compositions of functions with arbitrary outputs and effects", "anchors": ["nnx/helpers.py:Sequence.__call__", "nnx/helpers.py:has_keyword_arg"]}
{"id": "C61", "title": "remat has the effect of the direct call", "statement": "Calling a rematerialised function on a module (with or without a ctx) returns what the direct call returns and leaves the module as the direct call does; exceptions come out unchanged with nothing written; a ctx from another trace level is refused.", "quantifier": "every function over modules, every module graph, every context, every trace level", "why_tests_cant": "ranges over all user functions and all module graphs with sharing and cycles", "anchors": ["nnx/transforms.py:remat_apply", "nnx/transforms.py:remat"]}
{"id": "C62", "title": "LayerNorm normalizes each example over the reduction axes and nothing else", "statement": "For every input array, every valid choice of reduction axes and one feature axis, all parameters and epsilon, LayerNorm returns an array of the input's shape whose entries are (x - mean) * mult + bias with mean and variance taken over exactly the reduction axes of that entry; the output at a position depends only on the inputs sharing its non-reduced coordinates; with no scale and bias the output averages to zero over the reduction axes; out-of-range or duplicate reduction axes raise ValueError.", "quantifier": "all input shapes and values, all axes lists (negative and positive), all parameters, all epsilons", "why_tests_cant": "tests fix a shape, an axis list and a tolerance; independence between examples and the axis arithmetic range over all of them", "anchors": ["nnx/nn/normalization.py:LayerNorm", "nnx/nn/normalization.py:_compute_stats", "nnx/nn/normalization.py:_normalize", "nnx/nn/normalization.py:_canonicalize_axes"]}
{"id": "C63", "title": "Linear is an affine map of the last axis; Embed selects rows", "statement": "Linear applied to an array of shape (..., in) returns shape (..., out) with every last-axis vector v mapped to v @ kernel + bias, independently of the other vectors, and raises TypeError for another last size. A Conv with kernel size 1, VALID padding and the same parameters computes the same. Embed returns for every integer id in [-n, n) the row it names, with the ids' shape extended by the feature axis, equals Linear of the one-hot encoding, and raises ValueError for non-integer input; attend returns the inner products with all rows.", "quantifier": "all batch shapes, feature sizes, parameters, ids and input values", "why_tests_cant": "tests fix one shape and compare against the same library; the law ranges over all shapes and values", "anchors": ["nnx/nn/linear.py:Linear.__call__", "nnx/nn/linear.py:Embed.__call__", "nnx/nn/linear.py:Embed.attend", "nnx/nn/linear.py:Conv.__call__"]}
{"id": "C64", "title": "Building layers uses one params key per parameter, in order", "statement": "For every program that constructs layers one after the other, the n-th parameter created is its initializer applied to the n-th next key of the 'params' stream and the advertised shape; no key is used twice or skipped and no other stream moves. Without a 'params' stream the constructor raises ValueError and uses no key; in a context of another trace it raises the trace error. A layer built this way accepts every input of its declared feature size.", "quantifier": "all sequences of layers, sizes, initializers, contexts and stream states", "why_tests_cant": "tests build a few layers; key usage must be right for every sequence of constructions", "anchors": ["nnx/nn/linear.py:Linear.__init__", "nnx/nn/linear.py:Conv.__init__", "nnx/nn/linear.py:Embed.__init__", "nnx/nn/normalization.py:BatchNorm.__init__", "nnx/nn/normalization.py:LayerNorm.__init__", "nnx/contextlib.py:Context.make_rng"]}
{"id": "C65", "title": "Training with TrainState is the optimizer, applied once per gradient", "statement": "A TrainState starts with the optimizer state tx.init(params). Each apply_gradients(grads, **fields) returns a new TrainState whose parameters and optimizer state are what the optimizer computes from the current ones, whose step is one more, and whose other fields are unchanged or the given ones; no earlier TrainState changes and, if the optimizer raises or a keyword is no field, none is made. After n gradients the result is the optimizer run n times. apply takes field names for the States they hold. As a jax pytree its leaves are parameters, optimizer state, step and node fields; the ModuleDef, the optimizer and plain fields are static, and an update keeps the treedef.", "quantifier": "all optimizers, gradients, training lengths, extra fields and heaps", "why_tests_cant": "tests run one step with one optimizer; the loop law is about every length, optimizer and failure", "anchors": ["nnx/helpers.py:TrainState", "nnx/pytreelib.py:Pytree.replace"]}
{"id": "C66", "title": "merge accepts any States that fit the definition", "statement": "For a ModuleDef taken from any module and any list of States whose entries lie at paths of that module's state and hold node values, merge returns a new module of the same shape: same submodules, same sharing and cycles, same classes, flags and static attributes, and get_state of it is exactly the union of the given States, later ones winning; entries may be missing and values, Variable classes and metadata may differ from the original's. How the entries are split into States, and the order of disjoint ones, does not matter. Existing objects are untouched and every module reachable from the result is new and belongs to the current trace.", "quantifier": "all module graphs (shared and cyclic), all lists of States with entries at known paths, all interpreter states merged into", "why_tests_cant": "tests merge the unmodified parts of one partition; optimizers, scan and checkpoints merge other values, subsets and re-splits over arbitrary graphs", "anchors": ["nnx/module.py:ModuleDef.merge", "nnx/module.py:_build_module", "nnx/module.py:_update_module"]}
{"id": "C67", "title": "A scanned constructor makes the layers", "statement": "nnx.Scan(...)(args, ctx=ctx) makes one module whose per-layer variables, sliced as scan slices them (axis name of the partition metadata removed), are in layer i exactly what the constructor makes when it is called on its own with the context of layer i; broadcast and carry variables, the static structure and sharing are those of a single call; merging the definition with the slices of layer i gives a copy of the module of call i. Layers draw different keys from the streams of split_rngs and the same keys from the others. A missing length, a constructor that raises, and broadcast or carry state that differs between the layers raise.", "quantifier": "all constructors, options, numbers of layers, contexts and modules (with sharing and cycles) the constructor may build, all array stacking operations that slicing inverts", "why_tests_cant": "the constructor and the shape of what it builds are arbitrary; a test fixes one module", "anchors": ["nnx/transforms.py:scan_init", "nnx/transforms.py:ScanMeta", "nnx/spmd.py:add_axis", "nnx/module.py:ModuleDef.merge"]}
{"id": "C68", "title": "A class with its __init__ decorated by nnx.scan holds one stack of the layers its __init__ would make", "statement": "Calling the constructor of a class whose __init__ is decorated with nnx.scan (length n) leaves the object with the definition one plain call of __init__ gives and with every per-layer variable stacked over the n plain calls (each with its own keys for the split streams), the other variables as in any call; the submodules are those a plain call makes and no other object changes. Exceptions of __init__ pass through. It should work whenever nnx.Scan of the class works, also with a partition name and sharded parameters.", "quantifier": "all __init__ functions, numbers of layers, axes, filters, contexts, heaps, array operations meeting the contract of jnp.stack/slicing", "why_tests_cant": "needs every __init__, module structure, filter set and layer count; a test fixes one class and one option set", "anchors": ["nnx/transforms.py: scan (init_wrapper), scan_init", "nnx/module.py: Module.update_state, _update_module", "nnx/containers.py: Container.replace, is_equivalent", "nnx/spmd.py: add_axis"]}
{"id": "C69", "title": "repr of a Module lists every connected module once", "statement": "repr(module) returns for every module, including modules with shared submodules and reference cycles. Every module connected to it through printed attributes (also inside tuples and containers) is listed in full exactly once, where it is first mentioned, with all its printed attributes in order; everywhere else it appears as its class name with dots. The text depends on the module only: not on reprs made or failed before, nor on reprs running in other threads.", "quantifier": "all heaps of modules, all attribute values, all reprs of other values (including raising ones), all histories of reprs, all schedules of threads", "why_tests_cant": "needs every module graph, every history and every interleaving; a test prints a few modules in one thread", "anchors": ["nnx/module.py: Module.__nnx_repr__, SEEN_MODULES_REPR", "nnx/reprlib.py: get_repr, Representable.__repr__", "nnx/containers.py: Container.__nnx_repr__"]}
{"id": "C70", "title": "A Scan object is the layers it was made of, over its whole life", "statement": "nnx.Scan(M, ...)(args) followed by any sequence of calls (of any methods, with any arguments) returns what the corresponding Python loops over n separately constructed modules return: call i of M constructs layer i, each call of the Scan object updates the layers in order, threads the carry argument and the carry State through them, and leaves per-layer State that, taken apart, is that of the separate modules. Other objects are not touched, changes to other objects do not matter, and a clone of the Scan object stands for the same layers without sharing anything.", "quantifier": "all constructors and methods (programs on a module), layer numbers, filters by path and class, arguments, contexts and sequences of calls", "why_tests_cant": "needs every constructor and every history of calls; a test runs one module for a few steps", "anchors": ["nnx/transforms.py: ScanMeta, Scan, scan_init, scan_apply"]}
{"id": "C71", "title": "jit takes arrays, hashable static arguments and a context, and refuses anything else untouched", "statement": "For a jitted function called with positional and keyword arguments: if the arguments and the module's Variables are made of arrays and numbers, static arguments are hashable, and the direct call returns arrays and leaves arrays in the module, then jit returns the same and has the same effect. Non-array arguments, Variables, results and unhashable static arguments raise TypeError/ValueError with the module as it was. A Context given as ctx reaches the function as the context merged from its partition (false: every such call raises after the streams of the context have been forked; passing the keys and merging inside works).", "quantifier": "every function, module graph, argument tree, choice of static names, context and set of streams", "why_tests_cant": "quantifies over all functions and argument trees; the claim about contexts fails for all of them", "anchors": ["nnx/transforms.py: JitTransform.__init__, JitTransform.__call__, jit", "nnx/contextlib.py: PureContext, _pure_context_flatten, ContextDef"]}
{"id": "C72", "title": "mutable_state_dict gives one live handle per entry of the state", "statement": "module.mutable_state_dict() has exactly the paths of get_state(); the leaf at a path reads what the attribute at that path reads; assigning its value changes that attribute (and what every path to the same module shows) and nothing else, exactly like update_state with that one entry; a value that does not fit its container raises ValueError and changes nothing. Leaves obtained once stay valid through any sequence of assignments, the last one to each path winning. Reading the sharding of a leaf gives None for an array and raises AttributeError for a Variable.", "quantifier": "every module graph (shared, cyclic) with representable names, every leaf, every value and every sequence of assignments", "why_tests_cant": "quantifies over all object graphs and all histories of assignments", "anchors": ["nnx/module.py: Module.mutable_state_dict, MutableLeaf, _get_value_path, _iter_state, Module.update_state"]}
{"id": "C73", "title": "get_partition_spec gives every entry its sharding", "statement": "get_partition_spec of a state has the same paths; a variable with a non-empty sharding gets the PartitionSpec of exactly its names, any other array the empty spec, anything else None. After add_axis the spec of a sharded variable has the new axis at that index with the old names (padded with None) around it and the others are unchanged.", "quantifier": "every state, sharding, index at least 0 and axis name", "why_tests_cant": "quantifies over all states and shardings", "anchors": ["nnx/spmd.py: get_partition_spec, add_axis, HasSharding"]}
{"id": "C74", "title": "remat passes arguments like a direct call", "statement": "A function decorated with nnx.remat (or called through an nnx.Remat object) returns what the direct call returns and has the same effect on the module, for any positional arguments and any context, provided the arguments not named by static_argnums, the module and the results are made of arrays. Static arguments may be anything and are designated by their position in the call, from the front or, negative, from the end. Other non-arrays raise TypeError and numbers that designate no argument raise ValueError, with the module unchanged; an exception of the function comes out with the module unchanged.", "quantifier": "every function, module, argument list, static_argnums, context and trace", "why_tests_cant": "quantifies over all functions, module graphs, argument lists and positions", "anchors": ["nnx/transforms.py: remat, remat_apply, RematOptions, RematMeta, Remat"]}
{"id": "C75", "title": "Calls through transforms can be mixed freely with direct calls", "statement": "Any sequence of calls on a module, each made directly or through nnx.jit, nnx.remat or nnx.grad, stateful or not, gives the results, the stream counts and the module that the same sequence gives when every call is made directly; calls that raise inside a transform, and calls through transforms that are not stateful, leave the module as it is. In particular removing jit and remat decorators from a program changes nothing.", "quantifier": "every finite history of calls, of any functions in any order on any module graph", "why_tests_cant": "quantifies over all histories mixing the transforms", "anchors": ["nnx/transforms.py: JitTransform.__call__, GradTransform.__call__, remat_apply", "nnx/module.py: Module.partition, Module.update_state"]}
{"id": "C76", "title": "nnx.grad: what may be passed and returned", "statement": "nnx.grad(f, wrt)(m, *args) passes args to f as they are, whatever they are; only the values selected by wrt must be numbers (real or complex; integers with allow_int; complex only with holomorphic), otherwise TypeError before f runs. f must return one real number, or with has_aux a pair of one and anything; otherwise TypeError or ValueError and no object changes. The result has an entry of the same container class and metadata for each selected value, and the auxiliary value as returned; the module is left as by a direct call, or unchanged with stateful=False. A first argument that is no Module raises TypeError.", "quantifier": "every function, module, filter, list of arguments, result and combination of options", "why_tests_cant": "all argument and result shapes, all functions", "anchors": ["nnx/transforms.py:GradTransform", "nnx/transforms.py:grad"]}
{"id": "C77", "title": "Decorators can be stacked", "statement": "A stack of nnx.jit, nnx.grad, nnx.remat and nnx.scan over a function does what the transforms do one after the other, each with the options it was given.", "quantifier": "every stack of decorators, in every order and of every height, over every function, for any behaviour of the single transforms", "why_tests_cant": "unboundedly many stacks", "anchors": ["nnx/transforms.py:jit", "nnx/transforms.py:grad", "nnx/transforms.py:remat", "nnx/transforms.py:scan"]}
{"id": "C78", "title": "Logically partitioned variables", "statement": "A variable made from with_logical_partitioning(init, sharding, mesh, rules) carries these options through assignments; creating it and every read of it asks jax for exactly the layout its dimension names get from its rules (or from those in force), and for nothing without a mesh or rules. A variable rebuilt with the same options can replace it. logical_to_mesh and logical_to_mesh_sharding do the same for every spec of a tree, keeping its structure.", "quantifier": "every initializer, sharding, mesh, rules, extra metadata, container keywords, state of the global mesh and rules, every assigned value, every tree of specs and every state", "why_tests_cant": "unboundedly many shardings, rules and trees", "anchors": ["nnx/spmd.py:with_logical_partitioning", "nnx/containers.py:with_metadata", "nnx/spmd.py:logical_to_mesh", "nnx/spmd.py:logical_to_mesh_sharding", "nnx/module.py:Module.__getattribute__"]}
{"id": "C79", "title": "Element types of the layers", "statement": "Without a dtype, Linear, Conv, LayerNorm and BatchNorm return the least inexact type, in jax's promotion lattice, above the input and the parameters (float32 when there is no inexact one), whatever the order of the arguments and ignoring the absent ones; with a dtype they return that one, and refuse one that is not inexact. Embed returns the table's (or layer's) dtype and requires integer indices. The running statistics of BatchNorm are never weakly typed and keep the type they were created with. Dropout keeps the dtype of its input.", "quantifier": "every list of arguments of any dtype, weak or not, with 64-bit types on or off; every history of BatchNorm calls", "why_tests_cant": "argument lists and call histories are unbounded", "anchors": ["nnx/nn/dtypes.py:canonicalize_dtype", "nnx/nn/dtypes.py:promote_dtype", "nnx/nn/linear.py:Linear.__call__", "nnx/nn/linear.py:Embed.__call__", "nnx/nn/normalization.py:BatchNorm.__call__", "nnx/nn/stochastic.py:Dropout.__call__"]}
{"id": "C80", "title": "Dataclass Modules", "statement": "Constructing a Module that is a dataclass binds positional and keyword arguments to the fields in order (TypeError otherwise), makes a new object that is none of the existing ones and leaves those alone, and stores in each field its argument or default: as it is for plain fields, in the declared container (node, static, or the variable class with its sharding) for fields declared with a container, reading back as the value. Node and variable fields are entries of the state, static ones are not. Every declared default is honoured.", "quantifier": "every dataclass (any fields, defaults, factories that may build Modules, inherited declarations), every call and every existing heap; any __post_init__ for what happens after it", "why_tests_cant": "classes, calls and factories are unbounded", "anchors": ["nnx/dataclasses.py:field", "nnx/dataclasses.py:node_field", "nnx/dataclasses.py:static_field", "nnx/dataclasses.py:var_field", "nnx/dataclasses.py:param_field", "nnx/dataclasses.py:dataclass", "nnx/module.py:ModuleMeta._meta_call", "nnx/nn/stochastic.py:Dropout"]}
{"id": "C81", "title": "Copies made by python's copy module", "statement": "copy.deepcopy(module) makes a one-to-one copy of everything the module mentions, also inside tuples and containers, with the same sharing, values, state and definition and with new ids, and leaves every existing object alone; the copy can be used like the original. copy.copy(module) makes a new object with the attributes of the original: it looks the same, and assigning to either leaves the other alone; both may be used together in one module.", "quantifier": "every module graph (shared, cyclic, modules inside tuples and containers), every trace level at which the copy is used", "why_tests_cant": "module graphs and later uses are unbounded", "anchors": ["nnx/ids.py:UUID.__deepcopy__", "nnx/module.py:ModuleState", "nnx/module.py:Module", "nnx/tracers.py:TraceState.is_valid", "nnx/module.py:ModuleMeta._meta_call"]}
{"id": "C82", "title": "in_axes and out_axes of scan", "statement": "scan(f, in_axes=..., out_axes=...) takes trees of axes that are prefixes of the scanned argument and of the results. Every layer gets the argument with each array replaced by its slice along the axis given for it, and each array of the results is stacked along the axis given for it; everything else is as in the python loop. None broadcasts: each layer gets the whole argument. If in_axes is no prefix of the argument, or the number of layers is not determined, ValueError is raised before the function runs; if out_axes is no prefix of the results, ValueError is raised and the module is not updated. If the function raises in some layer, scan raises the same exception and nothing has changed; whatever happens, the module changes only by scan's last act, one update_state.", "quantifier": "every tree of tuples, lists and dicts as argument and result, every tree of axes, every scanned function, module, context and number of layers", "why_tests_cant": "trees, axes and functions are unbounded", "anchors": ["nnx/transforms.py:scan_apply", "nnx/transforms.py:tree_map_upto_left", "nnx/transforms.py:ScanOptions"]}
{"id": "C83", "title": "Normalization over several devices", "statement": "BatchNorm(axis_name=...) in a program that runs on several devices normalizes in training with the mean and variance of the inputs of all devices together, or of all devices of its group in axis_index_groups, and moves its running statistics towards those; so devices of a group stay in agreement through any history, and cutting a batch over the devices gives what one device gives for the whole batch. In evaluation the devices do not communicate. LayerNorm(axis_name=...) likewise normalizes with the entries of all devices of the group, and accepts every input it accepts without an axis name.", "quantifier": "every number of devices, groups, batches, settings of the layers and history of training and evaluation steps", "why_tests_cant": "numbers of devices, batches and histories are unbounded, and tests run on one device", "anchors": ["nnx/nn/normalization.py:_compute_stats", "nnx/nn/normalization.py:BatchNorm.__call__", "nnx/nn/normalization.py:LayerNorm.__call__"]}
{"id": "C84", "title": "A program that calls a jitted function many times does what it does without jit", "statement": "A program that calls a function wrapped with nnx.jit any number of times on a module, with any other code in between and whatever was compiled in earlier calls (also with other modules), gets from every call what the function returns when called directly at that point, sees the same exceptions, and finds the module afterwards with the attributes, sharing and state it would have without jit; a call that raises, or of a jit that is not stateful, changes no module; other modules are not touched. A call with a module of the structure, phase and kinds of state of an earlier call runs no python code.", "quantifier": "every function, module, interleaving of jitted calls with other code, and compilation cache brought about by earlier calls", "why_tests_cant": "histories of calls and the caches they leave behind are unbounded; a stale cache entry shows only in the right order of calls", "anchors": ["nnx/transforms.py:JitTransform.__call__", "nnx/transforms.py:jit", "nnx/module.py:Module.partition", "nnx/module.py:Module.update_state"]}
{"id": "C85", "title": "Any ModuleDef, also a hand-made one, merges to exactly the module it describes or fails for its numbering", "statement": "ModuleDef.merge with an empty State succeeds exactly if no index is given to two parts of the definition and every index that a part refers to belongs to a part read before; otherwise it raises KeyError (reference to an unknown index) or AssertionError (index given again), whichever is met first. The new module has one new object per part, with the class, static fields, phase and submodules that the part says (the last entry of a name wins, submodules win over static fields); two paths lead to one object exactly if they lead to one index; existing modules are untouched. The definition of the new module is the one it was made from exactly if that one is in the form which partition produces, and these forms are exactly the definitions of modules. Equal definitions in that form merge alike: to modules of the same structure, or with the same error.", "quantifier": "every ModuleDef (any nesting, numbering, order and repetition of names), every heap", "why_tests_cant": "definitions are trees with back references of unbounded size; tests build them from a handful of modules only, never by hand", "anchors": ["nnx/module.py:ModuleDef", "nnx/module.py:_build_module", "nnx/module.py:_build_module_recursive", "nnx/module.py:_make_module_def_recursive"]}
{"id": "C86", "title": "A State reads like the mapping it was made of", "statement": "Made of a mapping or of pairs in any order, with keys repeated or not, a State has under each key the last value given for it and raises KeyError under any other; iteration, keys, items and values list every key once in increasing order, len counts them, in / get / bool agree with lookup. A State equals a State or a dict exactly if both have the same keys with equal values, whatever the order they were given in, and equals nothing else; equality is an equivalence relation.", "quantifier": "every list of pairs, every key, every two or three States and dicts", "why_tests_cant": "all sizes, orders and repetitions of keys", "anchors": ["nnx/state.py:State.__init__", "nnx/state.py:State.__getitem__", "nnx/state.py:State.__iter__", "nnx/state.py:State.__len__"]}
{"id": "C87", "title": "Equal objects have equal hashes", "statement": "== on Modules (identity), ModuleDefs, containers, States, dicts and UUIDs is an equivalence relation that holds exactly for objects of the same kind with equal parts, and equal objects have the same hash. Exactly values without arrays, lists, dicts or sets inside, Statics of such values, Modules, UUIDs, and ModuleDefs whose static fields all have a hash have one; the others raise TypeError. A dict keyed by such objects therefore finds what was stored under every equal key and under no other. A Static in a tree has no leaves and is kept with the structure.", "quantifier": "every two or three objects, every hash python may give to plain values, every dict content", "why_tests_cant": "nested definitions and tuples of any depth, every hash function", "anchors": ["nnx/containers.py:Container.__eq__", "nnx/containers.py:Static.__hash__", "nnx/containers.py:_static_flatten", "nnx/ids.py:UUID.__eq__", "nnx/ids.py:UUID.__hash__", "nnx/module.py:ModuleDef.__hash__", "nnx/module.py:ModuleDef.__eq__", "nnx/module.py:Module.__hash__"]}
{"id": "C88", "title": "No tracer outlives its transform inside a Module", "statement": "In a program whose transforms are nnx.jit, nnx.grad and jax transforms that nnx notices (jax.jit, jax.lax.scan), nested in any way, with errors caught anywhere: every value the program can reach, in a variable or in an attribute of a Module, is an array or a tracer of a transform that is still going on, so no operation ever meets a tracer of a finished transform; when the program ends or raises its Modules hold arrays only. Inside a transform every assignment to a Module from outside raises the trace error and changes nothing; a Module can always be assigned to where it was made. Every call leaves the current traces as it found them, also when it raises.", "quantifier": "every program of these operations, every nesting of transforms, every place where an error is raised or caught", "why_tests_cant": "quantifies over all programs and all nestings; the error shows only when a leaked tracer is used later", "anchors": ["nnx/tracers.py:get_top_trace", "nnx/tracers.py:nnx_trace", "nnx/tracers.py:TraceState.is_valid", "nnx/module.py:Module.__setattr__", "nnx/transforms.py:JitTransform", "nnx/transforms.py:GradTransform"]}
{"id": "C89", "title": "Containers are shared and copied so that only writes to their fields can be noticed", "statement": "A program that makes Modules and containers, assigns, deletes and reads attributes, takes, filters, adds and subtracts States, partitions, merges, updates and pops, in any order, with errors caught anywhere, prints the same whether containers are Python objects shared by reference or values copied by every operation, as long as it assigns to no field of a container. So a State is a snapshot under such programs. No Variable object is an attribute of two Modules or of one Module twice, an existing Variable object never becomes an attribute of a Module it was not in, a merge shares no Variable object with existing Modules, and no Module ever holds again what pop_state returned. Assigning to a field of a container changes that object: exactly the attributes and State entries that are the object show it; after m.get_state()[path].field = v the new get_state differs at this path only.", "quantifier": "every program of these operations, every set of registered node types, every class, attribute name, value, filter and error", "why_tests_cant": "quantifies over all programs; aliasing shows only when two references are used much later", "anchors": ["nnx/containers.py:Container", "nnx/containers.py:Container.copy", "nnx/containers.py:Container.replace", "nnx/module.py:Module.__setattr__", "nnx/module.py:Module.__getattribute__", "nnx/module.py:Module.get_state", "nnx/module.py:Module.partition", "nnx/module.py:Module.update_state", "nnx/module.py:Module.pop_state", "nnx/module.py:ModuleDef.merge", "nnx/module.py:_build_module_recursive", "nnx/state.py:State.__getitem__"]}
{"id": "C90", "title": "Programs on the parts of a Module do what they do on the Module", "statement": "A program that takes a Module apart once (m.partition) and from then on works on the Pure or on its States and ModuleDef, by y, p = p.apply(f), y = p.call(f), p = p.partition(filters) and jax.tree_map over the States, each statement under jax.jit or not, some of them raising, gives the same outputs as the program that calls f on the Module itself and writes with update_state (calls that raise being undone). At the end the Pure has the state and the definition of that Module, every partition of it gives what the Module gives, and merging it anywhere gives a faithful copy of that Module with its sharing. No object that existed before is changed. Which trace a statement runs in makes no difference, and call statements can be left out without changing anything else. Keeping the first ModuleDef and replacing only the States is right as long as the calls do not change the definition.", "quantifier": "every Module graph, every starting partition, every list of such statements, every user program, every mapped function that keeps class and metadata of containers, every trace", "why_tests_cant": "quantifies over all programs on all module graphs; a test runs one training loop", "anchors": ["nnx/module.py:ModuleDef.apply", "nnx/module.py:ModuleDef.merge", "nnx/module.py:Pure.apply", "nnx/module.py:Pure.call", "nnx/module.py:Pure.merge", "nnx/module.py:Pure.get_state", "nnx/module.py:Pure.partition", "nnx/module.py:Module.partition", "nnx/module.py:Module.update_state", "examples/01_functional_api.py:train_step", "examples/04_pure.py:train_step"]}
{"id": "C91", "title": "A saved State loads into a Module made by another run of the constructor", "statement": "Two runs of a constructor whose steps do not depend on the contents of arrays (another random key, another process, tracers under jax.eval_shape, other Modules existing already) end the same way and give Modules with equal definitions and States with the same paths, classes and metadata. So the States of a model that has been worked on since, saved whole or split by any filters, merged with the ModuleDef of another run, give a faithful copy of the saved model, with its sharing; written with update_state into the Module of another run they give it exactly the saved state, without touching any other Module. After either, every program does on the loaded Module what it does on the original.", "quantifier": "every constructor program that treats arrays opaquely, every pair of runs, worlds and traces, every later state with the same definition, every partition, every program run afterwards", "why_tests_cant": "quantifies over all constructors and all programs run after loading; a test loads one checkpoint of one model", "anchors": ["examples/08_save_load_checkpoints.py:create_and_save", "examples/08_save_load_checkpoints.py:load_model", "nnx/module.py:Module.partition", "nnx/module.py:Module.get_module_def", "nnx/module.py:ModuleDef.merge", "nnx/module.py:Module.update_state", "nnx/module.py:ModuleMeta.__call__"]}
{"id": "C92", "title": "Assigning or deleting an attribute shows in get_state exactly there", "statement": "Every reachable Module has one path under which get_state lists all its nodes; the path depends on the submodules only. After assigning something that is no Module to an attribute that holds no submodule, the entry at that path and name is what is now stored (the value itself, or the old container with the new value) if it is a node and is absent if it is static; after deleting an attribute the entry is absent. No other entry is added, lost or changed, however many paths lead to the Module. The definition is unchanged as long as neither the old nor the new value is static. An assignment is refused with TraceContextError from another trace and with ValueError for a container of another class or metadata, and only then; deleting a missing name raises AttributeError, and only that.", "quantifier": "every Module graph with sharing and cycles, every reachable Module, every name and value, every set of edits to one Module", "why_tests_cant": "quantifies over all graphs and all entries of the State; a test looks at some entries of one model", "anchors": ["nnx/module.py:Module.__setattr__", "nnx/module.py:Module._setattr", "nnx/module.py:Module.get_state", "nnx/module.py:Module.get_module_def", "nnx/containers.py:Container.replace"]}
{"id": "C93", "title": "get_state lists every Module under the first direct path to it", "statement": "Among the paths from the root to a reachable Module that meet no Module twice, compared name by name, there is exactly one first; get_state lists the nodes of the Module under that path and lists nothing else. The keys of a State are thereby determined by the graph alone, not by the order of assignments. A part of the model into which all paths go through one attribute path is listed exactly as in its own State with that path in front; so partition(All(T, lambda path, _: path.startswith(p + '/')), ...) separates exactly its nodes of type T from everything else.", "quantifier": "every Module graph with sharing and cycles, every reachable Module, every path, every private part and type", "why_tests_cant": "quantifies over all graphs and all paths, of which a cycle has infinitely many; a test shows the keys of one model", "anchors": ["nnx/module.py:_iter_state_recursive", "nnx/module.py:Module.get_state", "nnx/module.py:Module.partition", "examples/09_parameter_surgery.py:is_trainable", "nnx/helpers.py:Sequence.__init__"]}
{"id": "C94", "title": "Scanning over layers by hand", "statement": "A Module whose layers are made with jax.vmap over split keys and applied with jax.lax.scan, written from partition and merge as in examples/06: the constructor gives a Module of which slice i of the State is the State of the layer that call i of the constructor makes on its own; the call returns what applying the layers one after the other returns, each with its slice of the State and its own key, and afterwards the State is the stack of what the layers left, structure and all else unchanged. It agrees with nnx.scan over the same State. A context with a second stream, or without the stream, is a KeyError, State not selected by the filter and arrays of another length are a ValueError, and then nothing in the model has changed.", "quantifier": "every layer program, module graph, State, number of layers, context and stream position, filter and constructor", "why_tests_cant": "quantifies over all layer functions, module structures and layer counts; a test runs one MLP", "anchors": ["examples/06_scan_over_layers.py:ScanMLP", "nnx/module.py:Module.partition", "nnx/module.py:ModuleDef.merge", "nnx/module.py:Module.update_state", "nnx/contextlib.py:Context.partition", "nnx/contextlib.py:ContextDef.merge"]}
{"id": "C95", "title": "nnx.grad differentiates the loss of the model itself", "statement": "nnx.grad(f, wrt)(model) gives, for every node selected by wrt, the derivative of one function at the present values: the function that puts given values in place of the selected ones with update_state and then runs f on the model, everything else as it is. No other node takes part, the key order is that of model.filter(wrt), and the model is left as by the direct call. With stateful=False the model is unchanged. Models with equal definition and State have equal gradients, wherever they live and under whatever trace.", "quantifier": "every loss program, module graph with sharing and cycles, filter, trace, has_aux and stateful, and every operator in place of jax.grad that depends on the function only through its values at arrays", "why_tests_cant": "quantifies over all loss functions and models; a test compares the gradients of one loss with known numbers", "anchors": ["nnx/transforms.py:GradTransform.__init__", "nnx/transforms.py:GradTransform.__call__", "nnx/transforms.py:grad", "nnx/module.py:Module.update_state"]}
{"id": "C96", "title": "The training loops of the examples train the model", "statement": "Training with nnx.jit and nnx.grad (examples/02), training a PureModule with merge and partition (examples/04) and training the two States Params and buffers with modeldef.apply (examples/01) all end with the model that training it directly gives: run the model on each batch, then move every Param along the derivative of the loss at the values before the batch. After nnx.jit the model itself is changed in place, with the same sharing, and nothing outside it changes; in the other two nothing existing changes. Hence the three loops agree.", "quantifier": "every sequence of losses, module graph with sharing and cycles, derivative operator, update rule and trace; for examples 02 and 04 also every filter by path, class and metadata in place of nnx.Param", "why_tests_cant": "quantifies over all models, losses and numbers of steps; a test runs one MLP for some steps and looks at the loss", "anchors": ["examples/01_functional_api.py:train_step", "examples/02_lifted_transforms.py:train_step", "examples/04_pure.py:train_step", "nnx/transforms.py:JitTransform.__call__", "nnx/transforms.py:GradTransform.__call__", "nnx/module.py:ModuleDef.apply", "nnx/partitioning.py:buffers"]}
{"id": "C97", "title": "A training step on a TrainState trains the model", "statement": "With train_step of examples/03 the TrainState after any number of steps holds the Params and buffers of the model that training directly with the same optimizer gives, the optimizer's state and the number of steps; the TrainStates of all earlier steps and all Modules are unchanged. The loss examples/05 takes from the result of state.apply and from updates.filter(Loss) is the loss of the model itself; but since that train_step drops the result of apply_gradients, its TrainState never changes and every step reports the loss of the untrained model with the noise of step 0.", "quantifier": "every optimizer, sequence of losses, module graph with sharing and cycles, derivative operator and trace", "why_tests_cant": "quantifies over all optimizers, models and numbers of steps; the examples are not tested at all", "anchors": ["nnx/helpers.py:TrainState.apply", "nnx/helpers.py:TrainState.apply_gradients", "examples/03_train_state.py:train_step", "examples/05_vae.py:train_step", "nnx/partitioning.py:buffers"]}
{"id": "C98", "title": "Transforms inside transforms", "statement": "A function decorated with nnx.jit, nnx.remat or nnx.grad may call further decorated functions on the modules it holds, and those may do so again, to any depth: the program returns and raises what the same program without transforms does, every module held outside looks the same afterwards and shares what it would share, and a nested grad gives the derivatives of the loss as a function of the selected values. Calls that raise, and calls of transforms that are not stateful, leave every module as it was.", "quantifier": "every program built from the operations on modules and from calls under jit, remat, grad and scan, nested to any depth (scans staying scans), on every set of modules with sharing and cycles; every derivative operator, filter and trace", "why_tests_cant": "quantifies over all programs, nestings and module graphs; the tests nest nothing", "anchors": ["nnx/transforms.py:JitTransform.__call__", "nnx/transforms.py:GradTransform.__call__", "nnx/transforms.py:remat_apply", "nnx/transforms.py:remat"]}
{"id": "C99", "title": "Contexts and threads", "statement": "Several threads may use Contexts at the same time. A Context can only be used by the thread that made it: make_rng and partition from another thread raise TraceContextError and change nothing. Whatever the schedule, as long as no thread copies a Context of another thread, every call returns what it would return if the calls were made one after the other in the order in which they returned, so no two keys have the same derivation, in one thread or in two. The full claim, without the condition on copies, is false: copying a Context of another thread is not refused, the copy shares the streams, and lost updates of the counters make two threads, or one thread twice, draw the same keys.", "quantifier": "every number of threads, every program for each, every schedule at the granularity of single loads and stores of stream.count, every hash function", "why_tests_cant": "quantifies over all schedules; a race shows in few of them, and the tests use one thread", "anchors": ["nnx/contextlib.py:Context.make_rng", "nnx/contextlib.py:Context.copy", "nnx/contextlib.py:Context.partition", "nnx/contextlib.py:RngStream", "nnx/tracers.py:TraceState.is_valid", "nnx/tracers.py:current_jax_trace"]}
{"id": "C100", "title": "Snapshots while other threads write", "statement": "get_state, get_module_def and partition may be called by one thread (a checkpointer) while others go on assigning to the Module. The claim a user would like, that the result is what the Module was at one moment of the call, is false: with two assignments during the call the State may be one the Module never had, and with one structural assignment partition may return a Pure that does not merge. What holds: if the others make a single assignment during the call, get_state returns the State before or after it; if they only assign new values to attributes that hold nodes, get_state succeeds with the paths of the Module and every value is the one its path had at some moment of the call, get_module_def returns the definition, and what partition returns, with any filters, merges into a Module with the structure of the original and the values of the State.", "quantifier": "every Module graph, every number of actions of the other threads (any functions on the memory that keep its skeleton, or any single assignment), placed in any way between the reads of the traversal", "why_tests_cant": "quantifies over all interleavings; the tests are sequential, and a torn snapshot needs writes between particular reads", "anchors": ["nnx/module.py:_iter_state_recursive", "nnx/module.py:_make_module_def_recursive", "nnx/module.py:Module.get_state", "nnx/module.py:Module.get_module_def", "nnx/module.py:Module.partition", "nnx/module.py:Module._setattr"]}
{"id": "C101", "title": "Modules written by several threads", "statement": "Threads assign to attributes of Modules, call update_state on them and delete attributes. If Modules hold only Modules made by the same thread and every thread updates and deletes from only the Modules it made (it may try to assign to any), then however the threads alternate each one gets the results, exceptions included, of a program making its calls alone and leaves its Modules with the same attributes: no update is lost and none is torn. Whatever Modules refer to, as long as nobody deletes, the attributes of a Module change only while the thread that made it runs, and an assignment to a Module of another thread or of another trace level always raises TraceContextError. Deletion is not guarded, and an update of a Module that holds a Module of another thread may or may not return, depending on the schedule.", "quantifier": "every memory, every number of threads, every list of calls of each, every schedule of single steps (guard and store of an assignment, each Module read by the traversal, each entry written back)", "why_tests_cant": "quantifies over all interleavings; the tests are single threaded", "anchors": ["nnx/module.py:Module._setattr", "nnx/module.py:Module.update_state", "nnx/module.py:_update_module", "nnx/module.py:_set_value_at_path", "nnx/module.py:_iter_state_recursive", "nnx/tracers.py:TraceState.is_valid"]}
{"id": "C102", "title": "Scans of transformed functions, transforms of scans", "statement": "A function given to nnx.scan may call functions under jit, remat, grad and scan on the module it gets, to any depth: the scan returns, or raises, what the scan of the function without these transforms does, the module looks the same afterwards, and no other module changes. A function under stateful jit or under remat that scans the module it gets returns what the scan returns and leaves the module as the scan leaves it; if the scan raises, it raises the same and the module is as before the call. In programs that nest jit, remat, grad and scan in any other way the first three may be left out (C98).", "quantifier": "every module, scan options (axes, broadcast and carry filters, reversal, length, partition name), carry, inputs, array operations, and every scanned function built from module operations and nested calls of transforms", "why_tests_cant": "quantifies over all programs, nestings and module graphs; the tests have one scan of a remat", "anchors": ["nnx/transforms.py:scan_apply", "nnx/transforms.py:scan", "nnx/transforms.py:remat_apply", "nnx/transforms.py:JitTransform.__call__", "nnx/transforms.py:GradTransform.__call__"]}
{"id": "C103", "title": "Keys drawn in nested calls are never repeated", "statement": "A program makes Contexts from different keys, draws keys from them with make_rng, copies and forks them, makes new Contexts from keys it draws on the spot (or, in a function under jax.vmap, from the keys split from such a key), and passes Contexts as ctx to functions under nnx.remat and nnx.scan, which do the same with the Context they get, to any depth, and may raise at any point. Take stream names that every one of these scans selects with split_rngs. No two keys drawn from streams of these names in the whole run, in whatever call, layer or layer of a layer, are derived by folding the same data into the same key; with a collision-free hash all these keys are different.", "quantifier": "every set of contexts with unrelated root keys (streams may be shared), every program over make_rng, copy, partition+merge, context(...) with drawn keys, vmap over split keys, remat and scan nested to any depth with any scan lengths, layers that do different things, exceptions, and every hash function (a collision-free one where new Contexts are made)", "why_tests_cant": "quantifies over all programs, nestings, lengths and interleavings of draws; a test sees a handful of keys", "anchors": ["nnx/contextlib.py:Context.make_rng", "nnx/contextlib.py:Context.partition", "nnx/contextlib.py:ContextDef.merge", "nnx/transforms.py:scan_apply", "nnx/transforms.py:remat_apply", "nnx/contextlib.py:context"]}
{"id": "C104", "title": "Contexts passed through nested transforms", "statement": "A program holds Modules and Contexts, works on both, and calls functions under nnx.jit, nnx.remat, nnx.grad and nnx.scan on them, to any depth; remat and scan may be given a Context. It returns, or raises, what the program without jit, remat and grad does, in which a function given a Context gets the merge of its partition, and the Modules end up with the same state: noise or masks computed from keys drawn inside a transform are those drawn without it. A call partitions the Context it is given exactly once and changes nothing else about the Contexts of its caller, whatever the function does with its own and whether it returns or raises; calls under jit and grad change nothing about them.", "quantifier": "every program over Module operations, make_rng, context, copy, partition, merge and nested transforms, every set of Modules and Contexts, every hash function; for the state of the caller's Contexts: every function body, also one that breaks the conditions of the transforms", "why_tests_cant": "quantifies over all programs and nestings; the tests pass a Context to a single remat or scan", "anchors": ["nnx/transforms.py:remat_apply", "nnx/transforms.py:scan_apply", "nnx/contextlib.py:Context.partition", "nnx/contextlib.py:ContextDef.merge", "nnx/contextlib.py:Context.make_rng"]}
{"id": "C105", "title": "Capturing intermediate values on a Module and on its parts", "statement": "A call may store intermediate values in the Module it works on, to be taken out again with pop_state. A program that holds the Module as Pure (or as States and a ModuleDef) and works with apply, call, partition, tree_map and pop_state gives the outputs, the popped States and the errors of the program that works on the Module itself with pop_state, and ends with the parts of that Module: y = m(x); out = m.pop_state(F) is the same as y, (state, moduledef) = moduledef.apply(state)(x); out, state = state.partition(F, ...). Popping changes neither the ModuleDef nor any other value.", "quantifier": "every program of such steps, every Module, every starting partition, every filter incl. ones that are refused, every trace", "why_tests_cant": "quantifies over all programs, object graphs and filters; the tests pop once from a Module with one attribute", "anchors": ["nnx/module.py:Module.pop_state", "nnx/module.py:_pop_recursive", "nnx/module.py:Pure.pop_state", "nnx/module.py:ModuleDef.apply", "nnx/state.py:State.partition"]}
{"id": "C106", "title": "Assigning, replacing and deleting submodules", "statement": "Parameter surgery on a live model: after x.n = c for a Module c that is no part of the model, the model's State has under the name of that attribute exactly the entries of c's own State, and after del x.n (or after assigning something that is no Module) it has none there. All entries with other paths are as before, whatever the replaced submodule was, and every Module that does not contain x, as the submodule taken away, keeps its State and ModuleDef.", "quantifier": "every object graph incl. shared and cyclic ones, every Module x below the root, every attribute name and every new Module whose parts are disjoint from the model", "why_tests_cant": "quantifies over all object graphs and all places in them; the tests assign submodules only while constructing a Module", "anchors": ["nnx/module.py:Module._setattr", "nnx/module.py:Module.get_state", "nnx/module.py:_iter_state", "examples/09_parameter_surgery.py"]}
{"id": "C107", "title": "Fine-tuning a part of a model leaves the rest frozen", "statement": "After (trainable, frozen), moduledef = model.partition(wrt, ...), training on the State trainable alone, with moduledef.apply(trainable, frozen) in the loss, ends with the selected part of the model trained in place with nnx.grad(..., wrt=wrt), and frozen is still the other part. When the model is trained in place, an entry of the State that wrt does not select and that the forward passes do not write has the value it had, after any number of steps, and every entry that wrt selects moves along the derivative of the loss, in each step. Whatever the forward passes write, the loop on trainable moves the selected entries along the derivatives, leaves frozen and all existing Modules alone, and raises what a forward pass raises.", "quantifier": "every filter that looks at paths, classes and metadata, every sequence of losses, module graph with sharing and cycles, derivative operator, update rule and trace", "why_tests_cant": "quantifies over all models, filters, losses and numbers of steps; example 09 only prints the shapes of the two parts", "anchors": ["examples/09_parameter_surgery.py", "examples/01_functional_api.py:train_step", "nnx/module.py:Module.partition", "nnx/module.py:ModuleDef.apply", "nnx/transforms.py:GradTransform.__call__"]}
{"id": "C108", "title": "Training on the two States of any split of a model", "statement": "The training loop of the README, with any filters: (params, rest), moduledef = model.partition(wrt, second), then steps that take jax.grad of a loss computed with moduledef.apply(params, rest), carry updates.filter(aux) as the next rest and update params, then moduledef.merge(params, rest). If the forward pass leaves the params alone and every node is selected by exactly one of wrt and aux, the merged Module is the model trained in place with nnx.jit and nnx.grad, at every path; layers that parts of the model share are still shared, in both; and no existing Module has changed.", "quantifier": "every choice of filters (wrt by path, class and metadata), every number of steps, loss, module graph with sharing and cycles, derivative operator, update rule and trace", "why_tests_cant": "quantifies over all models, filters, losses and numbers of steps; the README trains one Linear for one step", "anchors": ["README.md", "nnx/module.py:Module.partition", "nnx/module.py:ModuleDef.apply", "nnx/module.py:ModuleDef.merge", "nnx/state.py:State.filter", "nnx/state.py:State.partition"]}
{"id": "C109", "title": "A whole network in evaluation mode", "statement": "A network put together from Linear, Conv, Dropout, BatchNorm (possibly the same one in several places), LayerNorm and entrywise functions, with Sequence and with residual sums, called with one ctx. If the context has deterministic=True and use_running_average=True and no layer has its own flag False, the call changes no BatchNorm and uses no rng key, its result does not depend on the keys, the streams or the trace, and the output for an example depends on that example alone: not on the others in the batch, its place in it or the size of the batch. In any mode a call that returns uses, of each stream, one key per Dropout that samples from it (no more if it raises), and only running statistics of the network's own BatchNorms change.", "quantifier": "every network, input, batch size, place in the batch, context, history of the streams, hash and sampler", "why_tests_cant": "quantifies over all architectures, batches and stream states; tests call single layers", "anchors": ["nnx/helpers.py:Sequence.__call__", "nnx/nn/stochastic.py:Dropout.__call__", "nnx/nn/normalization.py:BatchNorm.__call__", "nnx/nn/normalization.py:LayerNorm.__call__", "nnx/nn/linear.py:Linear.__call__", "nnx/nn/linear.py:Conv.__call__", "nnx/contextlib.py:Context.get_flag"]}
{"id": "C110", "title": "Resuming interrupted training from a checkpoint", "statement": "Training that is interrupted any number of times: each process makes the model again with the same class and constructor (other random arrays, other existing objects, another trace), loads the State that the process before saved with model.get_state() by model.update_state, goes on with the lifted training loop for as many steps as it gets to do, and saves. The State saved last is the one that training without any interruption gives. In each process the model ends, at every path and with the same sharing, as the uninterrupted one; its submodules stay in place and nothing else in that process changes. Saving only the Params loses the rest silently.", "quantifier": "every constructor, Module graph, sequence of batches, number and place of the interruptions, losses, gradient operation and optimizer, contents of the other processes", "why_tests_cant": "quantifies over every crash point and every history of the training; tests do one process", "anchors": ["nnx/module.py:Module.get_state", "nnx/module.py:Module.update_state", "nnx/module.py:ModuleMeta.__call__", "nnx/transforms.py:GradTransform.__call__", "examples/02_lifted_transforms.py:train_step"]}
{"id": "C111", "title": "Saving a TrainState with flax.serialization and resuming from the file", "statement": "Training with the TrainState of the library is interrupted after any number of steps: flax.serialization.to_state_dict(ts) is written, another process makes the model and its own TrainState again, restores the file into it and goes on. Params, optimizer state, step and buffers end as they would without the interruption, and nothing else in the second process changes. A file without one of the node fields, or with a field the object does not have, is refused and makes nothing. For every Pytree the restored object is a new one with the fields of the target, non-nodes and containers (class, metadata) of the target kept.", "quantifier": "every place of the interruption, sequence of batches, losses, optimizer, Module graph, contents of the second process; every Pytree class that is no dataclass; every flax conversion", "why_tests_cant": "quantifies over every crash point, history and optimizer state; the repository's tests serialize only small Pytrees with scalar leaves", "anchors": ["nnx/pytreelib.py:Pytree._to_flax_state_dict", "nnx/pytreelib.py:Pytree._from_flax_state_dict", "nnx/pytreelib.py:Pytree.replace", "nnx/helpers.py:TrainState.apply_gradients", "examples/03_train_state.py:train_step"]}
{"id": "C112", "title": "Going back to a State read before", "statement": "saved = model.get_state(); any code on the model; model.update_state(saved): the model is what it was, at every path and with the same sharing, whatever the code wrote and wherever it raised; what the code did to other objects stays. A training loop that keeps the State of the best epoch and loads it at the end (also when an epoch raises half way) ends with the model as it was after the first epoch that no other epoch beats, and lets the exception through.", "quantifier": "every model, program, point at which it raises, sequence of epochs, order on the scores", "why_tests_cant": "quantifies over all programs, crash points and histories of scores", "anchors": ["nnx/module.py:Module.get_state", "nnx/module.py:Module.update_state"]}
{"id": "C113", "title": "A training step that raises leaves the model as it was before the step", "statement": "If the forward pass of a batch raises, at any point and after any writes, then the training loops of examples/01, 02 and 04 (and fine-tuning a part) end with that exception; with nnx.jit and nnx.grad the model is as the steps before left it, at every path and with the same sharing, and with States no existing Module has changed. With a handler around the step, training goes on as if the batches that raised had not been there. Without the transforms, what the forward pass wrote before raising stays in the model.", "quantifier": "every model, filter, loss, derivative operator, update rule, sequence of batches, point at which a batch raises", "why_tests_cant": "quantifies over all crash points, losses and sequences of batches", "anchors": ["examples/01_functional_api.py", "examples/02_lifted_transforms.py", "examples/04_pure.py", "nnx/transforms.py:JitTransform.__call__", "nnx/transforms.py:GradTransform.__call__", "nnx/module.py:ModuleDef.apply"]}
{"id": "C114", "title": "A moving average of a model (a target network)", "statement": "After target = model.clone(), let every epoch of training be followed by target.update_state(jax.tree_map(mix, target.get_state(), model.get_state())). If the epochs only write new values into the model, then, also if one raises half way, the model is at every path what it would be without the target; every entry of the target is its first value mixed in turn with the values the model had there after the finished epochs; in classes, flags, sharing and static attributes the target still is the model that was cloned. With mix = lambda t, m: m the target reads like the model after the last finished epoch. The two never share a Module, and no other object changes. If the two no longer have the same entries, or a Variable is of another class, the update raises ValueError and changes nothing.", "quantifier": "every model, mixing function, sequence of epochs (arbitrary code on the model), point at which an epoch raises", "why_tests_cant": "quantifies over all user code, models and mixing functions; sharing between the two would show only later", "anchors": ["nnx/module.py:Module.clone", "nnx/module.py:Module.get_state", "nnx/module.py:Module.update_state", "nnx/module.py:ModuleDef.merge", "nnx/state.py:_state_flatten_with_keys", "nnx/state.py:_state_unflatten", "nnx/containers.py:NodeBase"]}
{"id": "C115", "title": "update_state by any paths; loading a State into a part of a model", "statement": "module.update_state(state) assigns, for every key, the attribute which the key names as a path from module: by any path to the Module that has it, whether get_state lists that path or not, whether the attribute exists or not, and nothing else changes (each key naming another attribute, no submodule assigned over, Variables keeping class and metadata). So module.update_state({path + '/' + k: v for k, v in state.items()}) has, for every Module and path, the same effect as part.update_state(state), and two States with the same values for the same attributes have the same effect. If a pretrained model has the same entries as a part, loading its State with the path in front gives the part exactly that State, keeps the definition of the part and changes nothing else. A key whose path does not exist is never ignored: the call raises.", "quantifier": "every model (with sharing and cycles), path, State", "why_tests_cant": "quantifies over all module graphs and all paths in them, also those around cycles; wrong handling of a second name shows only on shared Modules", "anchors": ["nnx/module.py:Module.update_state", "nnx/module.py:_update_module", "nnx/module.py:_set_value_at_path", "nnx/module.py:Module._setattr"]}
{"id": "C116", "title": "Several calls of update_state, on Modules that share parts", "statement": "A sequence of calls module.update_state(state), on any Modules - the whole, parts of it, other models that share parts with it - and by any names, in which no attribute gets two values, has the same effect in every order: every attribute that a call names has its value, all others are as before, and every Module reads the same everywhere. How the values are distributed does not matter: loading a model at once, layer by layer, or through another model that shares the layers gives the same; module.update_state((s1, ..., sn)) is the n single calls, in any order. A call that gives values of the same kinds to all attributes that an earlier call named, on whatever Module, leaves nothing of the earlier one.", "quantifier": "every module graph with sharing and cycles, every list of calls and States, every permutation of it", "why_tests_cant": "quantifies over all orders of all calls and over all ways in which Modules can share parts", "anchors": ["nnx/module.py:Module.update_state", "nnx/module.py:_update_module", "nnx/module.py:_set_value_at_path", "nnx/module.py:Module._setattr"]}
{"id": "C117", "title": "Models trained in turn do not disturb each other", "statement": "When several models that share no Module are trained in turn with the step of examples/02 (nnx.jit around nnx.grad and update_state), in any interleaving, each with its own filter, derivative and update rule, every model ends exactly as if it had been trained alone with its own losses in their order, and no other Module has changed. Two interleavings that have the same losses in the same order for every model therefore give the same. In particular for an ensemble made by model.clone(), of any size, every member ends as the model itself would have with the losses of that member.", "quantifier": "every number of models, every interleaving of their training steps, every module graph, loss, filter, derivative operator and update rule", "why_tests_cant": "quantifies over all interleavings and all models; hidden sharing between clones, or state kept between jitted calls, shows only in some orders", "anchors": ["examples/02_lifted_transforms.py:train_step", "nnx/transforms.py:JitTransform.__call__", "nnx/transforms.py:GradTransform.__call__", "nnx/module.py:Module.clone", "nnx/module.py:Module.update_state"]}
{"id": "C118", "title": "Models that share layers can be trained in turn", "statement": "When several models, which may share Modules in any way (a common encoder, tied layers, one model inside another), are trained in turn with the step of examples/02 (nnx.jit around nnx.grad and update_state), in any order and each with its own filter, derivative and update rule, then every model ends exactly as if each step had been done directly on the Modules, without transforms: the same State, the same ModuleDef, the same attributes under every path. Every path of every model leads to the same Module object as before, so that a Module shared by two models is still shared and both see the training of the other in it; no other Module has changed. If the forward pass of a step raises, the exception comes out and all models are as after the steps before; with a handler around each step, a step that raises is as if it had not been made. The forward passes must not replace submodules.", "quantifier": "every number of models, every way of sharing Modules among them, every order of training steps, every loss, filter, derivative operator and update rule", "why_tests_cant": "quantifies over all sharing patterns and all schedules; a jitted step that replaced a shared Module, or wrote into a copy, shows only when another model looks at it later", "anchors": ["examples/02_lifted_transforms.py:train_step", "nnx/transforms.py:JitTransform.__call__", "nnx/transforms.py:GradTransform.__call__", "nnx/module.py:Module.update_state", "nnx/module.py:_update_dynamic_state"]}
{"id": "C119", "title": "Scripts on several models do what they do without transforms", "statement": "A script that works on several models, which may share Modules in any way, and that mixes in any order plain code (which may create Modules, rebind submodules and change any attribute of any model), calls of jitted functions on one of the models, and training steps in the way of examples/02, does what it does without the transforms: every statement returns the same value or raises the same exception, later statements may depend on these and may put back States that earlier ones took with get_state, and at the end every model has the same State, the same ModuleDef and the same attributes under every path; two paths, of the same or of different models, lead to the same Module exactly when they do without the transforms; Modules which no model reached at the start are unchanged. A jitted call that raises has no effect and the script may go on after it. The jitted functions may write node attributes only, and the losses must not replace submodules.", "quantifier": "every number of models and every sharing among them, every script (of any length, branching on earlier results and exceptions), all jitted functions, losses, filters, derivative operators and update rules", "why_tests_cant": "quantifies over all histories of interleaved plain and transformed code and over all sharing patterns; a defect in one statement may be seen only through another model many statements later", "anchors": ["examples/02_lifted_transforms.py:train_step", "nnx/transforms.py:JitTransform.__call__", "nnx/transforms.py:GradTransform.__call__", "nnx/module.py:Module.update_state", "nnx/module.py:Module.partition", "nnx/module.py:Pure"]}
{"id": "C120", "title": "repr of a ModuleDef shows its whole structure", "statement": "repr(moduledef) returns a text in which every submodule appears under its attribute name, in full with class name, index and static fields where it first occurs and by its index afterwards, nested by indentation. Two ModuleDefs print alike exactly when they are the same tree of class names, indices, attribute names and references and their static fields print alike, so no difference in structure is hidden by the printed form; Modules with equal ModuleDefs have ModuleDefs that print alike if equal static fields do. repr leaves the indentation state as it was, wherever it is called.", "quantifier": "all ModuleDefs (any depth and width, any references), all indentations, all reprs of static fields that are one line", "why_tests_cant": "that no two different trees print alike quantifies over all pairs of trees", "anchors": ["nnx/module.py:ModuleDef.__nnx_repr__", "nnx/module.py:_SubmodulesRepr.__nnx_repr__", "nnx/reprlib.py:get_repr"]}
{"id": "C121", "title": "repr of a State shows all of it", "statement": "repr(state) returns a text with one item per entry, in the order of the paths: the path, then the value, or for a Variable its class name, metadata and value. Two States print alike exactly when they have the same paths in the same order and under each path entries of the same kind whose class names, metadata and values print alike; so if the repr of the values tells them apart, no two different States print alike. repr leaves the indentation state as it was.", "quantifier": "all States, all indentations, all reprs of values that are one line", "why_tests_cant": "quantifies over all pairs of States; an ambiguity in the printed form shows only for particular values", "anchors": ["nnx/state.py:State.__nnx_repr__", "nnx/containers.py:Container.__nnx_repr__", "nnx/reprlib.py:get_repr"]}
{"id": "C122", "title": "The printed form of a partition is a picture of the model", "statement": "repr(module.partition()) is the State and the ModuleDef one after the other, between parentheses, and leaves the indentation state as it was. Two of them print alike exactly when both parts do. Of two models, none of whose Modules is initializing, whose partitions print alike, the State, the ModuleDef and what every path reaches are the same, if the reprs of values and static fields tell them apart and classes go by their names.", "quantifier": "all pairs of models, all indentations, all reprs of values and static fields that are one line", "why_tests_cant": "quantifies over all pairs of models; that a printed form is not ambiguous cannot be seen from any number of printed forms", "anchors": ["nnx/module.py:Pure", "nnx/module.py:Module.partition", "nnx/module.py:ModuleDef.__nnx_repr__", "nnx/state.py:State.__nnx_repr__", "nnx/reprlib.py:get_repr"]}
