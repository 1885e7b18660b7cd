# Formal model of cgarciae/nnx in Rocq (Coq 8.16.1)

## 1. Approach

The Python code in /repo/nnx is transcribed, function by function, into total
Gallina functions (shallow embedding).  Exceptions are values (`result A := Ok a
| Err e`), dictionaries are insertion-ordered association lists, object
identity is a heap index, thread-local stacks and the uuid counter are fields
of an explicit `world`.  Recursive graph traversals take fuel; running out of
fuel is the Python `RecursionError` and the theorems show that it cannot
happen (or, where the code really recurses forever, that it does).

Every model definition carries a comment with the file and lines it models and
the simplifications made.  Model files (`*M.v`), specification files
(`Spec_*.v`, English-level notions that do not use the model's helpers), proof
files (`*_proofs.v`) and property files (`Prop_*.v`, only theorem statements,
non-vacuity examples and `Print Assumptions`) are separate.

## 2. Plan per property

| id | what is modelled | how it is proved |
|----|------------------|------------------|
| C01 C02 C03 C05 | heap of module objects, `_iter_state`, `_make_module_def_recursive`, `_build_module`, `_update_module`, `ModuleDef.merge` | DFS invariant (preorder index = position in visit order), build gives an isomorphic copy at fresh addresses, update fills in the nodes; then induction on attribute paths |
| C04 | `_iter_state`, `State.__init__`, `is_node` | DFS white-path argument, measure = unvisited modules |
| C06 | `ModuleDef.__eq__/__hash__` | induction on definitions; equal definitions have equal preorder numbering |
| C07 C08 | `Module.update_state`, `_update_module`, `_set_value_at_path`, `Container.replace` | frame + effect lemma per assignment, induction on the entries; C08 refuted by a witness, with the proved part: updates accepted by a checker are applied in full |
| C09 | `Module.partition`, `State.partition`, `ModuleDef.merge` | states have disjoint keys, so the merged dictionary is independent of the order up to permutation; C01 argument |
| C10 C13 C32 | `_setattr`, `TraceState.is_valid`, `make_rng`, `Context.partition` | case analysis on the guard, induction on paths; C13 refuted by a witness |
| C11 C12 C14 | `_pop`, `_pop_recursive` | induction on the acyclic graph; C12 (cycles) and C14 (paths) refuted by witnesses, with the exact path (first in order of assignment) and two cases of agreement proved |
| C15 C16 | `for_each`, `_on_all`, `init` | same DFS argument in insertion order |
| C17 | `sow` | induction on the list of sown values |
| C18 C19 | `apply`, `call`, `DelayedAccessor`, `CallableProxy` | frame lemma for programs acting on the fresh copy; C19 refuted |
| C20 | all operations above as a transition system; histories with jit, grad, remat, scan, init, apply, constructors and deepcopy nested in any way (Spec_Reach) | inductive invariant over `steps`; nested induction over `history` |
| C21-C25 | state.py, partitioning.py | induction on entries/filters |
| C26-C33 | contextlib.py over a free key algebra | inductive invariant over operation histories; pigeonhole for C31; C30 refuted |
| C34 | ids.py with lock acquire/read/write/release steps | invariant over all interleavings |
| C35 | nnx_trace, logical_axis_rules, add_indent | induction on programs of nested blocks with exceptions |
| C36 C37 | containers.py | case analysis |
| C38-C41 | pytreelib.py | case analysis / induction; C41 refuted in general, proved for the flat case |
| C42 C43 | spmd.py | list induction; C42 refuted for negative / padded indices, proved otherwise |
| C44 C45 | helpers.py | induction on the element list; size/iteration claims refuted where the code counts `_module__state` |
| C46-C48 | transforms.py jit/grad at the level of State flow (jax.jit itself is taken to run the pure function) | isomorphism of C01 + path programs |
| C49 C50 | scan_apply at State level, arrays as nested lists, lax.scan as a fold | induction on length; broadcast-write and new-broadcast claims refuted |
| C51 C52 | Pure methods | State algebra; C51 refuted |
| C53-C55 | dropout, batch norm, convolution over exact rationals | algebra; floating point is not modelled |
| C56 | `jax.jit` by its caching contract: key = treedef and abstract values, a hit runs on the old treedef with the new leaves | the library respects equality up to metadata order, and up to `==`; indices are determined by position; induction over the history |
| C57 | `Context.partition`, `PureContext.merge` | composition of the two |
| C58 | `reprlib.get_repr` with the indentation stack | induction on representable objects |
| C59 | `with_logical_constraint` | case analysis |
| C60 | `Sequence.__call__`, `has_keyword_arg` | induction on the elements, against a fold in the specification |
| C61 | `remat_apply` | as C46 |
| C62 | `LayerNorm`, `_compute_stats`, `_normalize` over exact rationals | index arithmetic, algebra of finite sums |
| C63 | `Linear`, `Embed` | algebra; Conv with a kernel of size 1 and one-hot encodings as independent references |
| C64 | constructors of the layers of nnx.nn | induction over sequences of constructor calls |
| C65 | helpers.py TrainState on the Pytree heap, arbitrary optimizer | replace theorem of C40, induction over the list of gradients, flattening lemmas of C38 |
| C66 | merge of module.py on the heap model | a heap in which the node attributes of the original are replaced by the given entries (Revalue_proofs); it has the same definition and, as state, the union; then the round-trip theorem of C01 |
| C67 | scan_init of transforms.py; the constructor is a parameter, jax.vmap by its contract | the columns are stacks (C49 lemmas); the axis name goes in and out (C31 lemmas); re-partitioning the refilled state; merge theorem of C66; contexts by C50 |
| C68 | init_wrapper of scan in transforms.py (decorated `__init__`); `__init__` is a parameter | C67 for the stacked module; C07 for the final update_state, which needs equal metadata; refusal of unequal metadata by induction over the assignments |
| C69 | Module.__nnx_repr__ with the global SEEN_MODULES_REPR on top of get_repr; accesses to the global are single steps, threads interleave; generators suspended by an exception are closed when the traceback is dropped | induction on fuel bounded by the modules not printed yet; relation between the description and the sequence of mentions; histories; concrete schedules refute the thread part |
| C70 | class Scan: `__init__` (ScanClassM on top of ScanInitM) and `__call__`/`call` (scan_apply) | a relation between the Scan object and n modules in heaps of their own, established by the constructor and preserved by calls; induction over the sequence of calls |
| C71 | arguments, static names and results of `jit` (JitArgsM): leaves of argument trees, hashability, the fork of a context given as `ctx` | characterise the leaves by an inductive relation; with all checks passed the call equals `jit_call` (C46); refusals by case analysis of the checks |
| C72 | `mutable_state_dict`, `MutableLeaf` (ModuleM) | the dict is the list of items of the traversal with owner and name; a leaf write equals the update loop, whose other writes are identities; histories by induction with the leaves unchanged |
| C73 | `get_partition_spec` (SpmdM) | `spec_of` as an inductive relation, functional; induction over the state; the effect of `add_axis` per entry |
| C74 | arguments of `remat`, `RematOptions`, class `Remat` (RematArgsM) | positions by arithmetic mod n+2 against "from the front or from the end"; with the checks passed the call equals the jit call of C46 with a context; refusals by cases |
| C75 | histories of calls over C46, C48, C71, C74 (Spec_Mixed: `do_steps` against the relation `plainly`) | simulation: the heap of the program with transforms stays bisimilar to the heap of the direct one; every step preserves the bisimulation |
| C76 | arguments and results of `grad` (GradArgsM: the leaves selected by `wrt`, the loss, the auxiliary value) | the program in the copy and in the original related by `inner_run`; checks shown equal to inductive relations |
| C77 | decorated objects with their `__dict__` and `functools.wraps` (DecorM), parametric in what a single transform does | induction on the stack: which entries of `__dict__` travel upwards |
| C78 | metadata, initializers, reads through unbox_fn and trees of specs (LogicalM) | the options are found in the metadata after each step; layouts through C43; induction on the tree |
| C79 | jax's promotion lattice, canonicalize_dtype, promote_dtype and the types of each layer's steps (DtypeM) | join is the least upper bound of the documented arrows (finite check over the 22 nodes, used for lists of any length); induction on the argument list and on the history of calls |
| C80 | field functions, class definition, argument binding, the generated `__init__`, container functions (DataclassM) | induction on the parameters, then on the fields with an invariant of the world in which the object is being made |
| C81 | `copy.copy` and `copy.deepcopy` on Modules: reconstruction from `__dict__`, memo, `UUID.__deepcopy__` (CopyM) | invariant on the memo (partial isomorphism) by induction on the fuel, which the memo bounds; then bisimilarity of copy and original |
| C82 | `tree_map_upto_left`, in_axes and out_axes as trees of ints over pytrees of tuples, lists and dicts (ScanTreeM), on the scan of C49 made polymorphic in argument and result | specification by paths to leaves; mutual induction on the prefix relation; then the C49 proof with the cut and the join as parameters |
| C83 | `_compute_stats` with an axis name, BatchNorm and LayerNorm as one program on a list of devices that meet in `pmean` (PNormM) | the average of averages over equal shapes is the average of all entries; the variance identity over pairs of device and index; induction on the history; row-major order of a batch cut along axis 0 |
| C84 | calls of a jitted function in a program, with a compile cache that keeps, per entry, the world in which the function was traced (JitLoopM over TransformM, JitCacheM) | simulation up to the order of metadata between the world of the trace and the current world (congruence lemmas for every module operation), bisimulation with the direct call, induction on the program |
| C85 | build, merge and get_module_def on arbitrary definitions (ModuleM); a definition is read as a sequence of tokens (Spec_AnyDef) | induction on definitions with an invariant on the index table; the relational traversal of Dfs_proofs for the way back |
| C86 | `State.__getitem__/__iter__/__len__` and what `collections.abc.Mapping` derives from them (StateMapM) | stability of the sort per key; dict equality by length and lookups |
| C87 | `==` and `hash` of values, containers, States, UUIDs, ModuleDefs (HashM), hashes of plain values as parameters; a hash table as a list of entries | induction on values and definitions; the table by induction on its entries |
| C88 | jax's main traces with levels and the dynamic trace, `get_top_trace`, `TraceState.is_valid`, the guard in `Module.__setattr__`, programs of assignments, reads, operations, try and nested transforms (TracersM) | invariant of the program semantics: every Module made at a trace still on the stack holds only leaves of main traces still there |
| C89 | containers as cells with addresses; module.py and state.py once more over references (AliasM), and programs that run on either representation | simulation between references and ModuleM's values for programs without field writes; an invariant (each node container in at most one attribute, ModuleDefs hold no node container) kept by every statement; the exact effect of a write |
| C90 | statements apply, call, partition and tree_map on a Pure, interpreted with the model's mdef_apply, pure_call, pure_partition; the same statements interpreted on the Module (Spec_Functional) | invariant: the Pure has the definition and the merged state of the Module; a merge of such parts is bisimilar to the Module, and programs cannot tell bisimilar modules apart (C44's run_pair) |
| C91 | constructors as programs run on a new Module (`construct`); two programs in step on alike values (`same_steps`, Spec_Checkpoint) | relation of worlds that differ in node values only, kept by every operation; definitions do not see node values; bisimulation to move both runs to an empty world |
| C92 | edits of the attributes of one Module (`edited`, `stored_for`, Spec_Assign); assignment and deletion are such edits | the traversal visits the same Modules on the same paths before and after; each visited Module lists its nodes under one path |
| C93 | paths that meet no Module twice, compared name by name (`first_path`, Spec_Path); parts entered on one path only (`private_part`) | the traversal with a set of blocked Modules visits exactly what can be reached around them, each on the first simple walk; loop erasure |
| C94 | HandScanM: the constructor and the call of examples/06 over the modelled partition, merge, update_state and context; `in_turn` (Spec_HandScan) is the python loop over the layers | steps by the transfer of a program between worlds (call_transfer, C49); the constructor equals `scan_init` with one axis filter; uniqueness of the stacked State gives agreement with `scan_apply` |
| C95 | GradFunM: the function given to `jax.grad` and the call with an arbitrary derivative operator; `loss_with` (Spec_GradFun) is the loss after `update_state` | at every admissible point, merging the parts and running gives what running the updated model gives (run_parts); then C16's frame |
| C96 | TrainLoopM: the loops of examples/01, 02 and 04; `trained` (Spec_TrainLoop) is training on the model itself | modules with equal parts stay so through a step (`like`), on top of C95 and the functional programs of C49 |
| C97 | TsLoopM: the steps of examples/03 and 05 on TrainM; `optimized` (Spec_TsLoop) is training on the model itself with an optimizer | one step is C65's update with the derivatives of C95; new Params in place (`assign_params`) |
| C98 | NestM: programs whose calls under jit, remat, grad and scan have programs as bodies (with Contexts: C104); `plain` (Spec_Nest) runs the bodies on the modules themselves | induction on the program; each level gives a bisimulation between the two heaps that contains the one outside (`nest_pair`), composed from entering (merge), the body, and leaving (write-back) |
| C99 | ThreadsM: threads calling the API of contextlib.py; stream.count is loaded twice and stored, with switches in between; the traces of thread t are (t, n) since jax keeps main traces per thread | every stream has an owner thread; invariant relating the interleaved state to the calls one after the other in the order of their returns (`inv`), thread by thread and program point by program point; concrete schedules, for every n, refute the claim for foreign copies |
| C100 | SnapshotM: the traversals of module.py:771-834 with arbitrary actions of other threads between their reads of shared memory (one object's attributes at a time) | values: lists whose entries come from different moments (`mixed`), kept by concatenation, sorting and dict updates, induction on the traversal; one assignment: if the written module has been visited the rest of the traversal is the same before and after, if not the part done is (`passed`, `ahead`); merge through C66 |
| C101 | WritersM: threads whose assignments, update_state calls and deletions are cut into single steps (guard and read, store, one Module of the traversal, one entry written back) | noninterference: a step of a thread depends on and changes only Modules it made (`step_agree`, `step_fine`), so any schedule gives each thread its solo run (`undisturbed`); the solo run reaches what the sequential setattr, update_state and delattr of ModuleM give (`alone`); the guard by an invariant on what was checked before a store |
| C102 | NestM with scans: the body of a scan is a program for each carry and slice; the calls a scan makes are spelled out in Spec_ScanCalls | a scan of two functions that behave alike on bisimilar modules behaves alike: the modules merged in a step are bisimilar (`build_pair`), so are they after the call, and what is split off is equal (`fn_both`, `steps_both`, `run_both`, `apply_both`); this is one more case of `nest_pair` |
| C103 | RngNestM: programs that draw keys, make Contexts from drawn keys and pass Contexts to nested remats and scans, over ContextM's make_rng, partition and merge and ScanM's step_keys; draws are remembered with the key and path they used | every stream owns a region of (key, path) pairs: keys split from its key, paths that go on from its count; a draw or fork takes a slot out of the region, layers get disjoint parts of the slot; regions stay disjoint from each other and from what was drawn (`inv`, `krun_ok`); a pair whose key was folded from another pair lies under it (`under`), so a Context made from a drawn key owns what lies under the draw |
| C104 | NestM with Contexts: a program holds a frame of Contexts and streams (ContextM.cworld), a body gets the frame made from the keys passed to it (`frame_of`) | the frames on both sides of `nest_pair` are equal up to traces (`same_cw`), which every operation and every fork keeps (`crun_same`, `frame_of_same`); what a call leaves of the frame is read off remat_args and scan_apply for any body |
| C105 | Spec_Capture: the programs of C90 with pop_state steps, `pure_pop_state` on the parts and `pop_state` on the module | the invariant `holds` of C90 is kept by a pop (`capture_step`): worlds that differ in node attributes only have the same definition and paths (Section Thin), the state left is the rest of the partition (`pop_both`, from C11 and C93) |
| C106 | Spec_Surgery: two worlds that differ in one attribute of one Module; `only_through`, `apart` | paths that do not use the attribute are the same in both worlds (`follow_avoid`); the first path to a Module behind the attribute is the first path to its holder, the name, and the first path from the submodule (`behind_iff`); then C93 in both worlds and in the new submodule |
| C107 | FineTuneM: the step of examples/01 on the part that examples/09 selects; Spec_FineTune: forward passes that leave the State, or one entry of it, alone | one step in place acts on the selected entries only (`step_state`, `over_chosen`), the step on the parts does the same (`tune_step_ok`); induction on the losses; C96_lifted. For forward passes that write (`stepped`): the step on the parts is the update of the model before the forward pass (`step_alone`, with `adopt`) |
| C108 | SplitLoopM: the step of README.md:75-93 with any filters; `split_by` (Spec_SplitLoop) is what it asks of a forward pass | a second filter for which partition succeeds takes all the rest (`second_is_rest`); one step on the States is one step in place (`aux_step_ok`, with `step_state` of C107); induction on the losses; merging gives the trained model (`parts_like`) |
| C109 | NetM: networks of the layers of NnM and LinearM, with Sequence and sums, one context; `eval_mode`, `net_ok`, `same_example`, `draws` (Spec_Net) | induction on the network; per layer: C63 (Linear), `sliced_core` of C55 (Conv), C54 (BatchNorm), C62 with the rows of one example (`row_batch`, LayerNorm) |
| C110 | ResumeM: a list of processes, each load / lifted_loop / save; `made_again` (Spec_Resume) with the `same_steps` of C91 and the `trained` of C96 | induction on the processes; the loaded model is `like` the interrupted one (C91's pairs of constructions + update_state), then `lifted_loop_ok` of C96 |
| C111 | TsSaveM: `save`, `restore` (pytreelib.py:191-231) on the heap of PytreeM, `reload` as user code; flax's conversion of values is a parameter | induction on the fields; the restored object is a `ts_obj` with the values of the interrupted run, then `ts_loop_ok` of C97 |
| C112 | EarlyM: user code on `get_state`/`update_state` (`tried`, `fit`); `history`, `first_best` (Spec_Early) over programs that may raise anywhere | induction on the history; going back is the `load` of C110, or, if attributes were added (`adding`, `reads_back`), `update_restores` on the items of both graphs; for any attributes but submodules `update_undoes` (the keys of both States are the first paths of C93) |
| C113 | the loops of TrainLoopM and FineTuneM, and SkipM (a handler around the step); `trained_but` (Spec_Skip) | a step whose loss raises changes nothing that existed (`body_raises`), induction on the batches |
| C114 | TargetM (user code on `clone`, `get_state`, `update_state`); `averaged`, `reads_like`, `separate` (Spec_Target) | two Modules with equal parts are bisimilar (`like_bisim`), so epochs run next to the target do what they do alone (`run_like`); an invariant relates model, target and the run without target; induction on the epochs |
| C115 | `update_state` of ModuleM; `named`, `stored`, `assigned`, `below` (Spec_Address) | the merged dict is the listed keys with their new values, then the keys that are not listed (`dupdate_split`); two runs of the assignment lemma, the second on slots the first left alone; worlds with equal attributes are bisimilar |
| C116 | `update_state` of ModuleM; `update_all`, `ready`, `gives`, `disjoint` (Spec_Order) | after a call the other calls can be made as before (`ready_disjoint`); by induction every attribute has the value of the one call that names it (`all_calls`), which no order changes; worlds with equal attributes are bisimilar; assigning twice is assigning the last (`assign_twice`) |
| C117 | EnsembleM: the step of examples/02 for one of several models, `clones`; `share_nothing`, `own_losses` (Spec_Ensemble) | a step of one model is the step of the model trained alone (`lifted_step_ok` of C96) and leaves what the others reach (`frame_like`); induction on the schedule; clones have the parts of the model and fresh objects (`clones_like`) |
| C118 | EnsembleM (as for C117, and `skip_in_turn`); `directly`, `directly_but` (Spec_Shared): the same steps on the Modules themselves | a step of one model is the step done directly (`lifted_step_ok` of C96); both change only what that model reaches (`run_frame`, from the simulation `run_pair`) and keep all paths; where another model meets it the objects agree, elsewhere they are unchanged in both (`carry`); induction on the schedule |
| C119 | ManyM `do_statement`, `do_script` (statements hand values and States to later ones); `simply` (Spec_Many): the same script without transforms | one relation between the Modules of the two runs, kept by every statement: plain code by the simulation `run_pair`, a jitted call by `jit_pair`, one that raises by `jit_undone`, a training step by `step_apart` of C118; it is one-to-one and relates every model to itself, hence equal State, ModuleDef, attributes and sharing; induction on the script |
| C120 | DefReprM `def_val`, `def_repr` on the `get_repr` of TlsM; `def_text`, `reads_same` (Spec_DefRepr) | the text by induction on the tree, from `repr_val_render` of C58; that it determines the tree: the text followed by a closing bracket is a prefix code (`text_coded`), by induction on the tree and its list of submodules |
| C121 | StateReprM `state_obj`, `state_repr` on the `get_repr` of TlsM; `state_text`, `shows_same` (Spec_StateRepr) | as C120: the text from the rendering of C58; that it determines the entries by reading line by line, where what follows an entry tells whether its line ends with a comma (`entry_coded`, `entries_coded`) |
| C122 | PureReprM `pure_repr` on StateReprM and DefReprM; `telling` (Spec_PureRepr), `look` (Spec_Module) | the State's text ends where its braces close, so the text splits in one way (`state_coded`); then C121_faithful, `reads_eq` by induction on the ModuleDef, and that State and ModuleDef determine the attributes (`like_look`) |

## 3. Trusted base

* Coq 8.16.1: kernel, `coqc`, and its standard library.  `vm_compute` is used in
  examples.
* Axioms: none are used.  Every `Print Assumptions` in the `Prop_*.v` files prints
  "Closed under the global context".  (The audit tool lists seven constants of
  `Coq.ssr.ssrunder.Under_rel`, which are opaque parameters of a module type of the
  ssreflect library that gets loaded; no theorem depends on them.)
* No functors, module types, `Variable`/`Hypothesis` outside sections, `Admitted` or
  plugins.
* The transcription from Python to Gallina.  It was done by hand; each definition cites
  the lines it models.  The seeded bugs in `seeded/LOG.jsonl` show which theorems
  notice a wrong transcription.
* The contracts of the libraries below, which are assumed and not verified.

### Contracts of libraries (assumed)

| library function | what the model takes it to be |
|---|---|
| python dict, list, str, `sorted`, `isinstance` | insertion-ordered association lists; byte-wise string order; classes are name lists (the MRO) |
| `jax.jit(f)`, `jax.checkpoint(f)` | a function with the results of `f`, run under another trace; the compile cache is modelled separately (JitCacheM, C56) |
| `jax.core.find_top_trace`, `new_main`, `new_base_main` (jax 0.4.13) | a stack of main traces with levels; the tracer of the highest level among the arguments and the dynamic trace; jit and scan start a dynamic trace, vmap and grad only a main trace |
| `jax.grad` | returns a tree of the structure of its argument with arbitrary leaves |
| `jax.lax.scan` | the loop, forwards or in reverse; carry structure checked, shapes not |
| `treedef.flatten_up_to`, `unflatten`, `tree_map` | on pytrees of tuples, lists and dicts; None as a prefix of everything (jax 0.4.13) or of None only (since 0.4.34), both covered |
| `jax.random.fold_in`, `split`, `key` | constructors of a free algebra of keys (so: no accidental collisions) |
| `hashlib.blake2s` | an arbitrary function (injective where a theorem says so) truncated as in the code |
| `jax.random.bernoulli` | an arbitrary function of key, probability, shape and index |
| `jax.tree_util` | depth-first flattening with the registered functions |
| `flax.serialization` | documented behaviour on dicts and registered classes |
| `jnp.mean`, `reshape`, `pad`, `dot_general`, `conv_general_dilated`, `take` | their mathematical definition on exact rationals |
| `lax.pmean`, `jnp.concatenate`, `jnp.split` | sum over the devices of the group divided by the size of the first group; along axis 0 |
| `jax.tree_map`/`with_sharding_constraint` | not interpreted: the model returns which constraint is asked for |

## 4. What is modelled

| file in /repo/nnx | model | not modelled |
|---|---|---|
| state.py | StateM, StateReprM | sharding |
| partitioning.py | FiltersM | |
| containers.py, nodes.py | ValuesM, PtreeM, LogicalM; repr in ModReprM, StateReprM | subclasses that override `__init__` |
| module.py | ModuleM, PureM, AliasM, SnapshotM and WritersM (threads); user code on it: ResumeM, EarlyM, SkipM, TargetM, EnsembleM, ManyM; repr of a ModuleDef: DefReprM | `__init_subclass__`, `ApplyCaller` typing, abstract init through `eval_shape` (the program run inside is modelled) |
| contextlib.py | ContextM, ThreadsM (threads) | |
| ids.py | IdsM (interleavings of lock steps) | python's GIL and memory model beyond atomic steps |
| tracers.py, reprlib.py | TlsM, TracersM, ModReprM | jax's own trace objects (a trace is a number; in TracersM a main trace with its level) |
| spmd.py | SpmdM, LogicalM | mesh and device placement |
| pytreelib.py | PytreeM, PtreeM, TsSaveM | `__post_init__`, field defaults |
| dataclasses.py | DataclassM (for Modules); the container functions of fields (PytreeM `cfn`) for Pytrees | `frozen`, `InitVar`, `kw_only`, generated `__eq__`/`__hash__` |
| helpers.py | HelpersM, TrainM | attribute access through `__getattr__` of methods of TrainState |
| transforms.py | TransformM, JitArgsM, RematArgsM, GradArgsM, DecorM, ScanM, ScanTreeM, ScanInitM, ScanClassM, JitCacheM, JitLoopM, GradFunM, NestM, RngNestM | `JitMeta`/`ScanMeta` argument plumbing, `remat(is_init=True)` (returns its argument), `unroll`, `data_transform` |
| nn/stochastic.py, nn/normalization.py, nn/linear.py, nn/dtypes.py | NnM, LinearM, PNormM, NetM (whole networks) over TensorM; DtypeM (element types, apart from the values) | floating point; float8, int4 and key types; `precision` |
| nn/activations.py, nn/initializers.py | not modelled | re-exports of jax functions |
| examples/01_functional_api.py, 02_lifted_transforms.py, 03_train_state.py, 04_pure.py, 05_vae.py, 06_scan_over_layers.py, 09_parameter_surgery.py, README.md (outside nnx/) | TrainLoopM; TsLoopM; HandScanM; the filter of 09 in Prop_Path, training the part it selects in FineTuneM; the loop of README.md in SplitLoopM | losses and layers are any program; data and plotting are not modelled; 07_transformer.py is left out, it cannot run (`x` in its line 225 is not defined and `self` is assigned to in lines 190 and 211) |

General simplifications: `==` on python values is structural but for
`True == 1` and `False == 0` (Spec_Eq; floats are not values of the model); strings
are byte strings; objects other than Modules, containers and Pytrees are immutable
tokens; recursion depth is unbounded (a traversal that does not end is shown not to
end for any fuel); names of attributes contain no `/` where a theorem says so.

## 5. Claims that are false of the code

Each is a theorem `..._refuted` about the faithful model, next to the part that does hold.

| theorem | what happens |
|---|---|
| C08_all_or_nothing_refuted | a failing `update_state` leaves the earlier entries written |
| C12 (pop on cycles) | `pop_state` never returns when a cycle is reachable |
| C13 | `pop_state` deletes attributes of modules of another trace level |
| C14 | `get_state` and `pop_state` name a shared node by different paths |
| C16_detached_keeps_flag_refuted | a submodule detached during `init` keeps `is_initializing` |
| C19_only_last_access | `m.call.a.b(...)` accesses `b` on the root |
| C25 | a number as filter raises ValueError instead of TypeError |
| C30_same_seed_refuted | two streams with the same seed give the same keys |
| C31_no_collision_refuted | the 32-bit hash must collide |
| C37_static_metadata_refuted | a Static can be built with metadata it cannot be copied with |
| C39_delete_refuted, C39_copy_in_init_refuted | `del` on a frozen Pytree works; a copy made in `__init__` stays mutable |
| C40_dataclass_container_refuted | `replace` of a dataclass Pytree loses containers |
| C41_boxed_pytree_refuted | a Pytree inside a container is restored as a dict |
| C42_*_refuted | add_axis/remove_axis are not inverse for negative and padded indices |
| C44_*_refuted, C45_*_refuted | empty Sequence, negative index, Dict length and missing keys |
| C47_deletion_refuted, C61_deletion_refuted | deletions inside jit/remat are lost |
| C49 (broadcast and reverse) | broadcast writes lost; reverse with new carry runs layers in the wrong order |
| C51 | `Pure.update_state` keeps the old values |
| C53_rate_zero_refuted, C53_one_key_refuted | Dropout(0) without a flag raises; rate 1 uses no key |
| C54_atomic_refuted, C54_shape_refuted, C54_axis_refuted | BatchNorm statistics overwritten by a failing call, broadcast to another size, out-of-range axis accepted |
| C55_pair_refuted, C55_list_pair_refuted, C55_input_dilation_refuted | padding argument checks |
| C56_lookalike_refuted | static attributes `True` and `1` are equal, so jit's cache confuses modules that differ in them |
| C56_nested_phase_refuted | a submodule's `is_initializing` is not part of the jit cache key |
| C58_in_tuple_refuted | representables in tuples are indented twice |
| C68_same_as_constructor_refuted, C68_sharded_init_raises | `nnx.scan` on `__init__` with a partition name and sharded parameters always raises ValueError; `nnx.Scan` of the class works |
| C72_slash_in_name_refuted | a node attribute whose name contains "/" makes `mutable_state_dict` raise KeyError |
| C72_sharding_refuted | `MutableLeaf.sharding` reads `attr.metadata`, an attribute no container has: AttributeError for every Variable |
| C77_stateful_refuted, C77_gradients_refuted | `functools.wraps` copies `__dict__`: `nnx.jit(nnx.grad(f), stateful=False)` updates the module, `nnx.jit(nnx.grad(nnx.jit(f)))` returns the loss instead of the gradients, `nnx.grad(nnx.grad(f))` is `nnx.grad(f)`, `nnx.jit(nnx.scan(nnx.jit(f)))` does not scan |
| C78_recreated_refuted, C78_update_state_refuted, C78_keyword_refuted | `unbox_fn` is a new function per call of `with_logical_partitioning`, so variables of two instances built by the same code are not equivalent: `update_state` from one to the other is a ValueError; the wrapped initializer takes no keyword arguments |
| C79_statistics_refuted, C79_dropout_refuted | a training call on a complex64 (or float64) batch changes the type of BatchNorm's running mean; Dropout returns integer inputs unchanged when off and raises TypeError in training |
| C80_default_refuted | `param_field(default=1, init=False)` makes a class whose constructor always raises KeyError |
| C81_deepcopy_usable_refuted | a deep copy can never be assigned or updated: it carries copies of jax's main traces, compared by `is` |
| C81_copy_refuted | a module holding `m` and a changed `copy.copy(m)`: get_state lists one, clone merges them (same id) |
| C82_broadcast_refuted, C82_output_refuted | in_axes=(0, None) does not broadcast: the layers get None (or ValueError, depending on the jax version); out_axes=(0, None) drops the result |
| C83_vector_refuted | LayerNorm with an axis name raises ValueError on vectors (`jnp.concatenate` of two scalars) |
| C84_hidden_refuted | a jitted function that reads a parameter of a module kept in a tuple returns the value of the first call after the parameter has changed |
| C85_equal_refuted | two equal hand-made ModuleDefs, one of which merges while the other raises KeyError |
| C87_changed_static_refuted | `Static.value` can be assigned to; the object is then lost in a dict that has it as a key |
| C88_vmap_refuted | jax.vmap and jax.grad do not change the dynamic trace, so the guard lets a Module from outside take their tracers |
| C88_nested_grad_refuted | nnx.grad of a Module with nothing to differentiate, inside nnx.grad: the innermost tracer among its arguments is none, so nnx's current trace becomes the outermost one again and outer Modules can be assigned to |
| C89_snapshot_refuted | `s['w'].value = 2` changes the container object, so every State that lists it, and the Module, change with it |
| C89_guard_refuted | the trace guard is in `Module.__setattr__`; assigning to a field of one of the Module's containers is not guarded |
| C89_static_refuted | Static containers travel in the ModuleDef as objects: a Module and its merges share them, and a write to one shows in all |
| C90_keep_refuted | a static attribute or submodule written by a call is in the new ModuleDef only; `y, (states, _) = moduledef.apply(*states)(x)` drops it |
| C90_raise_refuted | an exception in the middle of a call leaves the Module half written; the Pure is as before |
| C91_branch_refuted | a constructor that branches on an array makes Modules of different shape: the saved State does not fit, `merge` raises KeyError |
| C91_static_refuted | an array in a Static container is in the ModuleDef: loading silently gives the array of the run that made the definition |
| C92_submodule_refuted | `m.a = m.out` makes get_state list the submodule under "a/…": the entries "out/…" are gone |
| C92_delete_unguarded_refuted | `del m.w` works on a Module of another trace, where `m.w = v` raises TraceContextError |
| C93_shortest_refuted | after `m.z = m.a.b` the Module is still listed under "a/b" |
| C93_sequence_refuted | a layer at positions 2 and 10 of a Sequence is listed under "10/…" |
| C93_example_filter_refuted | `path.startswith("backbone")` in examples/09 selects the backbone instead of the rest, and `backbone_scale` with it |
| C96_functional_variables_refuted | with examples/01 a model that has a BatchStat fails in the second step: `updates.filter(nnx.buffers)` drops it |
| C96_functional_params_refuted | with examples/01 what the forward pass writes into a Param is lost |
| C97_vae_refuted | examples/05 never trains: `state.apply_gradients(grads=grads)` returns a new TrainState, which is dropped; every step reports the loss of the untrained model |
| C99_late_store_refuted, C99_copied_refuted | `context.copy()` from another thread is not refused and gives a usable Context with the same streams; the unprotected `count += 1` then loses updates: two threads draw the same key, and a late store makes a thread draw n keys again |
| C100_never_refuted, C100_structure_refuted | `get_state` takes no lock: with two assignments of another thread during the call it may return a State that never existed (old `w`, new `inp/w`); a submodule assigned between the definition and the state makes `partition` return a Pure that `merge` rejects |
| C101_delete_refuted, C101_shared_refuted | Module overrides `__setattr__` but not `__delattr__`, so another thread may delete attributes; if a Module holds a Module of another thread, `update_state` on it returns or raises TraceContextError depending on whether the other thread has stored a node there |
| C105_ellipsis_refuted, C105_shared_refuted, C105_collection_name_refuted | `Pure.pop_state(...)` always raises ValueError (`...` is appended to the filters it is given) while `Module.pop_state(...)` pops everything; on shared Modules the two return the same values under other keys; `state.partition("intermediates", ...)` as in the README raises TypeError |
| C106_shared_refuted, C106_over_variable_refuted | Deleting one of two names of a submodule does not only remove entries: those of the submodule reappear under the other name. `m.scale = head` where `m.scale` is a Variable does not make `head` a submodule: it becomes the value of the Variable (module.py:458-468) and its parameters are in no State |
| C107_writes_refuted, C107_shared_refuted | Training on the State that `partition(is_trainable, ...)` gives loses what the forward passes write (counters, running means): the frozen State stays the one of the start. A filter that freezes `backbone/...` does not freeze a backbone that the model also holds as `aux`: its path is `aux/...` |
| C111_resume_refuted | `from_state_dict(ts, to_state_dict(ts))` puts the dict flax makes of a tuple into `opt_state`: the target it passes to flax is the container, not its value. No error is raised until the optimizer gets it |
| C112_added_refuted, C112_static_refuted, C112_replaced_refuted | `model.update_state(saved)` does not bring the model back if an attribute was added, a static attribute changed or a submodule replaced since; nothing is raised |
| C122_initializing_refuted | a Pure prints alike whether its Module is initializing or not |
| C121_str_refuted, C121_lines_refuted | a State with the str `None` as an entry prints like one with None there; a value whose repr has several lines can look like several entries |
| C120_equal_refuted, C120_class_refuted | printing alike and == differ both ways: == ignores the index, repr shows only the name of the class |
| C119_delete_refuted | a jitted function that deletes an attribute: directly it is gone, under nnx.jit it is still there |
| C118_rebound_refuted | a forward pass that replaces a shared layer by an equal new one ends the sharing when done directly, but not under nnx.jit, which writes the values into the old layer |
| C117_shared_refuted | models that share a layer are not independent in training (as expected; it shows that the condition of C117 is needed) |
| C116_kinds_refuted | `update_state((s1, s2))` is not `update_state(s1); update_state(s2)` when `s1` makes an attribute a Variable and `s2` gives it an array: the array goes into the Variable only in the second case |
| C115_order_refuted | if two keys of a State name one attribute, the one that `get_state` lists is assigned first, also if it is the later one |
| C112_kind_refuted | `model.update_state(saved)` raises if a Variable was replaced by one of another class |
| C74_range_refuted | `nnx.remat(f, static_argnums=-n-1)` (or `-n-2`) with n arguments is accepted although there is no such argument |
| C71_context_refuted | `nnx.jit(f)(m, ..., ctx=context)` always raises, and has already advanced the streams of the context |
| C69_kept_traceback_refuted, C69_threads_refuted | the set of printed modules is one global cleared in a `finally` of a generator: it survives while the traceback of a failed repr is kept, and threads share it (dots for unprinted modules, or AttributeError) |
