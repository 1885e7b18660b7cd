{
 "claims": [
  {
   "property": "C01",
   "status": "proved",
   "theorems": [
    "C01_round_trip",
    "C01_partition_merge",
    "C01_slash_in_name_refuted"
   ],
   "note": "Names containing '/' or starting with the reserved prefix excluded; C01_slash_in_name_refuted shows the condition is needed."
  },
  {
   "property": "C02",
   "status": "proved",
   "theorems": [
    "C02_sharing"
   ],
   "note": ""
  },
  {
   "property": "C03",
   "status": "proved",
   "theorems": [
    "C03_fresh",
    "C03_isolated"
   ],
   "note": ""
  },
  {
   "property": "C04",
   "status": "proved",
   "theorems": [
    "C04_get_state",
    "C04_terminates"
   ],
   "note": ""
  },
  {
   "property": "C05",
   "status": "proved",
   "theorems": [
    "C05_idempotent",
    "C05_repeatable"
   ],
   "note": ""
  },
  {
   "property": "C06",
   "status": "proved",
   "theorems": [
    "C06_equality",
    "C06_equivalence",
    "C06_hash"
   ],
   "note": "module_state is not part of ==; see C56."
  },
  {
   "property": "C07",
   "status": "proved",
   "theorems": [
    "C07_update_state",
    "C07_other_class",
    "C07_refused"
   ],
   "note": "Covers State, tuple of States, Pure and Module updates."
  },
  {
   "property": "C08",
   "status": "partial",
   "theorems": [
    "C08_all_or_nothing_refuted",
    "C08_any_outcome_partial",
    "C08_prefix_partial"
   ],
   "note": "False of the code: a failing entry leaves the earlier ones written (C08_all_or_nothing_refuted). Proved: what any outcome, including a failure half way, preserves, and that exactly a prefix of the writes is applied."
  },
  {
   "property": "C09",
   "status": "proved",
   "theorems": [
    "C09_partition_any_order"
   ],
   "note": ""
  },
  {
   "property": "C10",
   "status": "proved",
   "theorems": [
    "C10_dict_setitem",
    "C10_setattr",
    "C10_mutable_leaf",
    "C10_sow",
    "C10_update_state",
    "C10_update_state_foreign_untouched"
   ],
   "note": "Dict.__setitem__ is in Prop_Helpers."
  },
  {
   "property": "C11",
   "status": "proved",
   "theorems": [
    "C11_pop_state",
    "C11_none_left",
    "C11_refused"
   ],
   "note": ""
  },
  {
   "property": "C12",
   "status": "partial",
   "theorems": [
    "C12_pop_state_cyclic_refuted",
    "C12_pop_state_returns_only_if_acyclic",
    "C12_returns_iff_acyclic"
   ],
   "note": "False of the code: pop_state never returns when a cycle is reachable (refuted for every recursion limit, for every such module). Proved: it returns exactly when no cycle is reachable (C12_returns_iff_acyclic)."
  },
  {
   "property": "C13",
   "status": "partial",
   "theorems": [
    "C13_pop_state_guard_refuted",
    "C13_trace_is_ignored_partial"
   ],
   "note": "False of the code: pop_state deletes attributes of modules from another trace level. C13_trace_is_ignored_partial: the result never depends on the trace level; for modules of the current level that is the required behaviour (C11)."
  },
  {
   "property": "C14",
   "status": "partial",
   "theorems": [
    "C14_same_paths_refuted",
    "C14_same_nodes_partial",
    "C14_no_sharing_partial",
    "C14_popped_paths_partial",
    "C14_name_order_partial"
   ],
   "note": "False of the code on shared submodules (insertion order against sorted order). Proved instead: pop_state names each node by the first path to its Module in order of assignment (C14_popped_paths_partial), get_state by the first in order of names (C93_first_path); they agree when no Module is shared (C14_no_sharing_partial) or when every Module was given its attributes in the order of their names (C14_name_order_partial); in general both keys are paths leading to the same node (C14_same_nodes_partial)."
  },
  {
   "property": "C15",
   "status": "proved",
   "theorems": [
    "C15_for_each"
   ],
   "note": ""
  },
  {
   "property": "C16",
   "status": "proved",
   "theorems": [
    "C16_init_bracket",
    "C16_flag_pass_total",
    "C16_detached_keeps_flag_refuted"
   ],
   "note": "Modules detached during init keep the flag (C16_detached_keeps_flag_refuted)."
  },
  {
   "property": "C17",
   "status": "proved",
   "theorems": [
    "C17_sow_accumulates",
    "C17_sow_rejects",
    "C17_sow_class_name"
   ],
   "note": ""
  },
  {
   "property": "C18",
   "status": "proved",
   "theorems": [
    "C18_module_apply",
    "C18_def_apply",
    "C18_runs_on_copy"
   ],
   "note": "Method bodies are arbitrary functions on the heap that leave alone what they cannot reach (local_body)."
  },
  {
   "property": "C19",
   "status": "partial",
   "theorems": [
    "C19_nested_refuted",
    "C19_only_last_access",
    "C19_direct_partial"
   ],
   "note": "False of the code: only the last access of a chain is performed, on the root (C19_only_last_access). Chains of length at most one work (C19_direct_partial)."
  },
  {
   "property": "C20",
   "status": "proved",
   "theorems": [
    "C20_every_history",
    "C20_identity_persists",
    "C20_ids_distinct",
    "C20_transforms",
    "C20_transforms_persist",
    "C20_transforms_distinct",
    "C20_programs"
   ],
   "note": "C20_every_history, C20_identity_persists, C20_ids_distinct: histories of basic calls. C20_transforms*: the same, and the trace level restored, for histories in which jit, grad, remat, scan, init, apply, constructors and deepcopy are called, nested in any way; C20_programs: all user programs are such histories. copy.copy is not among them: it shares the id (C81_copy_refuted)."
  },
  {
   "property": "C21",
   "status": "proved",
   "theorems": [
    "C21_partition_succeeds_iff",
    "C21_partition_first_match",
    "C21_partition_errors"
   ],
   "note": ""
  },
  {
   "property": "C22",
   "status": "proved",
   "theorems": [
    "C22_merge_of_partition",
    "C22_filter_is_partition_without_rest",
    "C22_filter_entries",
    "C22_filter_succeeds_iff"
   ],
   "note": ""
  },
  {
   "property": "C23",
   "status": "proved",
   "theorems": [
    "C23_or_lookup",
    "C23_sub_lookup",
    "C23_laws",
    "C23_merge_lookup"
   ],
   "note": ""
  },
  {
   "property": "C24",
   "status": "proved",
   "theorems": [
    "C24_canonical_in_every_history",
    "C24_insertion_order_irrelevant",
    "C24_same_keys_same_treedef",
    "C24_flatten_roundtrip",
    "C24_construction_lookup"
   ],
   "note": ""
  },
  {
   "property": "C25",
   "status": "partial",
   "theorems": [
    "C25_filter_semantics",
    "C25_valid_iff_accepted",
    "C25_invalid_raises",
    "C25_offender",
    "C25_number_raises_TypeError_refuted",
    "C25_de_morgan",
    "C25_tuple_is_any"
   ],
   "note": "Semantics, validity and laws proved; the claim that invalid filters raise TypeError is false for numbers (ValueError from a bad format spec)."
  },
  {
   "property": "C26",
   "status": "proved",
   "theorems": [
    "C26_no_derivation_repeats",
    "C26_keys_distinct"
   ],
   "note": "Keys are an idealised free algebra (seed / fold_in never collide except as terms); merging one PureContext twice repeats keys (C26_merge_twice_repeats)."
  },
  {
   "property": "C27",
   "status": "proved",
   "theorems": [
    "C27_encoding_injective"
   ],
   "note": ""
  },
  {
   "property": "C28",
   "status": "proved",
   "theorems": [
    "C28_family_isolated",
    "C28_merged_isolated",
    "C28_deterministic"
   ],
   "note": ""
  },
  {
   "property": "C29",
   "status": "proved",
   "theorems": [
    "C29_copy_shares",
    "C29_counters_advance"
   ],
   "note": ""
  },
  {
   "property": "C30",
   "status": "partial",
   "theorems": [
    "C30_same_seed_refuted",
    "C30_different_roots_partial"
   ],
   "note": "False of the code: two streams given the same seed return the same keys (C30_same_seed_refuted). Streams with different root keys never return an equal key."
  },
  {
   "property": "C31",
   "status": "partial",
   "theorems": [
    "C31_no_collision_refuted",
    "C31_only_hash_collisions_partial"
   ],
   "note": "False of the code: the name hash keeps 32 bits, so 2^32+1 draws of one stream collide by pigeonhole whatever the hash (C31_no_collision_refuted). Proved: keys of one stream coincide only where the truncated hash of two different texts collides (C31_only_hash_collisions_partial); without truncation no collision: C26, C27."
  },
  {
   "property": "C32",
   "status": "proved",
   "theorems": [
    "C32_make_rng",
    "C32_partition"
   ],
   "note": ""
  },
  {
   "property": "C33",
   "status": "proved",
   "theorems": [
    "C33_rng_filter",
    "C33_rejects"
   ],
   "note": ""
  },
  {
   "property": "C34",
   "status": "proved",
   "theorems": [
    "C34_ids_distinct",
    "C34_ids_sequential",
    "C34_no_call_lost",
    "C34_progress"
   ],
   "note": ""
  },
  {
   "property": "C35",
   "status": "proved",
   "theorems": [
    "C35_restored",
    "C35_stacks",
    "C35_innermost"
   ],
   "note": ""
  },
  {
   "property": "C36",
   "status": "proved",
   "theorems": [
    "C36_replace",
    "C36_replace_error",
    "C36_identity",
    "C36_replace_twice",
    "C36_equality",
    "C36_is_equivalent"
   ],
   "note": ""
  },
  {
   "property": "C37",
   "status": "proved",
   "theorems": [
    "C37_accepted",
    "C37_static",
    "C37_constructed",
    "C37_static_metadata_refuted"
   ],
   "note": "A Static built from with_metadata output keeps metadata it cannot be copied with (C37_static_metadata_refuted)."
  },
  {
   "property": "C38",
   "status": "proved",
   "theorems": [
    "C38_roundtrip",
    "C38_other_leaves",
    "C38_too_few",
    "C38_canonical",
    "C38_assignment_order",
    "C38_deleted_field",
    "C38_kind_refuted"
   ],
   "note": "C38_kind_refuted: replacing an unboxed array leaf by a non-array makes the field static, so C38_other_leaves asks for leaves of the same kind."
  },
  {
   "property": "C39",
   "status": "partial",
   "theorems": [
    "C39_immutable",
    "C39_fields_fixed",
    "C39_constructed_sealed",
    "C39_refused",
    "C39_delete_refuted",
    "C39_delete",
    "C39_copy_in_init_refuted"
   ],
   "note": "Assignments, constructors that return or raise, replace and copy are covered. C39_delete_refuted: del p.x is not guarded. C39_copy_in_init_refuted: a copy of self taken inside __init__ keeps the markers and stays mutable."
  },
  {
   "property": "C40",
   "status": "partial",
   "theorems": [
    "C40_original_unchanged",
    "C40_replace",
    "C40_refused",
    "C40_unknown",
    "C40_dataclass_new",
    "C40_dataclass_replace",
    "C40_dataclass_unknown",
    "C40_dataclass_container_refuted"
   ],
   "note": "C40_dataclass_container_refuted: for dataclass Pytrees a container in a field without container function is lost; C40_dataclass_replace states the law for fields as their declaration makes them."
  },
  {
   "property": "C41",
   "status": "partial",
   "theorems": [
    "C41_roundtrip",
    "C41_mismatch",
    "C41_other_container",
    "C41_boxed_pytree_refuted"
   ],
   "note": "C41_boxed_pytree_refuted: a Pytree inside a container is restored as a plain dict; C41_roundtrip covers Pytrees nested without containers. flax itself is modelled by its documented behaviour."
  },
  {
   "property": "C42",
   "status": "partial",
   "theorems": [
    "C42_add_remove_partial",
    "C42_add_remove_padded",
    "C42_remove_add",
    "C42_add_axis_at",
    "C42_no_name",
    "C42_past_end_refuted",
    "C42_negative_refuted",
    "C42_remove_errors"
   ],
   "note": "False of the code for an index past the end (padding stays) and for negative indices (C42_*_refuted). Proved for 0 <= index <= rank, with the exact result for every non-negative index, and for remove followed by add."
  },
  {
   "property": "C43",
   "status": "proved",
   "theorems": [
    "C43_spec",
    "C43_unique",
    "C43_axis_once",
    "C43_duplicates"
   ],
   "note": ""
  },
  {
   "property": "C44",
   "status": "partial",
   "theorems": [
    "C44_sequence",
    "C44_clone",
    "C44_empty_refuted",
    "C44_negative_index_refuted"
   ],
   "note": "C44_empty_refuted: Sequence([]) has length 1 and cannot be iterated; C44_negative_index_refuted: negative indices raise AttributeError. C44_sequence and C44_clone hold for every non-empty list and non-negative index."
  },
  {
   "property": "C45",
   "status": "partial",
   "theorems": [
    "C45_getitem",
    "C45_setitem",
    "C45_clone",
    "C45_len_iter_refuted",
    "C45_missing_key_refuted",
    "C45_property_name_refuted"
   ],
   "note": "C45_len_iter_refuted: len and iteration include the ModuleState for every mapping; C45_missing_key_refuted: a missing key raises AttributeError, so `in` and `get` raise; C45_property_name_refuted: keys named init/apply/is_initializing cannot be read back. C45_getitem, C45_setitem, C45_clone: item access agrees otherwise."
  },
  {
   "property": "C46",
   "status": "proved",
   "theorems": [
    "C46_jit",
    "C46_exception",
    "C46_stateless",
    "C46_not_a_module"
   ],
   "note": "For every program over modules (interaction tree: reads, writes, links, deletions, new modules, identity tests, state access) whose direct effect is confined to node attributes. The jax trace under which the function runs is arbitrary; compilation itself (jaxpr, XLA, the compile cache) is not modelled here. Exceptions and stateful=False are covered for every program."
  },
  {
   "property": "C47",
   "status": "partial",
   "theorems": [
    "C47_nothing_is_removed",
    "C47_deletion_refuted"
   ],
   "note": "Refuted: C47_deletion_refuted exhibits the failure, C47_nothing_is_removed shows it is general: no attribute is ever removed through a jitted call, because update_module never deletes."
  },
  {
   "property": "C48",
   "status": "proved",
   "theorems": [
    "C48_grad",
    "C48_stateless",
    "C48_bad_result",
    "C48_exception"
   ],
   "note": "The derivative of each leaf is an arbitrary function argument (jax.grad is not modelled); keys, wrappers, the effect on the module, stateful=False, has_aux and exceptions are."
  },
  {
   "property": "C49",
   "status": "partial",
   "theorems": [
    "C49_scan",
    "C49_new_state",
    "C49_lengths",
    "C49_carry_structure",
    "C49_broadcast_write_refuted",
    "C49_new_broadcast_refuted",
    "C49_deleted_broadcast_refuted",
    "C49_reverse_new_carry_refuted",
    "C49_exception",
    "C49_last_act"
   ],
   "note": "Proved for every function that leaves broadcast state and the module structure as they are, forwards and in reverse, and (C49_new_state) for new carry state forwards. False of the code otherwise: writes to broadcast state and new broadcast entries are lost, deleted broadcast entries come back as stacked arrays (transforms.py:609 subtracts the wrong way round), and with reverse=True a function that makes new carry state runs layer 0 first. Arrays are abstract (slices/stack); in_axes and out_axes are one int here, trees in C82."
  },
  {
   "property": "C50",
   "status": "proved",
   "theorems": [
    "C50_split_streams_differ",
    "C50_other_streams_shared",
    "C50_other_streams_same_key",
    "C50_same_outcome",
    "C50_parent_keys_differ"
   ],
   "note": "Layer functions that make no new root streams of their own (no context(...) call inside a layer). Key algebra is free; blake injective is needed only for the parent theorem."
  },
  {
   "property": "C51",
   "status": "partial",
   "theorems": [
    "C51_update_wins_refuted",
    "C51_old_values_win_partial",
    "C51_nothing",
    "C51_new_keys_partial"
   ],
   "note": "False of the code: old values win. Exact behaviour proved; right for new keys."
  },
  {
   "property": "C52",
   "status": "proved",
   "theorems": [
    "C52_get_state",
    "C52_no_states",
    "C52_partition",
    "C52_filter",
    "C52_pop_state"
   ],
   "note": ""
  },
  {
   "property": "C53",
   "status": "partial",
   "theorems": [
    "C53_identity",
    "C53_no_flag",
    "C53_sampling",
    "C53_mean_preserved",
    "C53_rate_one",
    "C53_errors",
    "C53_rate_zero_refuted",
    "C53_one_key_refuted"
   ],
   "note": "Identity, flag resolution, sampling (exactly one key of the layer's stream, 0 or x/(1-rate), constant along broadcast dims), mean preservation, rate-one and error cases proved. Two parts of the statement are false of the code: with rate 0 and no flag anywhere the call raises (C53_rate_zero_refuted), and rate 1 uses no key (C53_one_key_refuted)."
  },
  {
   "property": "C54",
   "status": "partial",
   "theorems": [
    "C54_eval",
    "C54_train",
    "C54_no_flag",
    "C54_features",
    "C54_broadcast",
    "C54_history",
    "C54_var_nonneg",
    "C54_eval_pointwise",
    "C54_output_moments",
    "C54_atomic_refuted",
    "C54_shape_refuted",
    "C54_axis_refuted"
   ],
   "note": "Evaluation, training, flag resolution, the moving average over every history, non-negative variance and output moments proved. Refuted: a failed call leaves the layer unchanged (C54_atomic_refuted), the statistics keep num_features entries (C54_shape_refuted), an axis below -rank is rejected (C54_axis_refuted)."
  },
  {
   "property": "C55",
   "status": "partial",
   "theorems": [
    "C55_canonicalize",
    "C55_canonicalize_error",
    "C55_pair_refuted",
    "C55_list_pair_refuted",
    "C55_batched",
    "C55_circular",
    "C55_causal",
    "C55_padded",
    "C55_same_size",
    "C55_same_stride",
    "C55_causality",
    "C55_equivariance",
    "C55_causal_rank",
    "C55_int_pads",
    "C55_channels",
    "C55_not_ints",
    "C55_strides",
    "C55_circular_empty",
    "C55_input_dilation_refuted"
   ],
   "note": "Sizes, values for every padding, causality, rotation equivariance, batching and the exact domain of canonicalize_padding proved. Refuted parts: the entries of a pair are not checked to be ints (C55_pair_refuted), a pair given as a list is rejected (C55_list_pair_refuted), string padding fails with an input dilation (C55_input_dilation_refuted)."
  },
  {
   "property": "C56",
   "status": "partial",
   "theorems": [
    "C56_transparent",
    "C56_no_bools",
    "C56_eq_blind",
    "C56_lookalike_refuted",
    "C56_write_back",
    "C56_key",
    "C56_nested_phase_refuted"
   ],
   "note": "jax.jit is modelled by its caching contract (JitCacheM). Proved for modules whose reachable submodules are all in the same phase; C56_nested_phase_refuted: a difference in a nested module's is_initializing does not recompile and gives the stale result. C56_transparent needs that no two static values or metadata of the history are equal and yet different (C56_no_bools: for instance there are no bools), or, C56_eq_blind, that the function does not tell equal values apart; C56_lookalike_refuted: after a call with the static attribute True, a call with 1 computes with True. The traced function may not depend on the order of a container's metadata."
  },
  {
   "property": "C57",
   "status": "proved",
   "theorems": [
    "C57_partition_merge",
    "C57_missing_key"
   ],
   "note": ""
  },
  {
   "property": "C58",
   "status": "partial",
   "theorems": [
    "C58_repr_pure",
    "C58_nested_partial",
    "C58_in_tuple_refuted"
   ],
   "note": "False of the code for Representables inside tuples/dicts/lists: they are indented twice (C58_in_tuple_refuted). Proved for directly nested ones; that the stack is restored and the text depends only on object and indentation holds for all."
  },
  {
   "property": "C59",
   "status": "proved",
   "theorems": [
    "C59_constraint",
    "C59_no_rules"
   ],
   "note": ""
  },
  {
   "property": "C60",
   "status": "proved",
   "theorems": [
    "C60_one",
    "C60_split",
    "C60_has_keyword_arg"
   ],
   "note": ""
  },
  {
   "property": "C61",
   "status": "partial",
   "theorems": [
    "C61_remat",
    "C61_exception",
    "C61_stale_context",
    "C61_deletion_refuted"
   ],
   "note": "As for jit, functions that delete attributes or change static structure are excluded; C61_deletion_refuted shows the claim false for deletions."
  },
  {
   "property": "C62",
   "status": "proved",
   "theorems": [
    "C62_layernorm",
    "C62_independent",
    "C62_zero_mean",
    "C62_bad_axes"
   ],
   "note": "Exact rational arithmetic in place of float32 (rsqrt is an argument)."
  },
  {
   "property": "C63",
   "status": "proved",
   "theorems": [
    "C63_linear",
    "C63_features",
    "C63_bias",
    "C63_rows",
    "C63_conv_one",
    "C63_embed",
    "C63_embed_type",
    "C63_embed_one_hot",
    "C63_attend",
    "C63_attend_mismatch"
   ],
   "note": "Exact rational arithmetic; the result for an id out of range (NaN in jax) is not modelled."
  },
  {
   "property": "C64",
   "status": "proved",
   "theorems": [
    "C64_linear",
    "C64_conv",
    "C64_conv_int",
    "C64_batchnorm",
    "C64_layernorm",
    "C64_embed",
    "C64_program",
    "C64_no_stream",
    "C64_linear_usable",
    "C64_conv_usable",
    "C64_batchnorm_usable"
   ],
   "note": ""
  },
  {
   "property": "C65",
   "status": "proved",
   "theorems": [
    "C65_new",
    "C65_step",
    "C65_training",
    "C65_optimizer_raises",
    "C65_unknown",
    "C65_given_twice",
    "C65_new_twice",
    "C65_apply",
    "C65_apply_unknown",
    "C65_leaves",
    "C65_same_treedef"
   ],
   "note": "optax, jnp.asarray and + 1 are arbitrary functions; ModuleDefs, States and optimizer states are opaque values, so a State is one leaf"
  },
  {
   "property": "C66",
   "status": "proved",
   "theorems": [
    "C66_merge_fits",
    "C66_split_irrelevant"
   ],
   "note": "C66_merge_fits, C66_split_irrelevant. Entries at paths outside the module's state (which merge would create or reject) are outside the theorem."
  },
  {
   "property": "C67",
   "status": "proved",
   "theorems": [
    "C67_layers",
    "C67_context",
    "C67_split_streams_differ",
    "C67_other_streams_same_key",
    "C67_no_layers",
    "C67_needs_length",
    "C67_exception",
    "C67_shared_state_must_agree"
   ],
   "note": "The constructor is an arbitrary function of what its context is merged from and of the heap. jax.vmap is modelled by its contract: traced once (heap effects and definition are those of lane 0), other lanes give values, results with out axis None must agree. Filters that look at the path and the class only (types, paths, combinations)."
  },
  {
   "property": "C68",
   "status": "partial",
   "theorems": [
    "C68_layers",
    "C68_sharded_init_raises",
    "C68_exception",
    "C68_same_as_constructor_refuted"
   ],
   "note": "C68_layers: whenever there is no partition name or no per-layer variable is sharded, the decorated __init__ succeeds with the stacked state, for every __init__. C68_sharded_init_raises: with a partition name and a sharded per-layer variable it always raises ValueError (module.update_state finds unequal metadata); C68_same_as_constructor_refuted is a concrete case in which nnx.Scan works and the decorator raises, leaving the values of one layer in the object. C68_exception."
  },
  {
   "property": "C69",
   "status": "partial",
   "theorems": [
    "C69_repr",
    "C69_history_partial",
    "C69_serial_threads_partial",
    "C69_kept_traceback_refuted",
    "C69_threads_refuted"
   ],
   "note": "C69_repr: termination, exactly one full listing of every connected module at its first mention, global restored, for every module graph. C69_history_partial: every repr of a history gives its own text as long as the traceback of one that raised is dropped before the next. False of the code otherwise: while a traceback is kept the set of printed modules survives (C69_kept_traceback_refuted); the set is shared by all threads, so concurrent reprs print dots or raise AttributeError (C69_threads_refuted)."
  },
  {
   "property": "C70",
   "status": "proved",
   "theorems": [
    "C70_made",
    "C70_call",
    "C70_elsewhere",
    "C70_history",
    "C70_life",
    "C70_clone"
   ],
   "note": "stands_for (Spec_ScanClass) relates the object to the separate layers. C70_made, C70_call, C70_history, C70_life (constructor to last call), C70_elsewhere, C70_clone. For reverse=False; the methods must leave the definition and the broadcast State of the layers as they are (C49_broadcast_write_refuted shows what happens otherwise) and the axis name must fit the sharding metadata."
  },
  {
   "property": "C71",
   "status": "partial",
   "theorems": [
    "C71_jit_arguments",
    "C71_exception",
    "C71_bad_result",
    "C71_stateless",
    "C71_refused",
    "C71_no_hash",
    "C71_context_refuted",
    "C71_foreign_context",
    "C71_keys_argument",
    "C71_not_a_module"
   ],
   "note": "C71_context_refuted: ContextDef is a child of the PureContext pytree but no pytree itself, so jax.jit refuses every call with a Context (TypeError; ValueError when ctx is static), after forking its streams. All other parts proved; C71_keys_argument is the form that works. jax.jit by contract (JitArgsM header)."
  },
  {
   "property": "C72",
   "status": "proved",
   "theorems": [
    "C72_leaves",
    "C72_write",
    "C72_refused",
    "C72_history",
    "C72_slash_in_name_refuted",
    "C72_no_module",
    "C72_sharding",
    "C72_sharding_refuted"
   ],
   "note": "Needs attribute names without '/', as all state paths do (C72_slash_in_name_refuted). C72_history is for plain values (assignments of whole containers are C72_write, one at a time). C72_sharding records what MutableLeaf.sharding does; that it is not the sharding of the Variable is C72_sharding_refuted."
  },
  {
   "property": "C73",
   "status": "proved",
   "theorems": [
    "C73_spec",
    "C73_unique",
    "C73_added_axis"
   ],
   "note": "Entries of a State that are not Nodes are taken as one leaf; shardings are tuples of names and None."
  },
  {
   "property": "C74",
   "status": "partial",
   "theorems": [
    "C74_remat_arguments",
    "C74_exception",
    "C74_bad_result",
    "C74_refused",
    "C74_out_of_range",
    "C74_range_refuted",
    "C74_foreign_context",
    "C74_class",
    "C74_class_call"
   ],
   "note": "C74_range_refuted: static_argnums -n-1 and -n-2 (n arguments) designate no argument and are accepted all the same: they fall on the keys and the State that remat puts before the arguments. All other parts proved; jax.checkpoint by contract (RematArgsM header)."
  },
  {
   "property": "C75",
   "status": "proved",
   "theorems": [
    "C75_history",
    "C75_decorators"
   ],
   "note": "Functions are interaction programs over the module (Spec_Prog); the premises of plainly are those of C46, C48, C71 and C74 for each call. Direct calls may do anything, also restructure the module; calls through stateful transforms may change node attributes only (C47). Gradient values are an oracle of the step."
  },
  {
   "property": "C76",
   "status": "proved",
   "theorems": [
    "C76_grad_arguments",
    "C76_stateless",
    "C76_exception",
    "C76_bad_result",
    "C76_refused",
    "C76_not_a_module"
   ],
   "note": "For every function written as a program over modules. jax.grad is taken by its contract (which leaves it accepts, what it passes on); the element type and shape of arrays is a parameter. An array returned where a pair is expected is not unpacked along its first axis."
  },
  {
   "property": "C77",
   "status": "partial",
   "theorems": [
    "C77_composes_partial",
    "C77_jit_above_jit",
    "C77_grad_above_grad",
    "C77_stateful_ignored",
    "C77_function_attribute",
    "C77_stateful_refuted",
    "C77_gradients_refuted",
    "C77_one_jit",
    "C77_one_grad",
    "C77_grad_keywords"
   ],
   "note": "False in general: functools.wraps copies __dict__ of the inner transform over that of the outer one. Proved when there is at most one nnx.jit and at most one nnx.grad and their stateful agree (C77_composes_partial); what happens otherwise is proved exactly: a jit above a jit is the inner jit, everything in between is dropped (C77_jit_above_jit, C77_grad_above_grad), and only the innermost stateful counts (C77_stateful_ignored). C77_stateful_refuted, C77_gradients_refuted: consequences on a module."
  },
  {
   "property": "C78",
   "status": "partial",
   "theorems": [
    "C78_variable",
    "C78_read",
    "C78_read_as_created",
    "C78_names_twice",
    "C78_assign",
    "C78_same_initializer",
    "C78_recreated_refuted",
    "C78_update_state_refuted",
    "C78_keyword_refuted",
    "C78_option_twice",
    "C78_mesh_tree",
    "C78_state_shardings"
   ],
   "note": "Proved except for rebuilt variables: unbox_fn is a new function object in each call of with_logical_partitioning and containers compare it by identity, so variables from two calls with equal options are never equivalent and assigning one over the other raises ValueError (C78_recreated_refuted, C78_update_state_refuted: update_state between two instances of a class; merging still works). The wrapped initializer also refuses keyword arguments (C78_keyword_refuted). Names that occur twice pass at creation without a mesh and make every read under a mesh a ValueError (C78_names_twice)."
  },
  {
   "property": "C79",
   "status": "partial",
   "theorems": [
    "C79_inferred",
    "C79_unique",
    "C79_order",
    "C79_override",
    "C79_no_arguments",
    "C79_promote",
    "C79_layers",
    "C79_layers_dtype",
    "C79_embed",
    "C79_attend",
    "C79_statistics",
    "C79_statistics_float32",
    "C79_statistics_refuted",
    "C79_dropout",
    "C79_dropout_refuted"
   ],
   "note": "Proved except where false: the running mean takes the least type above float32 and the types of all batches trained on (C79_statistics), so a complex or float64 batch changes the variable's type for good (C79_statistics_refuted; C79_statistics_float32 gives the exact condition); integer and boolean inputs pass Dropout when it is off and are a TypeError in training (C79_dropout_refuted)."
  },
  {
   "property": "C80",
   "status": "partial",
   "theorems": [
    "C80_wrong_call",
    "C80_construct",
    "C80_succeeds",
    "C80_reads",
    "C80_new",
    "C80_state",
    "C80_post_init",
    "C80_field_functions",
    "C80_field_containers",
    "C80_inherited",
    "C80_signature",
    "C80_default_without_init",
    "C80_default_refuted"
   ],
   "note": "Proved except for declared defaults: a field with a container function, a plain default and init=False is accepted by the class, but dataclasses leaves such a default on the class, so vars(module)[name] is a KeyError and no call ever constructs an object (C80_default_without_init for every class, C80_default_refuted for param_field(default=1, init=False)). frozen dataclasses, InitVar and kw_only are not modelled."
  },
  {
   "property": "C81",
   "status": "partial",
   "theorems": [
    "C81_deepcopy",
    "C81_deepcopy_same",
    "C81_deepcopy_frozen",
    "C81_deepcopy_names",
    "C81_deepcopy_update",
    "C81_deepcopy_usable_refuted",
    "C81_deepcopy_clone",
    "C81_copy",
    "C81_copy_invisible",
    "C81_copy_refuted"
   ],
   "note": "Proved except for use of the copies. deepcopy also copies the trace state of each module, i.e. jax's main traces, which is_valid compares by identity: no attribute of a deep copy can ever be assigned and no update succeeds (C81_deepcopy_frozen, C81_deepcopy_update for every module, C81_deepcopy_usable_refuted); cloning the copy makes it usable (C81_deepcopy_clone). copy.copy shares the module's id: in a module holding both, the copy does not show in the state (C81_copy_invisible) and cloning merges the two (C81_copy_refuted). Whether jax's MainTrace objects can be deep-copied at all at a given level is outside the model; the model takes the copies as fresh objects."
  },
  {
   "property": "C82",
   "status": "partial",
   "theorems": [
    "C82_exception",
    "C82_last_act",
    "C82_scan",
    "C82_in_axes",
    "C82_out_axes",
    "C82_lengths",
    "C82_broadcast_refuted",
    "C82_output_refuted"
   ],
   "note": "Proved for every tree of axes, except that None does not broadcast: in the pinned jax 0.4.13 None is a prefix of every tree, and the layers get None in place of the argument (C82_broadcast_refuted) and the result is dropped (C82_output_refuted); in jax since 0.4.34 ValueError is raised. The theorems hold of both versions of flatten_up_to. Pytrees are tuples, lists and dicts, without namedtuples and registered classes. C82_out_axes is stated for forward order."
  },
  {
   "property": "C83",
   "status": "partial",
   "theorems": [
    "C83_train",
    "C83_eval",
    "C83_history",
    "C83_in_sync",
    "C83_whole_batch",
    "C83_bad_groups",
    "C83_layernorm",
    "C83_layernorm_scalar",
    "C83_vector_refuted"
   ],
   "note": "All proved over exact rationals, for groups of equal size, except the last clause: with an axis name LayerNorm raises if all axes are reduced, as for vectors with the default settings (C83_vector_refuted, C83_layernorm_scalar). lax.pmean is taken to be the mean over the group. Calls outside of a mapped function (jax raises NameError) are not modelled."
  },
  {
   "property": "C84",
   "status": "partial",
   "theorems": [
    "C84_call",
    "C84_other",
    "C84_program",
    "C84_program_eq",
    "C84_no_retrace",
    "C84_blind",
    "C84_hidden_refuted"
   ],
   "note": "Proved for functions that change only node attributes and do not depend on what the compiler cannot see (order of metadata; equal constants are identical, or the function does not tell equal values apart: C84_program_eq; C84_blind gives a sufficient condition on the code). For modules that are kept inside a tuple, i.e. in a static value, it is false: the jitted function sees the value of the first call for ever (C84_hidden_refuted)."
  },
  {
   "property": "C85",
   "status": "proved",
   "theorems": [
    "C85_merge_succeeds",
    "C85_merge_fails",
    "C85_merge",
    "C85_paths",
    "C85_roundtrip",
    "C85_definitions",
    "C85_equal",
    "C85_equal_refuted"
   ],
   "note": "Hand-made definitions that are equal need not merge alike, as == ignores the indices of the parts (C85_equal_refuted); C85_equal asks for normal form, which the definitions of modules have. Paths through static fields that hold modules are excluded in C85_paths (no_modules)."
  },
  {
   "property": "C86",
   "status": "proved",
   "theorems": [
    "C86_getitem",
    "C86_iter",
    "C86_views",
    "C86_equal",
    "C86_equivalence"
   ],
   "note": ""
  },
  {
   "property": "C87",
   "status": "proved",
   "theorems": [
    "C87_equal",
    "C87_equivalence",
    "C87_hash",
    "C87_hashable",
    "C87_dict_keys",
    "C87_static_tree",
    "C87_changed_static_refuted"
   ],
   "note": "C87_changed_static_refuted goes beyond the claim: nothing keeps a Static from being assigned to, which changes its hash."
  },
  {
   "property": "C88",
   "status": "partial",
   "theorems": [
    "C88_usable",
    "C88_program",
    "C88_guard",
    "C88_own",
    "C88_contexts",
    "C88_vmap_refuted",
    "C88_nested_grad_refuted"
   ],
   "note": "jax.vmap and jax.grad called directly (and constructors under the jax.vmap of nnx.Scan) are not noticed by the guard and do leak (C88_vmap_refuted). nnx.grad with nothing to differentiate, inside another nnx.grad, makes the outermost trace current again and leaks (C88_nested_grad_refuted); C88_usable, C88_program and C88_guard exclude that with the ghost ts_idle. The rest is proved for every program."
  },
  {
   "property": "C89",
   "status": "proved",
   "theorems": [
    "C89_by_value",
    "C89_snapshot",
    "C89_owner",
    "C89_copied",
    "C89_merged",
    "C89_popped",
    "C89_write",
    "C89_write_field",
    "C89_write_state",
    "C89_snapshot_refuted",
    "C89_guard_refuted",
    "C89_static_refuted"
   ],
   "note": "Everything is proved for programs that do not write to container fields, and the effect of a write is given exactly. With writes a State is not a snapshot (C89_snapshot_refuted), the trace guard can be bypassed (C89_guard_refuted), and Static containers are shared by a Module and its merges (C89_static_refuted)."
  },
  {
   "property": "C90",
   "status": "proved",
   "theorems": [
    "C90_program",
    "C90_jit",
    "C90_call_pure",
    "C90_keep_refuted",
    "C90_raise_refuted"
   ],
   "note": "Proved for all programs of these statements. Refuted: keeping the first ModuleDef when a call changes it (C90_keep_refuted), and, without undoing, the equality after a call that raised half-way (C90_raise_refuted). Values computed under jit are those computed outside it: jax's contract, not modelled."
  },
  {
   "property": "C91",
   "status": "proved",
   "theorems": [
    "C91_definition",
    "C91_load",
    "C91_restore",
    "C91_branch_refuted",
    "C91_static_refuted"
   ],
   "note": "Proved for constructors given as programs of the modelled operations that do the same steps on alike answers. Refuted without that: a constructor that branches on an array (C91_branch_refuted: merge raises KeyError) and an array kept in a Static container (C91_static_refuted: the array of the other run is silently used). The file format and orbax are not modelled: what is read back is assumed to be the State that was written."
  },
  {
   "property": "C92",
   "status": "proved",
   "theorems": [
    "C92_edit",
    "C92_assign",
    "C92_assign_refused",
    "C92_delete",
    "C92_delete_missing",
    "C92_definition",
    "C92_submodule_refuted",
    "C92_delete_unguarded_refuted"
   ],
   "note": "Refuted where the claim would be too much: assigning a submodule under a second name can move every entry below it (C92_submodule_refuted), and deletion is not guarded by the trace check that assignment has (C92_delete_unguarded_refuted)."
  },
  {
   "property": "C93",
   "status": "proved",
   "theorems": [
    "C93_one_path",
    "C93_first_path",
    "C93_part",
    "C93_surgery",
    "C93_shortest_refuted",
    "C93_sequence_refuted",
    "C93_example_filter_refuted"
   ],
   "note": "Refuted where the claim would be too much: the path need not be a shortest one (C93_shortest_refuted), a layer shared by positions 2 and 10 of a Sequence is listed under 10 (C93_sequence_refuted), and the filter of examples/09 selects the backbone, which its comment says it leaves out, together with attributes whose name merely starts like it (C93_example_filter_refuted)."
  },
  {
   "property": "C94",
   "status": "proved",
   "theorems": [
    "C94_call",
    "C94_same_as_scan",
    "C94_layers",
    "C94_keys_differ",
    "C94_other_stream",
    "C94_no_stream",
    "C94_other_state",
    "C94_lengths"
   ],
   "note": "jax.vmap and jax.lax.scan are modelled by their contracts (ScanM, ScanInitM); shapes and dtypes are not checked; zero layers are not modelled."
  },
  {
   "property": "C95",
   "status": "proved",
   "theorems": [
    "C95_grad",
    "C95_stateless",
    "C95_same_gradient"
   ],
   "note": "jax.grad itself is any operator that sees the function only at points with the same keys, arrays for arrays and Variables of the same class and metadata; what it computes is not modelled."
  },
  {
   "property": "C96",
   "status": "proved",
   "theorems": [
    "C96_lifted",
    "C96_pure",
    "C96_functional",
    "C96_agree",
    "C96_functional_variables_refuted",
    "C96_functional_params_refuted"
   ],
   "note": "For forward passes that write new values into existing nodes without changing classes or metadata. Refuted for the functional loop of examples/01 otherwise: a Variable that is no Param is lost after one step since nnx.buffers selects arrays only (C96_functional_variables_refuted), and a Param written by the forward pass keeps its old value (C96_functional_params_refuted). jax.jit by its contract; jax.grad as in C95."
  },
  {
   "property": "C97",
   "status": "proved",
   "theorems": [
    "C97_trainstate",
    "C97_vae_refuted"
   ],
   "note": "For forward passes that write new values into existing arrays and leave the Params alone, as in C96. That examples/05 trains is refuted for every optimizer and every number of steps (C97_vae_refuted). optax as in C65: arbitrary functions that may raise; States as field values by any encoding that can be read back."
  },
  {
   "property": "C98",
   "status": "proved",
   "theorems": [
    "C98_nested"
   ],
   "note": "Each decorated function takes the one module it works on; values may come in from outside, modules may not (C67 has several modules as arguments of one call). Premises are about the program without transforms: arrays in the modules at each call, only nodes changed by a call that returns. Derivative operators look at the loss at points made of arrays."
  },
  {
   "property": "C99",
   "status": "partial",
   "theorems": [
    "C99_program_order",
    "C99_one_by_one_partial",
    "C99_keys_partial",
    "C99_own_thread",
    "C99_foreign",
    "C99_late_store_refuted",
    "C99_copied_refuted"
   ],
   "note": "Proved for schedules in which no thread copies another thread's Context (and hands no RngStream objects to context()); C99_late_store_refuted and C99_copied_refuted show that the claim is false of the code without that condition. C99_program_order, C99_own_thread and C99_foreign hold for every schedule."
  },
  {
   "property": "C100",
   "status": "partial",
   "theorems": [
    "C100_values_partial",
    "C100_definition_partial",
    "C100_assignments",
    "C100_partition_partial",
    "C100_one_assignment_partial",
    "C100_never_refuted",
    "C100_structure_refuted"
   ],
   "note": "Proved under the two conditions on what the others do; C100_never_refuted and C100_structure_refuted show that without them the claim is false of the code. Reads of one object's attributes are taken to be atomic (sorted(vars(module).items()) under the GIL); recursion depth is bounded by fuel as in ModuleM."
  },
  {
   "property": "C101",
   "status": "partial",
   "theorems": [
    "C101_as_alone_partial",
    "C101_guard_partial",
    "C101_refused",
    "C101_delete_refuted",
    "C101_shared_refuted"
   ],
   "note": "C101_delete_refuted and C101_shared_refuted show that the conditions are needed. Reading or writing the attributes of one Module is one step (the GIL); the traces of thread t are (t, level). Creation of Modules and update_state from a Module or Pure are not among the calls."
  },
  {
   "property": "C102",
   "status": "proved",
   "theorems": [
    "C102_scan_of_transforms",
    "C102_transform_of_scan"
   ],
   "note": "The scanned function gets no Context, takes the carry and a flat list of slices, and returns a carry and a flat tuple of arrays. The conditions of the inner transforms (no clashing names, arrays only, nodes only changed) are asked of every call the scan makes."
  },
  {
   "property": "C103",
   "status": "proved",
   "theorems": [
    "C103_no_derivation_repeats",
    "C103_keys_distinct",
    "C103_with_new_contexts",
    "C103_missing_stream"
   ],
   "note": "jax.random is a free algebra of keys (ContextM). Root keys must not be splits of one another (the example C103_ex_not_fresh shows why); streams a scan does not split repeat by design (C50, C103_ex_unsplit). Programs that make Contexts from drawn keys, or in a vmapped function from splits of a drawn key (examples/07_transformer.py), are in C103_with_new_contexts, which needs a collision-free hash (C31 has the collisions of the real one), first keys that are not folds (C103_ex_folds) and new streams of these names made from keys of these names (C103_ex_new_unsplit)."
  },
  {
   "property": "C104",
   "status": "proved",
   "theorems": [
    "C104_same_keys",
    "C104_after_remat",
    "C104_after_scan",
    "C104_after_jit_grad"
   ],
   "note": "C98_nested has the full statement about the Modules. A scan that refuses its arguments before it looks at the Context leaves it as it was. Bodies hold only the Context made for them (Contexts and Modules do not come in as closures: C10, C32, C103_ex_closure)."
  },
  {
   "property": "C105",
   "status": "partial",
   "theorems": [
    "C105_program_partial",
    "C105_one_call_partial",
    "C105_no_sharing",
    "C105_name_order",
    "C105_ellipsis_refuted",
    "C105_shared_refuted",
    "C105_collection_name_refuted"
   ],
   "note": "Proved for Modules without cycles (C12) on which assignment order and name order give the same paths (C105_no_sharing, C105_name_order: no sharing, or attributes assigned in name order) and filters other than `...`. Refuted: `...` among the filters (Pure.pop_state always raises ValueError, Module.pop_state pops everything); shared Modules in other assignment orders (other keys, C14); the README's state.partition(\"intermediates\", ...), since a collection name is no filter (TypeError)."
  },
  {
   "property": "C106",
   "status": "partial",
   "theorems": [
    "C106_change",
    "C106_elsewhere",
    "C106_assign_partial",
    "C106_remove_partial",
    "C106_shared_refuted",
    "C106_over_variable_refuted"
   ],
   "note": "Proved for submodules that are reached through the changed attribute only and for new Modules that share nothing with the model. Refuted otherwise: the entries of a submodule that has a second name move to that name (C106_shared_refuted; for an added second name C92_submodule_refuted), and a Module assigned over a Variable becomes the value of the Variable, its parameters are in no State (C106_over_variable_refuted)."
  },
  {
   "property": "C107",
   "status": "partial",
   "theorems": [
    "C107_tune_partial",
    "C107_agree_partial",
    "C107_any",
    "C107_goes_on",
    "C107_raises",
    "C107_any_frozen",
    "C107_frozen",
    "C107_moves",
    "C107_writes_refuted",
    "C107_shared_refuted"
   ],
   "note": "For any forward passes the loop on the trainable State gives the selected part of a model that is stepped along the derivatives and keeps nothing else of them (C107_any, C107_any_frozen, C107_raises); that this is the model trained in place is proved for forward passes that leave the State alone, for what they write is lost (C107_writes_refuted). A filter by path sees the first path of a layer that has two names, so leaving out the other one does not freeze it (C107_shared_refuted)."
  },
  {
   "property": "C108",
   "status": "proved",
   "theorems": [
    "C108_loop",
    "C108_agree",
    "C108_in_sync"
   ],
   "note": "For forward passes that leave the selected parameters alone (otherwise C96_functional_params_refuted) and for filters that together select every node once (otherwise C96_functional_variables_refuted, C107_writes_refuted). jax.jit by its contract; jax.grad as in C95."
  },
  {
   "property": "C109",
   "status": "proved",
   "theorems": [
    "C109_sequence",
    "C109_keyword",
    "C109_flags",
    "C109_pure",
    "C109_batch",
    "C109_keys",
    "C109_no_context",
    "C109_statistics"
   ],
   "note": "Numbers are exact; sums need equal shapes. Independence of the batch is for layers that work along axes other than 0 (net_ok). C109_own_flag and C109_training show that the hypotheses on the flags matter."
  },
  {
   "property": "C110",
   "status": "proved",
   "theorems": [
    "C110_resume",
    "C110_model"
   ],
   "note": "The file format is not modelled: what is loaded is what was saved. The constructor's steps may not depend on the contents of arrays (same_steps, as in C91). C110_params_only shows that saving model.filter(nnx.Param) alone is not enough."
  },
  {
   "property": "C111",
   "status": "partial",
   "theorems": [
    "C111_restore",
    "C111_mismatch",
    "C111_opt_state",
    "C111_by_hand",
    "C111_resume_partial",
    "C111_resume_refuted"
   ],
   "note": "The claim is false of from_state_dict(ts, state) with an optimizer whose state is a tuple, as those of optax are: opt_state is in a container, for which _from_flax_state_dict passes the container as the target, which flax does not know, so the dict is put in place of the tuple and the next step raises (C111_opt_state, C111_resume_refuted). It holds when flax leaves the values as they are (C111_resume_partial), and for every optimizer when each value is restored by hand and put in with replace (C111_by_hand). What flax makes of the values is a parameter; the step and the States are asked to survive it."
  },
  {
   "property": "C112",
   "status": "partial",
   "theorems": [
    "C112_rollback_partial",
    "C112_best_partial",
    "C112_adding_partial",
    "C112_best_adding_partial",
    "C112_attributes_partial",
    "C112_best_attributes_partial",
    "C112_kind_refuted",
    "C112_added_refuted",
    "C112_static_refuted",
    "C112_replaced_refuted"
   ],
   "note": "Proved for code that writes values into existing node attributes (arrays stay arrays, Variables keep class and metadata): the model is then exactly what it was. Proved also for code that adds node attributes: everything the model had is back and what was added stays (C112_adding_partial, C112_best_adding_partial). Proved also for code that writes, adds and deletes any attributes but submodules: all node attributes are back, also deleted and overwritten ones, and all else is as the code left it (C112_attributes_partial, C112_best_attributes_partial). False otherwise: update_state removes nothing and sets no static attributes, so, without any error, what the code added stays (C112_added_refuted), as does a changed static attribute (C112_static_refuted) and a replaced submodule (C112_replaced_refuted); where a Variable was replaced by one of another class, going back raises ValueError (C112_kind_refuted). Variables written through their fields are not covered: they change the saved State too (C89_snapshot_refuted)."
  },
  {
   "property": "C113",
   "status": "proved",
   "theorems": [
    "C113_lifted",
    "C113_pure",
    "C113_functional",
    "C113_tune",
    "C113_skip_lifted",
    "C113_skip_pure",
    "C113_skip_functional",
    "C113_eager"
   ],
   "note": "The exceptions are those of the loss (the function given to nnx.grad). For the steps that do not raise, the conditions of C96 and C107 apply."
  },
  {
   "property": "C114",
   "status": "proved",
   "theorems": [
    "C114_average",
    "C114_copied",
    "C114_refused"
   ],
   "note": "jax.tree_map on two States is modelled in TrainLoopM (every value one leaf). mix gives arrays for arrays."
  },
  {
   "property": "C115",
   "status": "proved",
   "theorems": [
    "C115_any_path",
    "C115_part",
    "C115_names",
    "C115_transfer",
    "C115_refused",
    "C115_order_refuted"
   ],
   "note": "Keys that name one attribute twice are outside of the statement: the name that get_state lists is assigned first, wherever it stands in the State, so the later entry need not win (C115_order_refuted)."
  },
  {
   "property": "C116",
   "status": "proved",
   "theorems": [
    "C116_order",
    "C116_effect",
    "C116_same",
    "C116_split",
    "C116_last",
    "C116_kinds_refuted"
   ],
   "note": "Two States that give one attribute values of different kinds (a Variable, then a plain array) are outside of the statement: one call with both and two calls then differ (C116_kinds_refuted)."
  },
  {
   "property": "C117",
   "status": "proved",
   "theorems": [
    "C117_alone",
    "C117_schedules",
    "C117_ensemble",
    "C117_clones",
    "C117_shared_refuted"
   ],
   "note": "For models that share nothing; training a model also trains the layers it shares with another one (C117_shared_refuted). Under the conditions of C96 on the losses."
  },
  {
   "property": "C118",
   "status": "proved",
   "theorems": [
    "C118_shared",
    "C118_seen",
    "C118_raises",
    "C118_skip",
    "C118_rebound_refuted"
   ],
   "note": "For forward passes that replace no submodule; with one that does, the jitted step writes the values into the Module that was there (C118_rebound_refuted). Under the conditions of C96 on the losses."
  },
  {
   "property": "C119",
   "status": "proved",
   "theorems": [
    "C119_script",
    "C119_delete_refuted"
   ],
   "note": "For jitted functions that write node attributes only and losses that replace no submodule. A jitted function that deletes an attribute leaves it in place (C119_delete_refuted, as in C47)."
  },
  {
   "property": "C120",
   "status": "proved",
   "theorems": [
    "C120_text",
    "C120_reads",
    "C120_equal_modules",
    "C120_equal_refuted",
    "C120_class_refuted"
   ],
   "note": "For class names without comma, attribute names without quote and static fields that print on one line. For ModuleDefs taken apart by hand printing alike is not the same as ==: the index is printed and not compared (C120_equal_refuted), and of a class only the name is printed (C120_class_refuted)."
  },
  {
   "property": "C121",
   "status": "proved",
   "theorems": [
    "C121_text",
    "C121_reads",
    "C121_faithful",
    "C121_str_refuted",
    "C121_lines_refuted"
   ],
   "note": "For paths without quote, metadata names without an equals sign and values that print on one line. An entry that is a str itself is printed without quotes and looks like another value with that repr (C121_str_refuted); that values print on one line is needed (C121_lines_refuted)."
  },
  {
   "property": "C122",
   "status": "proved",
   "theorems": [
    "C122_text",
    "C122_reads",
    "C122_picture",
    "C122_initializing_refuted"
   ],
   "note": "For partition() without filters, so a Pure with one State. Whether a Module is initializing is not printed (C122_initializing_refuted), hence the condition."
  }
 ]
}