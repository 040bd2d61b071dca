{
 "claims": [
  {
   "property": "C01",
   "status": "proved",
   "theorems": [
    "c01_exact_delivery",
    "c01_at_most_once"
   ],
   "note": "Exact multiset delivery for every history without Subscription::add_sender (that case is C10), plus at-most-once over every history."
  },
  {
   "property": "C02",
   "status": "proved",
   "theorems": [
    "c02_send_order"
   ],
   "note": "Order of one route+receive round equals pending order when the receive buffer is empty (exactly the situation of the English statement)."
  },
  {
   "property": "C03",
   "status": "partial",
   "theorems": [
    "c03_order_several_rounds_refuted",
    "c03_order_several_rounds_partial"
   ],
   "note": "Refuted: two routing rounds before a receive swap messages. Partial: order holds when a receive follows every routing pass."
  },
  {
   "property": "C04",
   "status": "proved",
   "theorems": [
    "c04_route_drains"
   ],
   "note": "Every bus state."
  },
  {
   "property": "C05",
   "status": "proved",
   "theorems": [
    "c05_unload_once"
   ],
   "note": "Every reachable state, with frame conditions."
  },
  {
   "property": "C06",
   "status": "proved",
   "theorems": [
    "c06_subscribe",
    "c06_senders_follow_calls",
    "c06_union"
   ],
   "note": "Every reachable state; histories of subscribe calls give the union."
  },
  {
   "property": "C07",
   "status": "proved",
   "theorems": [
    "c07_unsubscribe",
    "c07_unsubscribed_silent"
   ],
   "note": "Result, frame and silence over every later history."
  },
  {
   "property": "C08",
   "status": "partial",
   "theorems": [
    "c08_remove_receiver_refuted",
    "c08_remove_receiver_partial"
   ],
   "note": "Refuted: increment of an erased iterator (UB) exactly when the receiver has a subscription. Partial: without a match nothing changes."
  },
  {
   "property": "C09",
   "status": "proved",
   "theorems": [
    "c09_filter_covers"
   ],
   "note": "Invariant over every history (add_sender excluded, see C10)."
  },
  {
   "property": "C10",
   "status": "partial",
   "theorems": [
    "c10_add_sender_refuted",
    "c10_add_sender_partial"
   ],
   "note": "Refuted with a witness. Partial: exact delivery rule for arbitrary histories including add_sender; delivered iff the sender was also named in some subscribe call on the endpoint."
  },
  {
   "property": "C11",
   "status": "proved",
   "theorems": [
    "c11_destroyed_route",
    "c11_destroyed_step"
   ],
   "note": "Routing and stepping after destruction equal those without the endpoint."
  },
  {
   "property": "C12",
   "status": "proved",
   "theorems": [
    "c12_generated_distinct",
    "c12_generated_nil"
   ],
   "note": "The counting generator (debug builds); release builds use boost's random generator, which is external. Injectivity for every start value and all 2^64 positions; nil exactly when the counter is 0."
  },
  {
   "property": "C13",
   "status": "proved",
   "theorems": [
    "c13_order"
   ],
   "note": "Strict total order over all 128-bit identifiers; note operator< is the reverse of the byte order."
  },
  {
   "property": "C14",
   "status": "partial",
   "theorems": [
    "c14_text_empty_refuted",
    "c14_text_float_refuted",
    "c14_spike_text_partial",
    "c14_impact_text_partial"
   ],
   "note": "Refuted twice: an empty message read into a used object keeps old data; float values are written with six digits, two different messages have the same text. Partial: character-level round trip for all fitting messages otherwise (strtof is a parameter)."
  },
  {
   "property": "C15",
   "status": "partial",
   "theorems": [
    "c15_envelope_partial",
    "c15_unknown_type_throws"
   ],
   "note": "Partial: table-level round trip; the byte layout produced by the FlatBuffers library is not modelled. Unknown type throws."
  },
  {
   "property": "C16",
   "status": "partial",
   "theorems": [
    "c16_search_refuted",
    "c16_assign_refuted",
    "c16_search_partial"
   ],
   "note": "Refuted: remove_postsynaptic_neuron_synapses on an up-to-date index erases by the wrong key and keeps stale positions; operator[] assignment likewise. Partial: exact search after every other history."
  },
  {
   "property": "C17",
   "status": "proved",
   "theorems": [
    "c17_remove_if",
    "c17_remove_presynaptic",
    "c17_remove_postsynaptic",
    "c17_remove_synapse"
   ],
   "note": "All removal operations, every state."
  },
  {
   "property": "C18",
   "status": "proved",
   "theorems": [
    "c18_add_synapses",
    "c18_constructor"
   ],
   "note": "Every generator (given by the values it yields) and every count."
  },
  {
   "property": "C19",
   "status": "partial",
   "theorems": [
    "c19_remove_refuted",
    "c19_remove_partial",
    "c19_add"
   ],
   "note": "c19_remove_refuted: index lists not in ascending order remove the wrong neurons (or erase out of range). c19_remove_partial: ascending lists are exact. c19_add: adding."
  },
  {
   "property": "C20",
   "status": "partial",
   "theorems": [
    "c20_failed_read_refuted",
    "c20_failed_read_partial",
    "c20_last_write"
   ],
   "note": "c20_failed_read_refuted: non-const get_tag of a missing name inserts an empty tag. Partial: reads of existing names; last write wins."
  },
  {
   "property": "C21",
   "status": "proved",
   "theorems": [
    "c21_discipline",
    "c21_counts",
    "c21_starts"
   ],
   "note": "For all predicate, step and stop() behaviours."
  },
  {
   "property": "C22",
   "status": "partial",
   "theorems": [
    "c22_running_refuted",
    "c22_running_partial"
   ],
   "note": "c22_running_refuted: after a predicate returned false, running() stays true. Partial: exact value of running() after every start."
  },
  {
   "property": "C23",
   "status": "partial",
   "theorems": [
    "c23_select_refuted",
    "c23_select_partial",
    "c23_select_first_partial"
   ],
   "note": "c23_select_refuted: returns after the first match, so at most one device is ever added. Partial: single-device requests."
  },
  {
   "property": "C24",
   "status": "proved",
   "theorems": [
    "c24_exactly_once"
   ],
   "note": "Delta and resource-STDP synapses (weights may change between steps). Hypothesis: the projection's search index is undamaged (C16)."
  },
  {
   "property": "C25",
   "status": "partial",
   "theorems": [
    "c25_zero_delay_refuted"
   ],
   "note": "Refuted for all runs: a delay-0 synapse is scheduled one step in the past (or at 2^64-1) and never sent."
  },
  {
   "property": "C26",
   "status": "proved",
   "theorems": [
    "c26_partition",
    "c26_zero_part_size"
   ],
   "note": "Sizes up to 2^63; part size 0 never terminates (c26_zero_part_size)."
  },
  {
   "property": "C27",
   "status": "partial",
   "theorems": [
    "c27_header_refuted",
    "c27_same_results_partial"
   ],
   "note": "c27_header_refuted: the multi-threaded code swaps presynaptic and postsynaptic population identifiers. Partial: everything else agrees for every schedule."
  },
  {
   "property": "C28",
   "status": "partial",
   "theorems": [
    "c28_schedule_refuted",
    "c28_projections_partial",
    "c28_single_impacts_partial",
    "c28_integer_lif_partial",
    "c28_integer_blifat_partial",
    "c28_integer_altai_partial"
   ],
   "note": "Refuted: part order changes the impact order and hence the potential (0 or 1). Partial: projection messages of any two schedules differ in impact order only; population phases are schedule-independent; steps are order-independent for at most one impact per neuron, or integer weights/potentials below 2^24 (2^53) in exact floating-point range."
  },
  {
   "property": "C29",
   "status": "partial",
   "theorems": [
    "c29_ignored_refuted",
    "c29_messages_refuted"
   ],
   "note": "Refuted: only the first waiting message is processed."
  },
  {
   "property": "C30",
   "status": "proved",
   "theorems": [
    "c30_spike_iff",
    "c30_refractory",
    "c30_silence",
    "c30_other_impacts_throw"
   ],
   "note": "Every state, parameter and current sequence, all IEEE values; other impact kinds throw."
  },
  {
   "property": "C31",
   "status": "proved",
   "theorems": [
    "c31_refractory"
   ],
   "note": "Every run of both variants, any start state."
  },
  {
   "property": "C32",
   "status": "partial",
   "theorems": [
    "c32_fresh_refuted",
    "c32_fires_partial"
   ],
   "note": "Refuted for every parameter set: the default counter wraps to 0, the first step never fires. Partial: from any other counter value exactly the refractory period and threshold decide."
  },
  {
   "property": "C33",
   "status": "proved",
   "theorems": [
    "c33_blocked",
    "c33_reacts_again",
    "c33_zero_blocks_forever",
    "c33_active_period"
   ],
   "note": "Exactly k steps including the step of arrival, both variants; extra: value 0 blocks for ever."
  },
  {
   "property": "C34",
   "status": "partial",
   "theorems": [
    "c34_bursting_refuted",
    "c34_stdp_refuted",
    "c34_bursting_partial"
   ],
   "note": "Refuted: for every period but 1 the reflexive weight never has any effect; in the STDP variant with period 1 it is added at every step. Partial: plain variant, period 1."
  },
  {
   "property": "C35",
   "status": "proved",
   "theorems": [
    "c35_floor",
    "c35_state"
   ],
   "note": "Every step of both variants."
  },
  {
   "property": "C36",
   "status": "proved",
   "theorems": [
    "c36_spike_iff",
    "c36_spike_only_if",
    "c36_silenced",
    "c36_floor",
    "c36_state"
   ],
   "note": "Every state, flags and impacts; the floor holds with the saturate flag."
  },
  {
   "property": "C37",
   "status": "proved",
   "theorems": [
    "c37_population_step",
    "c37_population_step_mt"
   ],
   "note": "Generic in the neuron kind, single- and multi-threaded (every part order)."
  },
  {
   "property": "C38",
   "status": "proved",
   "theorems": [
    "c38_weight_range",
    "c38_weight_monotone",
    "c38_weight_low",
    "c38_weight_strict",
    "c38_trained_weights",
    "c38_float_overflow",
    "c38_float_nan"
   ],
   "note": "Range, strict monotonicity and lower bound over the rationals; every synapse of a trained spiking neuron gets that weight. In float (weight_f, binary32) the bounds fail: overflow to infinity and 0/0 = NaN are exhibited."
  },
  {
   "property": "C39",
   "status": "proved",
   "theorems": [
    "c39_training",
    "c39_history",
    "c39_no_synapses"
   ],
   "note": "Exact arithmetic (rationals). One training step per neuron: conserved or reduced by exactly the drain part; all histories with drain 0 conserve. Finding: a neuron without synapses loses its free resource at renormalisation."
  },
  {
   "property": "C40",
   "status": "partial",
   "theorems": [
    "c40_isi_refuted",
    "c40_first_spike_partial",
    "c40_forced_spike_partial"
   ],
   "note": "Finding: stdp.h:108,114 compute last_step_ - step (operands swapped, unsigned), so a period never continues; c40_isi_refuted proves it for every increasing sequence of steps. The _partial theorems give the parts of the rule that hold."
  },
  {
   "property": "C41",
   "status": "proved",
   "theorems": [
    "c41_join",
    "c41_at_most_once",
    "c41_no_task_left"
   ],
   "note": "Interleaving model of ThreadPoolContext/ThreadPoolExecutor: critical sections are atomic steps, notify_one wakes any waiter, spurious wake-ups allowed, several clients and executors, tasks may post tasks. Tasks that throw: C122."
  },
  {
   "property": "C42",
   "status": "proved",
   "theorems": [
    "c42_progress",
    "c42_bounded",
    "c42_all_return"
   ],
   "note": "Progress in every reachable state with a client in join(), an explicit bound on the number of non-spurious steps, and: when nothing can move all clients have returned."
  },
  {
   "property": "C43",
   "status": "proved",
   "theorems": [
    "c43_stop"
   ],
   "note": "stop() called once, after all posted tasks have finished (ThreadPool's member order and the joining destructor of the executor ensure it)."
  },
  {
   "property": "C44",
   "status": "proved",
   "theorems": [
    "c44_dataflow",
    "c44_alone",
    "c44_latency",
    "c44_failures"
   ],
   "note": "Whole-network refinement: bus + endpoint + LIF/BLIFAT/AltAI populations + delta projections. c44_dataflow gives the exact input of every entity at every step for arbitrary outside calls between steps, c44_alone that nothing else influences an entity, c44_latency the n+d arrival, c44_failures that the bus calls never fail. Populations with resource STDP and additive-STDP subscriptions are not in this composition; routing by third parties during or between steps is left out."
  },
  {
   "property": "C45",
   "status": "partial",
   "theorems": [
    "c45_unique_partial",
    "c45_variant_refuted"
   ],
   "note": "Holds for the templated add/remove/get/exists/list calls, failed calls included; the variant overloads of add_* skip the check (c45_variant_refuted)."
  },
  {
   "property": "C46",
   "status": "partial",
   "theorems": [
    "c46_inputs_partial",
    "c46_outputs_partial",
    "c46_bucket_refuted"
   ],
   "note": "Proved when no two channel identifiers share a hash bucket. In general false: init_channels iterates buckets, so identifiers in one bucket are merged into the channel of the first (c46_bucket_refuted)."
  },
  {
   "property": "C47",
   "status": "partial",
   "theorems": [
    "c47_reads_partial",
    "c47_interval_refuted"
   ],
   "note": "Proved for step-ordered arrivals and intervals a<=b with a+b+1 within the allocatable number. read_some_from_buffer reserves a+b+1 elements, so wide intervals throw, and reversed ones are undefined behaviour (c47_interval_refuted)."
  },
  {
   "property": "C48",
   "status": "partial",
   "theorems": [
    "c48_sends_partial",
    "c48_due",
    "c48_refused_refuted"
   ],
   "note": "Sending discipline proved for every environment; the inputs of a refused step are already sent when the predicate is asked (c48_refused_refuted). Generators that throw are not modelled."
  },
  {
   "property": "C49",
   "status": "partial",
   "theorems": [
    "c49_bitwise",
    "c49_count",
    "c49_set_partial",
    "c49_set_refuted"
   ],
   "note": "Exact (counts modulo 2^64); the set converter truncates the output size to 32 bits (c49_set_refuted)."
  },
  {
   "property": "C50",
   "status": "proved",
   "theorems": [
    "c50_parse"
   ],
   "note": "Proved for decimal texts of values below 2^32 without signs and spaces around them."
  },
  {
   "property": "C51",
   "status": "partial",
   "theorems": [
    "c51_k_winners",
    "c51_every_choice",
    "c51_per_group_partial",
    "c51_groups",
    "c51_reserve_refuted",
    "c51_group_winners_partial",
    "c51_zero_winners_refuted",
    "c51_union",
    "c51_update"
   ],
   "note": "Any random numbers, any sort/shuffle/set order. Exceptions found: reserve(borders*winners) throws for huge winner counts (c51_reserve_refuted); GroupWtaRandomHandler with 0 winners reads before the first group (c51_zero_winners_refuted). Like the code, only the first message of a step is handled (documented)."
  },
  {
   "property": "C52",
   "status": "proved",
   "theorems": [
    "c52_all_to_all",
    "c52_exclusive",
    "c52_one_to_one"
   ],
   "note": "Proved for all sizes whose product fits in size_t."
  },
  {
   "property": "C53",
   "status": "partial",
   "theorems": [
    "c53_aligned_partial",
    "c53_in_range_iff",
    "c53_refuted"
   ],
   "note": "Proved for sizes where the smaller divides the larger; c53_in_range_iff shows that this is exactly when the ends are in range. The property is false otherwise (c53_refuted: sizes 5 and 3 give a synapse to neuron 4 of 3) and for one empty population (division by zero)."
  },
  {
   "property": "C54",
   "status": "proved",
   "theorems": [
    "c54_fixed_post",
    "c54_fixed_pre",
    "c54_fixed_probability",
    "c54_probability_refused",
    "c54_probability_ends",
    "c54_limits"
   ],
   "note": "Random draws are arbitrary within the range of the distribution. c54_limits: neurons are drawn with replacement (an edge may repeat); an empty postsynaptic population gives out-of-range ends; a NaN probability is accepted."
  },
  {
   "property": "C55",
   "status": "proved",
   "theorems": [
    "c55_projection",
    "c55_population",
    "c55_once"
   ],
   "note": "Report exact for every list of populations and projections; each population at most once."
  },
  {
   "property": "C56",
   "status": "partial",
   "theorems": [
    "c56_split_partial",
    "c56_partition",
    "c56_wrap_refuted",
    "c56_truncation_refuted"
   ],
   "note": "Proved for datasets below 2^32 frames and sums that fit in size_t. False otherwise: t + i wraps (c56_wrap_refuted, accepted and then out of range) and counts are cut to 32 bits (c56_truncation_refuted)."
  },
  {
   "property": "C57",
   "status": "partial",
   "theorems": [
    "c57_counts_partial",
    "c57_refuted",
    "c57_stuck"
   ],
   "note": "The four counts are characterised exactly and add up. The claim is false for false positives: they are booked on the labelled class, not the predicted one (c57_refuted). c57_stuck: messages not starting at step 0 or out of order are silently ignored."
  },
  {
   "property": "C58",
   "status": "partial",
   "theorems": [
    "c58_send_time_refuted",
    "c58_send_time_partial"
   ],
   "note": "Refuted: the header has the step of the first spike that contributed, not the send step. Partial: delay 1."
  },
  {
   "property": "C59",
   "status": "partial",
   "theorems": [
    "c59_window_partial",
    "c59_early_refuted"
   ],
   "note": "Holds from step >= period on; in the first steps the unsigned start of the window wraps and is swapped, so that the window is inverted (c59_early_refuted)."
  },
  {
   "property": "C60",
   "status": "proved",
   "theorems": [
    "c60_independent",
    "c60_idle",
    "c60_forced_punished",
    "c60_beyond"
   ],
   "note": "Blifat and AltAI variants are the same code but for the neuron type."
  },
  {
   "property": "C61",
   "status": "partial",
   "theorems": [
    "c61_factor_partial",
    "c61_early_refuted",
    "c61_punished_stability"
   ],
   "note": "Holds when at least ISImax steps passed; before, the unsigned difference wraps and the factor is -1 where the documented one is >= 1 (c61_early_refuted)."
  },
  {
   "property": "C62",
   "status": "proved",
   "theorems": [
    "c62_sequence"
   ],
   "note": "Proved for lengths up to 2^32; a stream that ends early is reported as undefined behaviour (uninitialised value)."
  },
  {
   "property": "C63",
   "status": "proved",
   "theorems": [
    "c63_from_container",
    "c63_clone",
    "c63_index_based"
   ],
   "note": "Map contents are modelled in iteration order."
  },
  {
   "property": "C64",
   "status": "proved",
   "theorems": [
    "c64_training",
    "c64_inference",
    "c64_pass",
    "c64_empty_part_ub"
   ],
   "note": "Empty parts divide by zero (c64_empty_part_ub)."
  },
  {
   "property": "C65",
   "status": "proved",
   "theorems": [
    "c65_converter",
    "c65_too_many_active"
   ],
   "note": "Proved for active steps <= steps per frame; more active steps throw (c65_too_many_active, one-pixel images)."
  },
  {
   "property": "C66",
   "status": "partial",
   "theorems": [
    "c66_pairs_partial",
    "c66_refuted"
   ],
   "note": "Proved for at least as many images as labels and labels ended by line feeds. False otherwise (c66_refuted): an unterminated last label is dropped; a surplus label is paired with the previous image."
  },
  {
   "property": "C67",
   "status": "partial",
   "theorems": [
    "c67_range",
    "c67_values",
    "c67_get_recall",
    "c67_recall_is_precision",
    "c67_recall_refuted",
    "c67_rows",
    "c67_rows_count"
   ],
   "note": "Range [0,1] of all five metrics for all counts (through Flocq reals), correctly rounded quotients for counts up to 2^24, rows. The recall column of the CSV is refuted: processor.cpp passes the false positives, so it repeats the precision (c67_recall_is_precision, c67_recall_refuted)."
  },
  {
   "property": "C68",
   "status": "partial",
   "theorems": [
    "c68_round_trip",
    "c68_exact_refuted",
    "c68_stable",
    "c68_save_limits",
    "c68_empty_refuted"
   ],
   "note": "Proved: a saveable network (>=1 population, >=1 projection, none empty, no additive STDP) always saves and loads to the same identifiers, synapses, locks and neuron fields except an exact per-kind list of forgotten fields; projections exact; loading again is stable; exact condition for saving to throw. Refuted parts: each forgotten field really is lost (c68_exact_refuted), a saved empty population or projection makes loading read out of bounds (c68_empty_refuted)."
  },
  {
   "property": "C69",
   "status": "partial",
   "theorems": [
    "c69_tables",
    "c69_once_refuted"
   ],
   "note": "Proved: exactly the used types are listed, none more than twice. Refuted: 'one row each' fails on every first saving, because the last row is never compared (type_id_defines.h:87)."
  },
  {
   "property": "C70",
   "status": "partial",
   "theorems": [
    "c70_dataflow",
    "c70_alone",
    "c70_outside_impacts",
    "c70_same_as_single_threaded_refuted"
   ],
   "note": "Dataflow and per-part behaviour proved in full. The last sentence (interchangeability) is false: an impact message from outside is taken in one step later than on the single-threaded backend (c70_outside_impacts, c70_same_as_single_threaded_refuted); see also C27-C29. Networks with resource STDP: C90."
  },
  {
   "property": "C71",
   "status": "proved",
   "theorems": [
    "c71_dataflow",
    "c71_stdp_only_silent"
   ],
   "note": "c71_dataflow, c71_stdp_only_silent."
  },
  {
   "property": "C72",
   "status": "partial",
   "theorems": [
    "c72_frame",
    "c72_same_size",
    "c72_weaken_refuted",
    "c72_source_ignored_refuted",
    "c72_stdp_only_never_trains"
   ],
   "note": "Proved: frame (c72_frame), equal sizes whenever the rule is applied, i.e. the assertion holds (c72_same_size). Refuted: a weight never gets smaller (c72_weaken_refuted: both factors are +1 and the time difference is unsigned); the presynaptic history is searched by the target neuron, the source's spikes are ignored (c72_source_ignored_refuted); a projection with STDPOnly populations only never trains (c72_stdp_only_never_trains)."
  },
  {
   "property": "C73",
   "status": "partial",
   "theorems": [
    "c73_json_round_trip_partial",
    "c73_h5_round_trip_partial",
    "c73_h5_default",
    "c73_h5_near",
    "c73_no_spike_lost",
    "c73_value_text",
    "c73_h5_refuted",
    "c73_json_refuted",
    "c73_json_index_refuted",
    "c73_senders_forgotten",
    "c73_empty_dropped"
   ],
   "note": "Proved: JSON for steps up to 2^24 and indexes below 2^31 (c73_json_round_trip_partial), HDF5 whenever steps survive multiplication and division by time_per_step (c73_h5_round_trip_partial), in particular for time_per_step 1 and steps up to 2^24 (c73_h5_default); for other times of a step a spike comes back at its step or one early (c73_h5_near); nothing is ever lost (c73_no_spike_lost). Refuted: with time_per_step 0.001 step 63 comes back as 62 (c73_h5_refuted); steps 2^24 and 2^24+1 merge (c73_json_refuted); an index of 2^31 or more makes the library's own file undefined to load (c73_json_index_refuted). Senders and empty messages are not stored (c73_senders_forgotten, c73_empty_dropped)."
  },
  {
   "property": "C74",
   "status": "partial",
   "theorems": [
    "c74_json_reported_partial",
    "c74_h5_reported_partial",
    "c74_not_json",
    "c74_root_refuted",
    "c74_attributes_refuted",
    "c74_attribute_refuted",
    "c74_node_refuted",
    "c74_time_refuted",
    "c74_version_refuted",
    "c74_magic_refuted"
   ],
   "note": "Proved for all files whose parts, where present, have the types of the format, as an exact characterisation of success and exception (c74_json_reported_partial, c74_h5_reported_partial). Refuted otherwise: a root that is not an object, attributes of other types, nodes that are not 32-bit numbers, times below 0 give undefined behaviour (c74_root_refuted, c74_attributes_refuted, c74_attribute_refuted, c74_node_refuted, c74_time_refuted), so does an HDF5 version attribute of three numbers beginning 0, 1 (c74_version_refuted); strict mode accepts a magic attribute without a value (c74_magic_refuted)."
  },
  {
   "property": "C75",
   "status": "partial",
   "theorems": [
    "c75_training",
    "c75_stability_at_isi_refuted"
   ],
   "note": "c75_training proves the closed form (in exact arithmetic, neurons whose last spike is not in the future). The documented sign of stability_change_at_isi_ is refuted: it is subtracted (c75_stability_at_isi_refuted)."
  },
  {
   "property": "C76",
   "status": "partial",
   "theorems": [
    "c76_once",
    "c76_every_spike_refuted"
   ],
   "note": "Proved relative to the ISI status the code computes (c76_once). As that status never continues a period when step numbers grow (C40), the synapse is in fact strengthened at every spike (c76_every_spike_refuted, c76_twice)."
  },
  {
   "property": "C77",
   "status": "partial",
   "theorems": [
    "c77_stop_runs_pending_tasks_partial",
    "c77_two_executors_refuted",
    "c77_post_after_stop_refuted"
   ],
   "note": "Proved for programs that use one executor and post nothing after stop(). Refuted otherwise: with two executors a queued task is lost (the context becomes READY when one executor runs out of tasks), and a task that posts after stop() resets the state, so that the workers wait forever."
  },
  {
   "property": "C78",
   "status": "proved",
   "theorems": [
    "c78_sender_order",
    "c78_same_sequence",
    "c78_subsequence"
   ],
   "note": "libzmq itself is modelled by its documented behaviour (trusted)."
  },
  {
   "property": "C79",
   "status": "partial",
   "theorems": [
    "c79_round",
    "c79_delivery_partial",
    "c79_count_refuted",
    "c79_lost_refuted",
    "c79_send_blocks_refuted"
   ],
   "note": "Proved: the round ends and publishes everything once; delivery if the receiving socket has room. Refuted: the result is twice the number of messages (identity frames are counted, unlike the CPU bus); messages beyond the high-water mark of a receiver are lost silently; send_message() spins forever when the bus is not run. packed_size > 5 is a hypothesis (a 5-byte body would be taken for an identity)."
  },
  {
   "property": "C80",
   "status": "partial",
   "theorems": [
    "c80_lines_partial",
    "c80_same_name_refuted",
    "c80_period_zero_refuted",
    "c80_status_period_refuted"
   ],
   "note": "Proved for a positive period and different names. Refuted: populations with the same name share a column but have two in the header; period 0 is a division by zero; the status logger of the same file takes a period and ignores it."
  },
  {
   "property": "C81",
   "status": "partial",
   "theorems": [
    "c81_blocks_partial",
    "c81_weights_refuted",
    "c81_other_kind_refuted"
   ],
   "note": "Proved for resource-STDP projections with neuron numbers below 2^64-1. Refuted: the values are synaptic resources, not weights; a projection of any other kind makes the logger throw."
  },
  {
   "property": "C82",
   "status": "partial",
   "theorems": [
    "c82_rescale_partial",
    "c82_end_refuted",
    "c82_point_refuted",
    "c82_int_refuted"
   ],
   "note": "Proved for float and double when the length of the input interval and the result do not overflow: start to start, monotone, never below the start, error at most 8 ulp-like units of the output bounds plus underflow. Refuted: the end can become more or less than the end of the output interval; an interval of one point gives NaN; Rescaler<int> maps everything to the start when the output interval is shorter."
  },
  {
   "property": "C83",
   "status": "proved",
   "theorems": [
    "c83_neurons",
    "c83_synapses",
    "c83_state_refuted"
   ],
   "note": "Proved for correctors without state. c83_state_refuted shows that a corrector with a state starts again in every population, because it is passed by value."
  },
  {
   "property": "C84",
   "status": "proved",
   "theorems": [
    "c84_dataflow",
    "c84_exactly_once",
    "c84_latency"
   ],
   "note": "Single-threaded backend; exact equation of every mailbox; impacts up to order inside a message."
  },
  {
   "property": "C85",
   "status": "proved",
   "theorems": [
    "c85_structure",
    "c85_frame"
   ],
   "note": "Frame conditions per kind of projection."
  },
  {
   "property": "C86",
   "status": "proved",
   "theorems": [
    "c86_neuron_step",
    "c86_locality"
   ],
   "note": "One function for all networks, both neuron kinds and all steps; C75 gives its closed form. c86_neuron_step says what a neuron with STDP does before its training: the same as one without, on the impacts addressed to it, with the forced flag set exactly by forcing excitatory impacts of this step."
  },
  {
   "property": "C87",
   "status": "proved",
   "theorems": [
    "c87_any_schedule"
   ],
   "note": "A training task is one atomic action in the model; tasks touch disjoint populations and synapses (C85, C86). Equality up to the search index of a projection, which cannot be seen from outside."
  },
  {
   "property": "C88",
   "status": "proved",
   "theorems": [
    "c88_locked",
    "c88_stop_learning",
    "c88_nothing_before_start",
    "c88_locked_threshold",
    "c88_additive_not_stopped",
    "c88_inference_changed"
   ],
   "note": "Proved for resource synapses (weights and resources frozen, but for the last-spike stamp). Refuted for the rest: additive-STDP projections go on learning (c88_additive_not_stopped) and the additional threshold of a learning neuron becomes 0 when it fires with all its projections locked, so the spikes of the network change (c88_locked_threshold, c88_inference_changed)."
  },
  {
   "property": "C89",
   "status": "proved",
   "theorems": [
    "c89_weights_follow_resource",
    "c89_after_a_spike"
   ],
   "note": "Invariant of all runs; binary32 arithmetic of the code."
  },
  {
   "property": "C90",
   "status": "proved",
   "theorems": [
    "c90_dataflow",
    "c90_populations",
    "c90_schedules",
    "c90_synapses",
    "c90_outputs"
   ],
   "note": "A training task is one atomic action of the model (the tasks work on disjoint populations and synapses, C85, C86). Equality of projections up to the search index, which cannot be seen from outside. c90_outputs needs fewer than 2^64 steps, at most 2^63 synapses per projection and messages from outside without repeated neurons."
  },
  {
   "property": "C91",
   "status": "partial",
   "theorems": [
    "c91_each_once",
    "c91_launch",
    "c91_config",
    "c91_large_refuted"
   ],
   "note": "Full claim proved up to 2^32 elements, refuted beyond."
  },
  {
   "property": "C92",
   "status": "proved",
   "theorems": [
    "c92_sequence",
    "c92_construct",
    "c92_answers",
    "c92_copies"
   ],
   "note": "All sequences of calls on vectors of plain data; allocation failure is not modelled."
  },
  {
   "property": "C93",
   "status": "partial",
   "theorems": [
    "c93_host_partial",
    "c93_copies",
    "c93_erase_refuted",
    "c93_assign_refuted",
    "c93_device_refuted"
   ],
   "note": "Proved for host programs without middle erases; the rest of the claim is refuted for every class type."
  },
  {
   "property": "C94",
   "status": "partial",
   "theorems": [
    "c94_device",
    "c94_host_exact",
    "c94_host_refuted"
   ],
   "note": "Device comparison proved exact; host comparison characterised exactly and refuted."
  },
  {
   "property": "C95",
   "status": "partial",
   "theorems": [
    "c95_plain",
    "c95_class",
    "c95_emptied_refuted"
   ],
   "note": "Proved for vectors that hold elements or never had capacity, plain data and class elements; an emptied vector copies to one whose next push_back writes through null (c95_emptied_refuted)."
  },
  {
   "property": "C96",
   "status": "proved",
   "theorems": [
    "c96_history",
    "c96_subscriptions"
   ],
   "note": "Histories whose sizes stay within the 2^32 elements a launch reaches (C91)."
  },
  {
   "property": "C97",
   "status": "partial",
   "theorems": [
    "c97_unload",
    "c97_remove_receiver_refuted",
    "c97_unsubscribe_refuted",
    "c97_remove_sender"
   ],
   "note": "The reading half is proved; removal of receivers and of older subscriptions is refuted."
  },
  {
   "property": "C98",
   "status": "partial",
   "theorems": [
    "c98_round_trip",
    "c98_to_host",
    "c98_from_host",
    "c98_sync",
    "c98_once_refuted"
   ],
   "note": "Exactly-once delivery of host messages on the device is refuted by c98_once_refuted; everything else is proved."
  },
  {
   "property": "C99",
   "status": "partial",
   "theorems": [
    "c99_exactly_once",
    "c99_third_refuted",
    "c99_same_as_host",
    "c99_short_delays"
   ],
   "note": "The unrestricted property is refuted by c99_third_refuted; under the two restrictions it holds for all runs."
  },
  {
   "property": "C100",
   "status": "partial",
   "theorems": [
    "c100_three_messages_refuted",
    "c100_messages",
    "c100_first_neuron_refuted",
    "c100_first_neuron",
    "c100_silent",
    "c100_others",
    "c100_same_as_host_partial",
    "c100_same_as_host_refuted",
    "c100_order_refuted",
    "c100_bursting"
   ],
   "note": "Refuted in general (c100_first_neuron_refuted, c100_same_as_host_refuted, c100_order_refuted, c100_three_messages_refuted); c100_same_as_host_partial is the case that holds, c100_first_neuron and c100_others say exactly what the device computes."
  },
  {
   "property": "C101",
   "status": "proved",
   "theorems": [
    "c101_bus",
    "c101_populations",
    "c101_projections"
   ],
   "note": "Conditional on the run being defined (C99 and C100 say when it is not). Delays of at least 1: impacts with delay 0 are never sent (c99_zero_delay)."
  },
  {
   "property": "C102",
   "status": "partial",
   "theorems": [
    "c102_twice_refuted",
    "c102_calls"
   ],
   "note": "The property as promised by C01 is refuted; what is sent is characterised for all runs."
  },
  {
   "property": "C103",
   "status": "partial",
   "theorems": [
    "c103_reported_identifiers_refuted",
    "c103_never_again",
    "c103_listed_partial",
    "c103_available",
    "c103_added_partial",
    "c103_object",
    "c103_gpu_refuted"
   ],
   "note": "Refuted for every machine and history (c103_reported_identifiers_refuted, c103_gpu_refuted); what is listed and selection by object are proved."
  },
  {
   "property": "C104",
   "status": "partial",
   "theorems": [
    "c104_power_refuted",
    "c104_power_partial",
    "c104_unavailable"
   ],
   "note": "Refuted below one second; above, the exact divisor is given."
  },
  {
   "property": "C105",
   "status": "partial",
   "theorems": [
    "c105_loading",
    "c105_network",
    "c105_messages",
    "c105_order_refuted"
   ],
   "note": "Order of delivery refuted: c105_order_refuted. The executor on the single-threaded backend only; handlers, generators and observers that throw are not modelled."
  },
  {
   "property": "C106",
   "status": "partial",
   "theorems": [
    "c106_inputs",
    "c106_refused_refuted"
   ],
   "note": "c106_refused_refuted shows the double delivery on a run; it is what the code does and c106_inputs states it for every run."
  },
  {
   "property": "C107",
   "status": "proved",
   "theorems": [
    "c107_buffers",
    "c107_reads"
   ],
   "note": "Composes C105 with C47."
  },
  {
   "property": "C108",
   "status": "proved",
   "theorems": [
    "c108_handlers",
    "c108_first"
   ],
   "note": "Handlers as arbitrary functions of the number of the call and the messages received; the first round of a handler is c108_first."
  },
  {
   "property": "C109",
   "status": "partial",
   "theorems": [
    "c109_held",
    "c109_answers",
    "c109_supported",
    "c109_remove_refuted",
    "c109_cuda_refuted"
   ],
   "note": "Refuted: remove_populations and remove_projections do nothing on any backend (c109_remove_refuted); on CUDA load_all_* only fills containers the device never sees, so such a network does nothing, and get_network_copy dereferences null (c109_cuda_refuted)."
  },
  {
   "property": "C110",
   "status": "partial",
   "theorems": [
    "c110_last_load",
    "c110_restart",
    "c110_late_refuted",
    "c110_reload_partial",
    "c110_reload_refuted"
   ],
   "note": "First start (c110_last_load) and restart (c110_restart) proved. Refuted: a projection loaded after the first start is never subscribed, so it neither receives nor sends (c110_late_refuted, for all histories); reloading loses impacts under way (c110_reload_refuted), and is without effect if there are none (c110_reload_partial). CPU single-threaded backend."
  },
  {
   "property": "C111",
   "status": "proved",
   "theorems": [
    "c111_deterministic"
   ],
   "note": "Non-interference over pairs of runs (c111_deterministic); the functions exp and 2^x are parameters."
  },
  {
   "property": "C112",
   "status": "partial",
   "theorems": [
    "c112_transfer",
    "c112_waiting_refuted",
    "c112_stdp_refuted"
   ],
   "note": "Proved for networks without learning that are at rest (c112_transfer), including wrap-around of the step counter. Refuted otherwise: waiting impacts are not copied (c112_waiting_refuted); STDP state refers to the old step counter, and the copy learns differently even at rest (c112_stdp_refuted)."
  },
  {
   "property": "C113",
   "status": "partial",
   "theorems": [
    "c113_next_step",
    "c113_any_spikes",
    "c113_alone",
    "c113_nothing_stray",
    "c113_unchecked",
    "c113_stray_refuted"
   ],
   "note": "Safety of whole runs of the single-threaded backend model; c113_stray_refuted shows the unchecked cases (throw for LIF with dopamine/blocking/conductance, out-of-bounds write for a target index past the end)."
  },
  {
   "property": "C114",
   "status": "partial",
   "theorems": [
    "c114_next_step",
    "c114_alone",
    "c114_repeated_refuted"
   ],
   "note": "c114_next_step (any history, any schedule), c114_alone (a network left alone runs for any number of steps). The claim without the condition on repeated neurons is refuted by c114_repeated_refuted (2^62 x 2 does not fit int64; the single-threaded backend returns on the same network and calls)."
  },
  {
   "property": "C115",
   "status": "partial",
   "theorems": [
    "c115_run",
    "c115_throws",
    "c115_count",
    "c115_registered",
    "c115_each",
    "c115_default_names",
    "c115_one_entry_refuted",
    "c115_name_refuted"
   ],
   "note": "c115_run, c115_throws (exact, both directions), c115_count, c115_registered, c115_each, c115_default_names. The documented \"one entry per executed validator\" is refuted by c115_one_entry_refuted; c115_name_refuted: an unrelated name tag aborts the validation."
  },
  {
   "property": "C116",
   "status": "proved",
   "theorems": [
    "c116_never_fails",
    "c116_steps",
    "c116_no_generator"
   ],
   "note": "c116_never_fails, c116_steps, c116_no_generator, on the single-threaded backend."
  },
  {
   "property": "C117",
   "status": "partial",
   "theorems": [
    "c117_same",
    "c117_one_each",
    "c117_order_refuted"
   ],
   "note": "c117_same and c117_one_each: same neurons, synapses and messages. The claim without a condition on the order of impacts is false of the code: c117_order_refuted exhibits two schedules of the multi-threaded backend with different spikes. The calls from outside leaving the same messages waiting on both buses is proved (Same_Proofs4.same_ext), not assumed."
  },
  {
   "property": "C118",
   "status": "partial",
   "theorems": [
    "c118_weights",
    "c118_ends",
    "c118_order",
    "c118_all_weights",
    "c118_unchanged",
    "c118_altai_only",
    "c118_thresholds",
    "c118_threshold_once",
    "c118_completes",
    "c118_relation_refuted",
    "c118_leak_refuted",
    "c118_zero_refuted"
   ],
   "note": "The guarantees are proved in full. The wanted relation between projections, to the leak, and the case of zeros are false of the code: c118_relation_refuted, c118_leak_refuted, c118_zero_refuted are the counterexamples."
  },
  {
   "property": "C119",
   "status": "partial",
   "theorems": [
    "c119_symmetric",
    "c119_range",
    "c119_back",
    "c119_monotone",
    "c119_lowest",
    "c119_infinite_refuted"
   ],
   "note": "c119_back, c119_monotone and c119_lowest for bounds within [-2, 2]; c119_infinite_refuted shows that without such a bound an accepted weight may give an infinite resource."
  },
  {
   "property": "C120",
   "status": "partial",
   "theorems": [
    "c120_replaced",
    "c120_one_sender",
    "c120_refused",
    "c120_two_senders_refuted",
    "c120_prepared",
    "c120_hardware"
   ],
   "note": "Proved in full for groups with one sender; the loop over several senders cannot work: c120_two_senders_refuted (the receiver has been removed when the second sender is reached, so get_projection throws)."
  },
  {
   "property": "C121",
   "status": "partial",
   "theorems": [
    "c121_parts",
    "c121_order_free",
    "c121_description",
    "c121_unknown_refuted",
    "c121_drawing",
    "c121_names_refuted"
   ],
   "note": "Proved in full for networks whose projections all lead to populations of the network. False of the code: a projection to an unknown population is an out-of-range index (c121_unknown_refuted); draw_annotated_subgraph takes the name of nodes_[i] instead of nodes_[nodes[i]] (c121_names_refuted)."
  },
  {
   "property": "C122",
   "status": "partial",
   "theorems": [
    "c122_return",
    "c122_at_most_once",
    "c122_not_lost",
    "c122_progress",
    "c122_bounded",
    "c122_all_return",
    "c122_terminated",
    "c122_no_throw",
    "c122_schedule_refuted",
    "c122_unfinished_refuted",
    "c122_foreign_refuted"
   ],
   "note": "Proved for all schedules: completeness of a normal return (c122_return), at most once, delivery exactly once while the process lives (c122_not_lost), progress, boundedness, end states, termination only by a worker running a throwing task (c122_terminated; never without workers), coincidence with C41-C43's model when nothing throws. Refuted: the same program throws or is terminated depending on the schedule (c122_schedule_refuted), join() throws while other tasks of its executor are still queued (c122_unfinished_refuted), join() throws the exception of another executor's task while the join() of that one returns normally (c122_foreign_refuted)."
  },
  {
   "property": "C123",
   "status": "partial",
   "theorems": [
    "c123_network",
    "c123_messages",
    "c123_inputs",
    "c123_buffers",
    "c123_handlers",
    "c123_lost_refuted"
   ],
   "note": "MtExec_Model over Exec_Model and MtNet_Model."
  },
  {
   "property": "C124",
   "status": "partial",
   "theorems": [
    "c124_same",
    "c124_handler_refuted"
   ],
   "note": "c124_same; c124_handler_refuted shows that the condition on handlers is needed."
  },
  {
   "property": "C125",
   "status": "partial",
   "theorems": [
    "c125_input",
    "c125_images",
    "c125_images_refuted",
    "c125_no_size_refuted",
    "c125_exact",
    "c125_levels",
    "c125_levels_refuted",
    "c125_count",
    "c125_skip_refuted",
    "c125_observed",
    "c125_observed_refuted"
   ],
   "note": "Proved for up to 363 levels (the client uses 10): c125_input, c125_exact, c125_count; for more levels right unless brightness * levels = 256 * frame exactly (c125_levels), and wrong there with 364 levels (c125_levels_refuted, binary64 rounding). Refuted: a file of n whole images gives n + 1 images, the last one black (c125_images_refuted; the loop tests the stream before the read); images of size 0 never end (c125_no_size_refuted); the generator's skip parameter reads behind the frames for every value but 0 (c125_skip_refuted; the client uses the default 0); the observer records only the first message of a step, so that with two output populations, or after an empty first message, results are lost (c125_observed_refuted). The observer is right for at most one message per step (c125_observed)."
  },
  {
   "property": "C126",
   "status": "partial",
   "theorems": [
    "c126_network",
    "c126_closed",
    "c126_runs",
    "c126_prepared",
    "c126_altai",
    "c126_blifat",
    "c126_altai_shapes",
    "c126_blifat_shapes",
    "c126_inference",
    "c126_client_refuted",
    "c126_client_accepts",
    "c126_alone"
   ],
   "note": "c126_network and c126_closed for all calls, c126_runs and c126_prepared: sound and wired, hence C113; c126_altai and c126_blifat: the calls of the example are of this kind; c126_altai_shapes, c126_blifat_shapes and c126_inference: what the networks consist of; c126_client_refuted: with 10 classes, columns of 20 and 784 pixels (global_config.h, hyperparameters.h of both models) the projection of images has 156800 synapses and do_inference of mnist-client throws; c126_client_accepts: with columns of 15 it would not. A negative finding."
  },
  {
   "property": "C127",
   "status": "partial",
   "theorems": [
    "c127_never_fails",
    "c127_steps",
    "c127_repeated_refuted"
   ],
   "note": "c127_never_fails, c127_steps; c127_repeated_refuted: wired, loadable, the same program runs on the single-threaded backend (C116), undefined on this one. A negative finding, the executor's form of c114_repeated_refuted."
  },
  {
   "property": "C128",
   "status": "partial",
   "theorems": [
    "c128_trains",
    "c128_told",
    "c128_connected",
    "c128_competition",
    "c128_winners",
    "c128_nothing_to_train_refuted"
   ],
   "note": "Composes C126, C116, C64 and C51 on the executable loop. c128_trains, c128_told (what comes from outside in each step), c128_connected (which projections each channel leads to, however the buckets of the multimap come out), c128_competition (in every step the handler of the winners gets the spikes of the input population and sends the winners drawn among them, which the projection from input to output hears; the output channel gets the spikes of the output population), c128_winners; c128_nothing_to_train_refuted. Single-threaded backend. Loggers are observers."
  },
  {
   "property": "C129",
   "status": "proved",
   "theorems": [
    "c129_again",
    "c129_never_fails",
    "c129_same",
    "c129_inference"
   ],
   "note": "c129_again: any part of what the executor leaves is sound, has its indexes up to date and is wired for any channels and handlers, so the statement can be applied again to the second run. c129_never_fails: so every second run is carried out. c129_same: sizes of the populations and the fixed parts of the projections are those of before. c129_inference: for the MNIST networks, after train_network and the cut to what is kept (prepare_blifat, the preparation of BLIFAT; for AltAI the replacement of the winners' projections and the quantization are apart, C120). Hypothesis: every projection has its index up to date (as constructors leave it; c129_inference proves it for networks of the constructor). Messages waiting in a backend are not part of a network taken out of it."
  }
 ]
}