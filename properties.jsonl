{"id": "C01", "title": "Exact delivery on the in-process bus", "statement": "After a routing pass in which every pending message has been sent through live endpoints, followed by receive_all_messages on an endpoint, each subscription of that endpoint has been given exactly those pending messages whose message type is the subscription's type and whose header sender is among the subscription's senders: none is missing, none is duplicated, none is foreign, and a message reaches a subscription regardless of how many other subscriptions or endpoints also take it.", "quantifier": "every set of endpoints and subscriptions built by subscribe/unsubscribe calls, every list of sent messages", "why_tests_cant": "the number of endpoints, subscriptions, senders and messages is unbounded and the delivery goes through three mutable containers; tests only sample small topologies", "anchors": ["/repo/knp/core-library/impl/message_bus_cpu_impl/message_bus_cpu_impl.cpp: MessageBusCPUImpl::update, ::step", "/repo/knp/core-library/impl/message_bus.cpp: MessageBus::route_messages", "/repo/knp/core-library/impl/message_endpoint.cpp: MessageEndpoint::receive_message, ::receive_all_messages, ::subscribe"]}
{"id": "C02", "title": "Send order is preserved across one routing round", "statement": "If messages are sent, routed by one route_messages call and then received by receive_all_messages, a subscription unloads them in the order in which they were sent (messages of one endpoint in sending order, endpoints in creation order), although the bus and the endpoint both take messages from the back of their buffers.", "quantifier": "every list of pending messages, every set of endpoints and subscriptions", "why_tests_cant": "order is produced by two reversals that only cancel when the buffers are empty beforehand; a test fixes one batch size", "anchors": ["/repo/knp/core-library/impl/message_bus_cpu_impl/message_bus_cpu_impl.cpp: MessageBusCPUImpl::step", "/repo/knp/core-library/impl/message_bus_cpu_impl/message_endpoint_cpu_impl.h: MessageEndpointCPUImpl::receive_message"]}
{"id": "C03", "title": "Send order is preserved across several routing rounds", "statement": "Messages from one sender are unloaded from a subscription in the order in which they were sent, also when route_messages is called several times before the receiving endpoint receives.", "quantifier": "every interleaving of send, route_messages, receive_all_messages and unload_messages", "why_tests_cant": "the failing history needs two routing rounds without a receive in between", "anchors": ["/repo/knp/core-library/impl/message_bus_cpu_impl/message_bus_cpu_impl.cpp: MessageBusCPUImpl::step", "/repo/knp/core-library/impl/message_bus_cpu_impl/message_endpoint_cpu_impl.h: MessageEndpointCPUImpl::receive_message"]}
{"id": "C04", "title": "Routing drains the bus and reports the exact count", "statement": "route_messages returns the number of messages that were pending (left in the bus buffer plus sent by live endpoints), leaves no message pending, and a second route_messages with no send in between returns 0 and delivers nothing.", "quantifier": "every bus state", "why_tests_cant": "loop termination and the count must hold for every number of pending messages", "anchors": ["/repo/knp/core-library/impl/message_bus.cpp: MessageBus::route_messages", "/repo/knp/core-library/impl/message_bus_cpu_impl/message_bus_cpu_impl.cpp"]}
{"id": "C05", "title": "Unloading hands over each message once", "statement": "unload_messages returns the messages accumulated by the subscription in arrival order and empties only that subscription: a second call returns nothing, other subscriptions and the bus are unchanged, and for an unknown receiver nothing is returned and nothing changes.", "quantifier": "every endpoint state, receiver and message type", "why_tests_cant": "frame conditions (what must not change) quantify over every other subscription", "anchors": ["/repo/knp/core-library/impl/message_endpoint.cpp: MessageEndpoint::unload_messages"]}
{"id": "C06", "title": "Subscribing accumulates senders and keeps messages", "statement": "After subscribe(receiver, senders) there is exactly one subscription for that message type and receiver, its senders are the union of the earlier ones and the given ones, messages it already held stay, and no other subscription changes; a sequence of subscribe calls depends only on the union of sender lists per (type, receiver).", "quantifier": "every sequence of subscribe calls", "why_tests_cant": "needs all histories of calls, including repeated and overlapping ones", "anchors": ["/repo/knp/core-library/impl/message_endpoint.cpp: MessageEndpoint::subscribe", "/repo/knp/core-library/include/knp/core/subscription.h: Subscription"]}
{"id": "C07", "title": "Unsubscribing stops delivery", "statement": "unsubscribe returns true exactly when a subscription of that type and receiver existed; afterwards none exists, every other subscription is unchanged, and no message received later is stored for that receiver and type until it subscribes again (and then it starts empty).", "quantifier": "every endpoint state and every later history without a re-subscription", "why_tests_cant": "quantifies over every later history", "anchors": ["/repo/knp/core-library/impl/message_endpoint.cpp: MessageEndpoint::unsubscribe"]}
{"id": "C08", "title": "Removing a receiver is well defined", "statement": "remove_receiver(receiver) removes every subscription of that receiver, of any message type, leaves the others as they are and has no undefined behaviour.", "quantifier": "every endpoint state and receiver", "why_tests_cant": "iterator invalidation is undefined behaviour: a test may pass by luck on one allocator", "anchors": ["/repo/knp/core-library/impl/message_endpoint.cpp: MessageEndpoint::remove_receiver"]}
{"id": "C09", "title": "Endpoint sender filter covers its subscriptions", "statement": "In every state reached through subscribe, unsubscribe and receive calls, the sender set by which the in-process bus filters messages for an endpoint contains every sender of every subscription of that endpoint, so filtering never loses a subscribed message.", "quantifier": "every history of endpoint calls", "why_tests_cant": "an invariant over all reachable states", "anchors": ["/repo/knp/core-library/impl/message_endpoint.cpp: MessageEndpoint::subscribe, ::update_senders", "/repo/knp/core-library/impl/message_bus_cpu_impl/message_bus_cpu_impl.cpp: MessageBusCPUImpl::step"]}
{"id": "C10", "title": "Senders added to a subscription object are delivered", "statement": "After Subscription::add_sender(uid) on the object returned by subscribe, messages from uid routed by the bus are delivered to that subscription.", "quantifier": "every endpoint state, every added sender", "why_tests_cant": "depends on whether some other subscription of the endpoint happens to list the same sender", "anchors": ["/repo/knp/core-library/include/knp/core/subscription.h: Subscription::add_sender", "/repo/knp/core-library/impl/message_bus_cpu_impl/message_bus_cpu_impl.cpp: MessageBusCPUImpl::step"]}
{"id": "C11", "title": "Messages of a destroyed endpoint", "statement": "Destroying an endpoint never disturbs delivery among the others: messages sent by other endpoints are routed as if it had never existed, and messages it had sent before a routing pass collected them are discarded, not delivered partially.", "quantifier": "every bus state and every destroyed endpoint", "why_tests_cant": "weak-pointer expiry can happen between any two calls", "anchors": ["/repo/knp/core-library/impl/message_bus_cpu_impl/message_bus_cpu_impl.cpp: MessageBusCPUImpl::update, ::step"]}
{"id": "C12", "title": "Generated identifiers are distinct", "statement": "Any two identifiers produced by the default (counting) generator without a reset in between are different as long as fewer than 2^64 are produced, and an identifier is nil only if the 64-bit counter has wrapped around to 0 or was reset to 0.", "quantifier": "every start value and every number of generated identifiers below the wrap-around", "why_tests_cant": "2^64 is out of reach of tests", "anchors": ["/repo/knp/core-library/impl/uid.cpp", "/repo/knp/core-library/include/knp/core/uid.h"]}
{"id": "C13", "title": "Identifier comparison is a strict total order", "statement": "operator< on identifiers is irreflexive, transitive and total with respect to operator==, so ordered containers keyed by identifiers behave as maps.", "quantifier": "all pairs and triples of 16-byte identifiers", "why_tests_cant": "2^256 pairs", "anchors": ["/repo/knp/core-library/include/knp/core/uid.h: UID::operator<"]}
{"id": "C14", "title": "Text form of messages round-trips", "statement": "Writing a spike message or a synaptic impact message to a stream and reading it back into a message object gives an equal message, for every content and whatever the target object held before.", "quantifier": "every message and every previous content of the object read into", "why_tests_cant": "unbounded contents; the failing case needs an empty message read into a used object", "anchors": ["/repo/knp/core-library/impl/messaging/spike_message.cpp: operator<<, operator>>", "/repo/knp/core-library/impl/messaging/synaptic_impact_message.cpp"]}
{"id": "C15", "title": "Binary envelope round-trips", "statement": "Packing a message into an envelope and extracting it gives the same message with every field, for both message types.", "quantifier": "every message", "why_tests_cant": "unbounded contents", "anchors": ["/repo/knp/core-library/impl/messaging/message_envelope.cpp", "/repo/knp/core-library/impl/messaging/spike_message.cpp: pack/unpack", "/repo/knp/core-library/impl/messaging/synaptic_impact_message.cpp: pack/unpack"]}
{"id": "C16", "title": "Synapse search agrees with the synapse list", "statement": "find_synapses(n, by_presynaptic) (resp. by_postsynaptic) returns exactly the positions of the synapses whose source (resp. target) is n, each once, after every history of construction, add_synapses, clear, remove_synapse, remove_synapse_if, remove_presynaptic_neuron_synapses, remove_postsynaptic_neuron_synapses and earlier searches.", "quantifier": "every history of projection operations, every neuron index", "why_tests_cant": "the search index is cached and invalidated by hand: only particular operation orders expose a stale cache", "anchors": ["/repo/knp/core-library/impl/projection.cpp: Projection::find_synapses, ::reindex, ::remove_postsynaptic_neuron_synapses"]}
{"id": "C17", "title": "Synapse removal is exact and stable", "statement": "remove_synapse_if removes exactly the synapses satisfying the predicate, keeps the rest in order and returns the number removed; remove_presynaptic_neuron_synapses and remove_postsynaptic_neuron_synapses do so for the synapses with that source or target.", "quantifier": "every projection state reached by any history, every predicate and neuron index", "why_tests_cant": "quantifies over predicates and states", "anchors": ["/repo/knp/core-library/impl/projection.cpp: Projection::remove_synapse_if, ::remove_postsynaptic_neuron_synapses, ::remove_presynaptic_neuron_synapses, remove_by_index"]}
{"id": "C18", "title": "Synapse insertion adds what the generator yields", "statement": "add_synapses(generator, n) appends, in order, exactly the values the generator yields for 0..n-1, skips the empty ones, leaves existing synapses at their positions and returns the number added; the constructor does the same from empty.", "quantifier": "every generator, count and projection state", "why_tests_cant": "quantifies over generators", "anchors": ["/repo/knp/core-library/impl/projection.cpp: Projection::add_synapses, Projection::Projection"]}
{"id": "C19", "title": "Neuron removal by index list", "statement": "Population::remove_neurons(indexes) removes exactly the neurons at the given positions and keeps the others in order, for any list of distinct valid indexes. Adding neurons appends the generated ones in order, skipping the indexes the generator refuses.", "quantifier": "every population and index list", "why_tests_cant": "order of the index list matters; tests use ascending lists", "anchors": ["/repo/knp/core-library/include/knp/core/population.h: remove_neurons", "/repo/knp/core-library/impl/population.cpp"]}
{"id": "C20", "title": "Reading a missing tag leaves the tags unchanged", "statement": "A failed typed read of a tag leaves the tag set unchanged; a successful read returns the last value written under that name and writes under other names do not matter.", "quantifier": "every history of tag writes and reads", "why_tests_cant": "frame conditions over histories", "anchors": ["/repo/knp/core-library/include/knp/core/tag.h: TagMap"]}
{"id": "C21", "title": "Step loop call discipline", "statement": "start(pre, post) runs pre(step), one network step, post(step) in that order; the step number grows by exactly one per network step and post gets the number after the step; the loop ends right after the first predicate that returns false and at the end of the iteration in which stop() is requested; initialisation runs exactly once, before the first step of the first start; the number of network steps equals the number of pre-predicates that returned true.", "quantifier": "every pair of predicates (any behaviour) and any number of consecutive starts", "why_tests_cant": "predicates are arbitrary user code", "anchors": ["/repo/knp/core-library/impl/backend.cpp: Backend::start, ::pre_start, ::step"]}
{"id": "C22", "title": "A backend whose run has ended is not running", "statement": "After start(...) returns because a predicate returned false, running() is false.", "quantifier": "every predicate and backend state", "why_tests_cant": "state left behind by the loop, over all ways out of the loop", "anchors": ["/repo/knp/core-library/impl/backend.cpp: Backend::start"]}
{"id": "C23", "title": "Device selection selects all requested devices", "statement": "select_devices(uids) makes exactly the available devices with the requested identifiers current, or throws if one of the identifiers is unknown.", "quantifier": "every available device list and request set", "why_tests_cant": "sets of devices are unbounded; single-device machines hide the error", "anchors": ["/repo/knp/core-library/impl/backend.cpp: Backend::select_devices"]}
{"id": "C24", "title": "Spike impact arrives at the right step exactly once", "statement": "On the single-threaded backend, a spike of neuron i delivered to a projection at step n makes every synapse from i with delay d >= 1 contribute exactly one impact, with that synapse's position, weight, type and end neurons, to the message the projection sends at step n+d-1 and to no other; nothing else is ever sent.", "quantifier": "every projection, every history of incoming spike messages over any number of steps", "why_tests_cant": "delays reach across arbitrarily many steps and histories", "anchors": ["/repo/knp/backends/cpu/cpu-library/include/knp/backends/cpu-library/impl/projections/delta/delta_impl.h: calculate_projection_impl", "/repo/knp/backends/cpu/cpu-library/include/knp/backends/cpu-library/projections.h: calculate_projection"]}
{"id": "C25", "title": "Zero-delay synapses take effect", "statement": "A spike through a synapse with delay 0 produces an impact no later than the step at which a delay-1 synapse would.", "quantifier": "every projection with a zero-delay synapse", "why_tests_cant": "unsigned wrap-around at step 0", "anchors": ["/repo/knp/backends/cpu/cpu-library/include/knp/backends/cpu-library/impl/projections/delta/delta_impl.h"]}
{"id": "C26", "title": "Work partition covers every element exactly once", "statement": "For every container size and every positive part size, the parts in which the multi-threaded backend processes neurons and synapses cover each index exactly once and stay within bounds.", "quantifier": "every size and part size", "why_tests_cant": "boundary arithmetic for all sizes", "anchors": ["/repo/knp/backends/cpu/cpu-multi-threaded-backend/impl/backend.cpp", "/repo/knp/backends/cpu/cpu-library/include/knp/backends/cpu-library/impl/projections/delta/delta_impl.h: calculate_projection_multithreaded_impl"]}
{"id": "C27", "title": "Multi-threaded projection agrees with the single-threaded one", "statement": "For the same projection and one incoming spike message with distinct neuron indexes, the impact messages scheduled by the multi-threaded computation equal those of the single-threaded one up to the order of impacts, for every number of partitions and every order in which the partitions run.", "quantifier": "every projection, message, part size and schedule", "why_tests_cant": "schedules and partitions are unbounded", "anchors": ["/repo/knp/backends/cpu/cpu-library/include/knp/backends/cpu-library/impl/projections/delta/delta_impl.h"]}
{"id": "C28", "title": "Multi-threaded results do not depend on the schedule", "statement": "The neuron states after a step of the multi-threaded backend are a function of the network and the step only, not of the thread schedule.", "quantifier": "every schedule of the partition tasks", "why_tests_cant": "schedules; floating-point addition is not associative", "anchors": ["/repo/knp/backends/cpu/cpu-multi-threaded-backend/impl/backend.cpp", "/repo/knp/backends/cpu/cpu-library/include/knp/backends/cpu-library/impl/projections/delta/delta_impl.h"]}
{"id": "C29", "title": "Multi-threaded projection uses every incoming spike message", "statement": "If several spike messages are waiting for a projection, the multi-threaded backend processes the spikes of all of them, as the single-threaded backend does.", "quantifier": "every list of waiting messages", "why_tests_cant": "needs several senders in the same step", "anchors": ["/repo/knp/backends/cpu/cpu-multi-threaded-backend/impl/backend.cpp: calculate_projections", "/repo/knp/backends/cpu/cpu-library/include/knp/backends/cpu-library/projections.h"]}
{"id": "C30", "title": "LIF refractory period", "statement": "After a LIF neuron spikes, it emits no spike and its potential does not change during the next refract_period_ steps, whatever impacts arrive, and at the following step it reacts to impacts again; a LIF neuron spikes at a step exactly when it is not refractory and its potential after leak and impacts exceeds the threshold.", "quantifier": "every neuron state, every sequence of impact lists, every IEEE-754 value including NaN and infinities", "why_tests_cant": "unbounded step sequences and float inputs", "anchors": ["/repo/knp/backends/cpu/cpu-library/include/knp/backends/cpu-library/impl/populations/lif/lif_impl.h"]}
{"id": "C31", "title": "BLIFAT refractory period", "statement": "Two spikes of a BLIFAT neuron are separated by more than absolute_refractory_period_ steps, for every sequence of impacts.", "quantifier": "every neuron state after a first spike, every impact sequence", "why_tests_cant": "unbounded histories", "anchors": ["/repo/knp/backends/cpu/cpu-library/include/knp/backends/cpu-library/impl/populations/blifat/blifat_impl.h: check_spike_threshold"]}
{"id": "C32", "title": "A fresh BLIFAT neuron may fire", "statement": "A BLIFAT neuron with default parameters that never fired is not held back by the refractory period: it fires at its first step if its potential reaches the threshold.", "quantifier": "every neuron state with default n_time_steps_since_last_firing_", "why_tests_cant": "counter wrap-around at the maximal value", "anchors": ["/repo/knp/neuron-traits-library/include/knp/neuron-traits/blifat.h: default_values", "/repo/knp/backends/cpu/cpu-library/include/knp/backends/cpu-library/impl/populations/blifat/blifat_impl.h"]}
{"id": "C33", "title": "Blocked BLIFAT neuron ignores impacts", "statement": "While its total blocking period is negative (a blocking impact of -k arrived), a BLIFAT neuron's potential and spikes do not depend on excitatory or inhibitory-current impacts, for exactly k steps; afterwards it reacts again.", "quantifier": "every neuron state, every k, every impact sequence", "why_tests_cant": "unbounded block lengths and histories", "anchors": ["/repo/knp/backends/cpu/cpu-library/include/knp/backends/cpu-library/impl/populations/blifat/blifat_impl.h: calculate_post_impact_single_neuron_state_impl"]}
{"id": "C34", "title": "BLIFAT bursting", "statement": "A neuron with bursting period b >= 1 that spikes receives its reflexive weight exactly once, b steps later, unless it spikes in between.", "quantifier": "every b and impact sequence", "why_tests_cant": "counter never reaching its trigger needs b > 1", "anchors": ["/repo/knp/backends/cpu/cpu-library/include/knp/backends/cpu-library/impl/populations/blifat/blifat_impl.h: calculate_pre_impact_single_neuron_state_impl"]}
{"id": "C35", "title": "BLIFAT potential floor", "statement": "After every step the potential of a BLIFAT neuron is not below min_potential_ (unless a value is NaN).", "quantifier": "every state and impact sequence, all float values", "why_tests_cant": "all float inputs", "anchors": ["/repo/knp/backends/cpu/cpu-library/include/knp/backends/cpu-library/impl/populations/blifat/blifat_impl.h"]}
{"id": "C36", "title": "AltAI neuron threshold and activity timer", "statement": "An AltAI neuron emits a spike at a step only if its potential after impacts and leak reaches activation plus additional threshold, and exactly then if its activity timer is positive; a blocking impact of -k (k >= 2) on a neuron silences it for exactly k-1 steps; with default flags the potential stays within the negative threshold.", "quantifier": "every state, flag combination and impact sequence", "why_tests_cant": "flag combinations times unbounded histories", "anchors": ["/repo/knp/backends/cpu/cpu-library/include/knp/backends/cpu-library/impl/populations/altai/altai_impl.h"]}
{"id": "C37", "title": "Population step reports exactly the spiking neurons", "statement": "A population step returns the indexes of the neurons that spiked in strictly increasing order, all below the population size; each neuron's new state depends only on its own state and the impacts addressed to it; a message is sent exactly if the list is non-empty, with the population's identifier and the step.", "quantifier": "every population, every list of impact messages", "why_tests_cant": "population size and messages are unbounded", "anchors": ["/repo/knp/backends/cpu/cpu-library/include/knp/backends/cpu-library/populations.h", "/repo/knp/backends/cpu/cpu-library/include/knp/backends/cpu-library/populations_old.h"]}
{"id": "C38", "title": "Synaptic resource weight range", "statement": "The weight computed from a synaptic resource lies in [w_min, w_max) in exact arithmetic, is monotone in the resource and equals w_min for non-positive resources.", "quantifier": "every resource value and w_min < w_max", "why_tests_cant": "real-valued parameters", "anchors": ["/repo/knp/backends/cpu/cpu-library/include/knp/backends/cpu-library/impl/populations/training/stdp.h: recalculate_synapse_weights"]}
{"id": "C39", "title": "Synaptic resource is conserved", "statement": "Training a neuron moves resource between its free pool and its synapses without creating any, in exact arithmetic; resource leaves only when a neuron is renormalised, and exactly the share of the drain coefficient; with drain coefficient 0 a neuron with at least one synapse keeps all its resource through every history.", "quantifier": "every neuron, synapse set and training event sequence", "why_tests_cant": "event sequences are unbounded", "anchors": ["/repo/knp/backends/cpu/cpu-library/include/knp/backends/cpu-library/impl/populations/training/stdp.h: renormalize_resource", "/repo/knp/backends/cpu/cpu-library/include/knp/backends/cpu-library/impl/populations/blifat/blifat_stdp.h"]}
{"id": "C40", "title": "Spike sequences are recognised by inter-spike interval", "statement": "Consecutive unforced spikes of a neuron at distance below the ISI bound continue the current spike period; a forced spike interrupts it, the next unforced one starts a new period.", "quantifier": "every sequence of spike steps", "why_tests_cant": "unsigned subtraction order", "anchors": ["/repo/knp/backends/cpu/cpu-library/include/knp/backends/cpu-library/impl/populations/training/stdp.h: update_isi"]}
{"id": "C41", "title": "join returns only after every posted task ran", "statement": "When join() of a thread-pool executor returns, every task posted to that executor has been executed exactly once, for every number of worker threads (including zero) and every interleaving and spurious wake-up.", "quantifier": "every number of workers, every task set, every interleaving", "why_tests_cant": "interleavings", "anchors": ["/repo/knp/backends/cpu/thread_pool/impl/thread_pool_context.cpp", "/repo/knp/backends/cpu/thread_pool/include/knp/backends/thread_pool/thread_pool_executor.h"]}
{"id": "C42", "title": "join terminates without deadlock or lost wake-up", "statement": "While a client waits in join() and every task terminates, some thread can always make progress, and only finitely many non-spurious steps happen before join() returns.", "quantifier": "every reachable state of every interleaving", "why_tests_cant": "lost wake-ups occur only in rare interleavings", "anchors": ["/repo/knp/backends/cpu/thread_pool/impl/thread_pool_context.cpp: execute_next, do_work_finished, post", "/repo/knp/backends/cpu/thread_pool/include/knp/backends/thread_pool/thread_pool_executor.h: join"]}
{"id": "C43", "title": "Stopping the pool ends all workers", "statement": "Destroying the context after all executors have joined lets every worker thread leave its loop; none waits for ever.", "quantifier": "every interleaving of the workers with the destructor", "why_tests_cant": "interleavings", "anchors": ["/repo/knp/backends/cpu/thread_pool/impl/thread_pool_context.cpp: stop, ~ThreadPoolContext"]}
{"id": "C44", "title": "Single-threaded step pipeline", "statement": "In a single-threaded step, populations run before projections and each entity sees exactly the messages sent before its phase; a spike emitted by a population at step n reaches a projection in the same step and its impacts with delay d reach the target population at step n+d.", "quantifier": "every network and history", "why_tests_cant": "multi-step end-to-end latency over arbitrary networks", "anchors": ["/repo/knp/backends/cpu/cpu-single-threaded-backend/impl/backend.cpp: _step", "/repo/knp/backends/cpu/cpu-library/include/knp/backends/cpu-library/init.h"]}
{"id": "C45", "title": "Network entity identifiers stay unique", "statement": "A network built with add_population(Population) / add_projection(Projection) never holds two populations (projections) with the same identifier; adding a duplicate throws and changes nothing; lookups return the entity last added under that identifier and removal removes exactly it.", "quantifier": "every history of add/remove/get calls", "why_tests_cant": "histories", "anchors": ["/repo/knp/base-framework/impl/network.cpp"]}
{"id": "C46", "title": "Each input and output channel keeps its own identifier", "statement": "Loading a model creates one input channel per distinct input channel identifier of the model with that channel's projections, and fails if a data generator is missing.", "quantifier": "every model and every hash bucket layout", "why_tests_cant": "depends on hash bucket collisions", "anchors": ["/repo/knp/base-framework/impl/model_loader.cpp: init_channels"]}
{"id": "C47", "title": "Output channel reads are exact", "statement": "read_some_from_buffer(a, b) returns, in order, exactly the buffered messages whose step lies in [a, b], removes them from the buffer and keeps all the others, for messages buffered in step order.", "quantifier": "every buffer content and interval", "why_tests_cant": "all contents and intervals", "anchors": ["/repo/knp/base-framework/impl/output_channel.cpp"]}
{"id": "C48", "title": "Input channels send only non-empty data and stop with the run", "statement": "An input channel sends one message per step exactly if its generator yields a non-empty list, stamped with that step; when the run predicate refuses a step, no input is sent for that step.", "quantifier": "every generator and predicate", "why_tests_cant": "arbitrary user code", "anchors": ["/repo/knp/base-framework/impl/input_channel.cpp", "/repo/knp/base-framework/impl/model_executor.cpp"]}
{"id": "C49", "title": "Output converters are exact", "statement": "converter_bitwise gives true exactly at the neuron indexes that occur in some message, converter_count gives the number of occurrences, the set converter gives the set of occurring indexes, all restricted to the output size.", "quantifier": "every message list and output size", "why_tests_cant": "all inputs", "anchors": ["/repo/knp/base-framework/include/knp/framework/io/out_converters/"]}
{"id": "C50", "title": "Index strings parse as written", "statement": "IndexConverter turns the text i1,i2,...,ik (any k, any one-character delimiter that is not a digit) into the indexes i1..ik in order.", "quantifier": "every index list and delimiter", "why_tests_cant": "all inputs", "anchors": ["/repo/knp/base-framework/include/knp/framework/io/in_converters/index_converter.h"]}
{"id": "C51", "title": "Winner-take-all handlers select from the input", "statement": "KWtaRandomHandler with k winners returns min(k, number of spikes) of the incoming neuron indexes, each at most as often as it came in, whatever the random generator yields; the per-group handler does so per group; the union handler returns exactly the set of incoming indexes.", "quantifier": "every message, k, group borders and random sequence", "why_tests_cant": "random choices", "anchors": ["/repo/knp/base-framework/impl/message_handlers.cpp"]}
{"id": "C52", "title": "Regular connectors generate the advertised edges", "statement": "all_to_all generates every (presynaptic, postsynaptic) pair exactly once; one_to_one exactly the diagonal; exclusive (all-to-all without self connections) every pair with different ends exactly once; and every synapse gets the parameters the parameter generator gives for its ends.", "quantifier": "all population sizes", "why_tests_cant": "all sizes", "anchors": ["/repo/knp/base-framework/include/knp/framework/projection/synapse_generators.h", "/repo/knp/base-framework/include/knp/framework/projection/creators.h"]}
{"id": "C53", "title": "Aligned connector stays within the populations", "statement": "The aligned connector produces only edges whose ends are valid neuron indexes, uses every neuron of the larger population exactly once and spreads them evenly over the smaller one.", "quantifier": "all pairs of population sizes", "why_tests_cant": "divisible sizes hide the error", "anchors": ["/repo/knp/base-framework/include/knp/framework/projection/synapse_generators.h: aligned", "/repo/knp/base-framework/include/knp/framework/projection/creators.h: aligned"]}
{"id": "C54", "title": "Random connectors respect their fan", "statement": "The fixed-number-post connector gives each presynaptic neuron exactly the requested number of synapses, with every postsynaptic index in range (if the postsynaptic population is not empty), whatever the random generator yields; the fixed-number-pre connector does so for postsynaptic neurons; the fixed-probability connector refuses probabilities outside [0, 1], yields each pair at most once, all pairs for probability 1 and none for probability 0.", "quantifier": "all sizes and random sequences", "why_tests_cant": "random choices", "anchors": ["/repo/knp/base-framework/include/knp/framework/projection/synapse_generators.h"]}
{"id": "C55", "title": "Connectivity validation is exact", "statement": "The connectivity validator reports an error for a population exactly if no projection of the network names it as an end, and for a projection exactly if it has no end.", "quantifier": "every network", "why_tests_cant": "all networks", "anchors": ["/repo/knp/base-framework/impl/network_validation/validators/connectivity.cpp"]}
{"id": "C56", "title": "Dataset split", "statement": "split(t, i) makes the first t frames of the dataset the training part and the next i frames the inference part (disjoint, in order), with t and i times the steps per frame as step counts; if the dataset has fewer than t + i frames it throws and the dataset, including its previous split, stays as it was.", "quantifier": "every dataset and every t and i", "why_tests_cant": "It must hold for every dataset size and every pair of 64-bit counts, including sums that wrap around.", "anchors": ["/repo/knp/base-framework/impl/data_processing/classification/dataset.cpp: Dataset::split", "/repo/knp/base-framework/include/knp/framework/data_processing/classification/dataset.h: get_data_for_training, get_data_for_inference, get_steps_amount_for_training"]}
{"id": "C57", "title": "Confusion counts are consistent", "statement": "For every class, true positives, false negatives, false positives and true negatives add up to the number of evaluated frames, a false positive is counted for the class that was predicted, and a true positive for the class predicted and labelled.", "quantifier": "every prediction/label sequence", "why_tests_cant": "all sequences", "anchors": ["/repo/knp/base-framework/impl/inference_evaluation/classification/processor.cpp"]}
{"id": "C58", "title": "Impact messages carry their send step", "statement": "The header of every impact message sent by a projection contains the number of the step in which it is sent.", "quantifier": "every projection, spike history and step", "why_tests_cant": "histories with delays above one are unbounded", "anchors": ["/repo/knp/backends/cpu/cpu-library/include/knp/backends/cpu-library/impl/projections/delta/delta_impl.h: calculate_projection_impl", "/repo/knp/core-library/include/knp/core/messaging/message_header.h"]}
{"id": "C59", "title": "Contribution window", "statement": "When a neuron spikes, a synapse counts as having contributed iff the last spike through it arrived at the neuron no later than the current step and at most the dopamine plasticity period before it.", "quantifier": "every step number, delay, period and last spike step", "why_tests_cant": "unsigned window arithmetic over all steps", "anchors": ["/repo/knp/backends/cpu/cpu-library/include/knp/backends/cpu-library/impl/populations/training/stdp.h: is_point_in_interval", "/repo/knp/backends/cpu/cpu-library/include/knp/backends/cpu-library/impl/populations/blifat/blifat_stdp.h: process_spiking_neurons_impl"]}
{"id": "C60", "title": "Training is local to a neuron", "statement": "Training a population changes a neuron and the synapses that lead to it depending on nothing but these and on whether it spiked; a neuron that did not spike, got no dopamine and holds little free resource is left alone with its synapses, and dopamine punishment does nothing to a forced neuron.", "quantifier": "every population, set of synapses, set of spikes and step", "why_tests_cant": "all population and projection shapes", "anchors": ["/repo/knp/backends/cpu/cpu-library/include/knp/backends/cpu-library/impl/populations/blifat/blifat_stdp.h: train_population_impl", "/repo/knp/backends/cpu/cpu-library/include/knp/backends/cpu-library/impl/populations/altai/altai_stdp.h: train_population_impl", "/repo/knp/backends/cpu/cpu-library/include/knp/backends/cpu-library/impl/populations/training/stdp.h"]}
{"id": "C61", "title": "Stability change at reward", "statement": "A dopamine reward of an unforced neuron changes its stability by r*D*max(2 - |t - ISImax|/ISImax, -1), where t is the time since the period started; punishment never makes stability negative.", "quantifier": "every step, period start and ISI bound", "why_tests_cant": "unsigned subtraction over all steps", "anchors": ["/repo/knp/backends/cpu/cpu-library/include/knp/backends/cpu-library/impl/populations/blifat/blifat_stdp.h: do_dopamine_plasticity_impl"]}
{"id": "C62", "title": "Sequence converter reads exactly its share of the stream", "statement": "A SequenceConverter for n values reads exactly n values from the stream and returns, in ascending order, exactly the positions whose value the interpretation accepts; the rest of the stream is left for the next call.", "quantifier": "every stream, value interpretation and sequence length", "why_tests_cant": "the positions and the consumed amount must be right for every length and content", "anchors": ["/repo/knp/base-framework/include/knp/framework/io/in_converters/sequence_converter.h: SequenceConverter::operator()"]}
{"id": "C63", "title": "Projections built from given synapses reproduce them", "statement": "A projection created from a container (or map) of synapses holds exactly those synapses in order; a clone of a projection has the same edges in the same order with the new parameters; an index-based projection has a synapse for exactly those pairs for which the parameter generator returned one, with those parameters.", "quantifier": "every synapse container, source projection, population size and parameter generator", "why_tests_cant": "It ranges over all containers, generators and sizes.", "anchors": ["/repo/knp/base-framework/include/knp/framework/projection/synapse_generators.h: from_container, FromMap, index_based, clone_projection", "/repo/knp/base-framework/include/knp/framework/projection/creators.h"]}
{"id": "C64", "title": "Generators replay the dataset", "statement": "At every step the training generators yield the label and the lit pixels (ascending, exactly the set bits) of one frame of the training part: frames in order and cyclically, each for steps_per_frame consecutive steps, step k of a frame showing the k-th slice of its bits; the inference generator does the same with the inference part.", "quantifier": "every prepared dataset and every step", "why_tests_cant": "It ranges over all datasets and all 64-bit steps.", "anchors": ["/repo/knp/base-framework/impl/data_processing/classification/image.cpp: make_training_labels_generator, make_training_images_spikes_generator, make_inference_images_spikes_generator"]}
{"id": "C65", "title": "Image to spikes conversion", "statement": "The incrementing converter returns for every image a frame with one bit per pixel and step, no spike after the active steps, and, over the whole sequence of images, the spikes of each pixel are exactly those of one floating-point accumulator started at zero that adds factor*value per active step and loses one when it fires; pixels do not influence each other.", "quantifier": "every image sequence, factor and number of active steps", "why_tests_cant": "It ranges over all histories of images and all floating-point states.", "anchors": ["/repo/knp/base-framework/impl/data_processing/classification/image.cpp: make_incrementing_image_to_spikes_converter"]}
{"id": "C66", "title": "Labels are paired with their images", "statement": "Processing a label stream and an image stream adds, in order, one record per (label, image) pair up to the given maximum, each label with the image at the same position, whatever the bytes are; no label is lost and no record is made without its image.", "quantifier": "every pair of byte streams and every converter", "why_tests_cant": "It ranges over all stream contents and end-of-file conditions.", "anchors": ["/repo/knp/base-framework/impl/data_processing/classification/image.cpp: process_labels_and_images"]}
{"id": "C67", "title": "Reported metrics are the metrics of the counts", "statement": "The results table has one row for each class, in order, with the counts of that class; precision, recall, prevalence, accuracy and F-score in it are numbers from 0 to 1, and are the (correctly rounded) quotients TP/(TP+FP), TP/(TP+FN), (TP+FN)/all, (TP+TN)/all, zero when there is nothing to divide by.", "quantifier": "every list of inference results whose counts have a sum that fits in size_t (exact quotients: counts up to 2^24)", "why_tests_cant": "Floating-point rounding over all quadruples of counts; tests compare a few quotients.", "anchors": ["knp/base-framework/impl/inference_evaluation/perfomance_metrics.cpp:get_precision,get_recall,get_prevalence,get_accuracy,get_f_score", "knp/base-framework/impl/inference_evaluation/classification/processor.cpp:write_inference_results_to_stream_as_csv"]}
{"id": "C68", "title": "A saved network is the network that is loaded", "statement": "Saving a network to a directory and loading that directory gives the network back: the same network, population and projection identifiers, the same sizes, types, synapses, weights and weight locks, and every parameter of every neuron; saving throws on a network it cannot store, and whatever was saved can be loaded.", "quantifier": "every network (any number and kinds of populations and projections, any parameter values) and any earlier content of the directory", "why_tests_cant": "The shipped test saves one network with default parameters; the property ranges over all parameter values, sizes and neuron types.", "anchors": ["knp/base-framework/impl/sonata/save_network.cpp:save_network", "knp/base-framework/impl/sonata/load_network.cpp:load_network", "knp/base-framework/impl/sonata/types/*.cpp"]}
{"id": "C69", "title": "The type tables list the types used", "statement": "After any number of savings into one directory, the neuron and synapse type tables contain one row for each type used by the saved networks and no row for other types (BLIFAT is always listed).", "quantifier": "every sequence of savings of any networks into one directory", "why_tests_cant": "It ranges over all histories of savings.", "anchors": ["knp/base-framework/impl/sonata/types/type_id_defines.h:add_neuron_type_to_csv,add_synapse_type_to_csv"]}
{"id": "C70", "title": "Whole steps of the multi-threaded backend", "statement": "For every network on the multi-threaded backend, whatever the thread schedule and part sizes, in every step each population takes in exactly the impact messages addressed to it that the projections sent in the previous step (plus those from outside that waited at the start of the previous step), and each projection exactly the spike messages addressed to it that the populations sent in the same step or that came from outside before it; each population then behaves as in a single-threaded run over those messages (only the order of neurons inside a spike message depends on the schedule), each projection as in a single-threaded run over the first message of every step, up to the order of the impacts. The two backends are therefore interchangeable for the same inputs.", "quantifier": "all networks of LIF, BLIFAT and AltAI populations and delta projections, all subscriptions made before the start, all sequences of outside calls between steps, all part sizes, all thread schedules in every step, runs of any length", "why_tests_cant": "A test observes one schedule of one network; the routing and independence claims range over all schedules, all call histories and all run lengths.", "anchors": ["knp/backends/cpu/cpu-multi-threaded-backend/impl/backend.cpp: MultiThreadedCPUBackend::_step, calculate_populations, calculate_projections", "knp/core-library/impl/message_endpoint.cpp", "knp/core-library/impl/message_bus_cpu_impl/message_bus_cpu_impl.cpp"]}
{"id": "C71", "title": "An additive-STDP projection transmits exactly the spikes it should, with the weight current at the step of the spike", "statement": "On the single-threaded backend, a projection of AdditiveSTDPDeltaSynapse sends, at every step of a run, exactly the impacts due: one for every spike of a message from a population not marked STDPOnly, through every synapse of the spiking neuron, as many steps later as the synapse's delay says, with the weight the synapse had at the beginning of the step at which the spike came in. Messages of STDPOnly populations train and never cause an impact. Training never makes the run undefined.", "quantifier": "all projections with sound search index, all STDP population maps, all sequences of messages over all numbers of steps, all exponential functions, all weights, delays, histories", "why_tests_cant": "Impacts of a step depend on the whole history of training and messages; a test sees one history.", "anchors": ["knp/backends/cpu/cpu-library/include/knp/backends/cpu-library/impl/projections/training/stdp/additive_stdp.h:init_projection", "knp/backends/cpu/cpu-library/include/knp/backends/cpu-library/impl/projections/delta/delta_impl.h:calculate_projection_impl"]}
{"id": "C72", "title": "The additive STDP rule strengthens causal pairs, weakens anti-causal ones, and keeps its histories consistent", "statement": "Synapses record the spike times of their source and target neurons; when both histories are full (and then equally long) the weight grows for target-after-source pairs and shrinks for target-before-source pairs; nothing but weights and histories changes.", "quantifier": "all synapses, time constants, messages, runs, and all exponential functions with non-negative values", "why_tests_cant": "A weight that may only move one way, or a history that follows the wrong neuron, shows only over all inputs; tests exercise symmetric index numbers.", "anchors": ["knp/backends/cpu/cpu-library/include/knp/backends/cpu-library/impl/projections/training/stdp/additive_stdp.h:STDPFormula", "knp/backends/cpu/cpu-library/include/knp/backends/cpu-library/impl/projections/training/stdp/additive_stdp.h:append_spike_times", "knp/backends/cpu/cpu-library/include/knp/backends/cpu-library/impl/projections/training/stdp/additive_stdp.h:modify_weights"]}
{"id": "C73", "title": "Spikes saved to a data file and loaded come back the same", "statement": "save_messages_to_json followed by load_messages_from_json (and the same for HDF5 with the same time_per_step) returns one message for each step at which there were spikes, in the order of steps, holding exactly the neuron indexes that spiked at that step with their multiplicity; no spike is lost, moved or added.", "quantifier": "all lists of spike messages in any order, all sorting algorithms and hash-map orders, all times per step, strict and non-strict mode", "why_tests_cant": "The values pass through decimal text, 32-bit floats and a truncating division; a test with small steps and step 1 cannot show which steps survive.", "anchors": ["knp/base-framework/impl/storage/native/data_storage_json.cpp:save_messages_to_json", "knp/base-framework/impl/storage/native/data_storage_json.cpp:load_messages_from_json", "knp/base-framework/impl/storage/native/data_storage_hdf5.cpp:save_messages_to_h5", "knp/base-framework/impl/storage/native/data_storage_hdf5.cpp:load_messages_from_h5", "knp/base-framework/impl/storage/native/data_storage_common.cpp:convert_node_time_arrays_to_messages"]}
{"id": "C74", "title": "A malformed data file is reported by an exception", "statement": "Loading a data file either returns its messages or throws: it throws if the text is not JSON, the spikes, node_ids or timestamps are missing, their numbers differ, or, in strict mode, the magic number is missing or wrong; it never has undefined behaviour, and it loads every complete file.", "quantifier": "all JSON documents and HDF5 files, strict and non-strict mode", "why_tests_cant": "Quantifies over all malformed inputs, tests try a handful.", "anchors": ["knp/base-framework/impl/storage/native/data_storage_json.cpp:is_json_has_magic", "knp/base-framework/impl/storage/native/data_storage_json.cpp:is_correct_version", "knp/base-framework/impl/storage/native/data_storage_json.cpp:read_nodes", "knp/base-framework/impl/storage/native/data_storage_json.cpp:read_timestamps", "knp/base-framework/impl/storage/native/data_storage_hdf5.cpp:check_format", "knp/base-framework/impl/storage/native/data_storage_hdf5.cpp:load_messages_from_h5"]}
{"id": "C75", "title": "Resource STDP does to a neuron and its synapses exactly what the rule says", "statement": "One training of a population changes a neuron and its synapses only in these ways: a spike marks the synapses that had a spike in their window, takes d_u from each synapse (unless forced), gives d_h*min(2^-stability,1) to those that contributed and were not strengthened in this period, and sets additional_threshold_; dopamine (punishment only if the last spike was not forced) gives dopamine*min(2^-stability,1) to the contributing synapses if the neuron spiked at most dopamine_plasticity_time_ steps ago; renormalisation, outside of the ISI period and with the threshold reached, shares out the free resource equally. The free resource changes by the opposite of what the synapses get; weights always correspond to resources; stability_change_at_isi_ is added at the beginning of a period.", "quantifier": "all populations, synapses, spikes, steps below 2^64, parameter values, and damping functions", "why_tests_cant": "A closed form over all states; a test sees single numbers.", "anchors": ["knp/backends/cpu/cpu-library/include/knp/backends/cpu-library/impl/populations/blifat/blifat_stdp.h:process_spiking_neurons_impl", "knp/backends/cpu/cpu-library/include/knp/backends/cpu-library/impl/populations/blifat/blifat_stdp.h:do_dopamine_plasticity_impl", "knp/backends/cpu/cpu-library/include/knp/backends/cpu-library/impl/populations/training/stdp.h:renormalize_resource", "knp/neuron-traits-library/include/knp/neuron-traits/stdp_synaptic_resource_rule.h:neuron_parameters"]}
{"id": "C76", "title": "A synapse is strengthened by Hebbian plasticity at most once in an ISI period", "statement": "Between two spikes of a neuron that start ISI periods, each of its synapses gets the Hebbian increase at most once, however many spikes there are.", "quantifier": "all sequences of trainings, all populations and synapses", "why_tests_cant": "Ranges over all sequences of spikes with any training in between.", "anchors": ["knp/backends/cpu/cpu-library/include/knp/backends/cpu-library/impl/populations/blifat/blifat_stdp.h:process_spiking_neurons_impl", "knp/backends/cpu/cpu-library/include/knp/backends/cpu-library/impl/populations/training/stdp.h:update_isi"]}
{"id": "C77", "title": "Stopping the thread pool does not lose tasks and ends the workers", "statement": "When a thread pool context is stopped (destroyed) while tasks are queued or running, every task posted before is still executed, and then all workers leave their loops so that the destructor returns.", "quantifier": "all numbers of workers and clients, all programs of posts and joins, all interleavings and spurious wake-ups, any moment of the stop", "why_tests_cant": "Depends on where every thread is when stop() takes the mutex; a test sees one schedule.", "anchors": ["knp/backends/cpu/thread_pool/impl/thread_pool_context.cpp:stop", "knp/backends/cpu/thread_pool/impl/thread_pool_context.cpp:do_work_finished", "knp/backends/cpu/thread_pool/impl/thread_pool_context.cpp:do_work_started"]}
{"id": "C78", "title": "ZeroMQ bus: one order of messages for all endpoints", "statement": "On a ZeroMQ message bus the messages sent through one endpoint are routed in the order of sending, and every endpoint receives the messages routed since its creation in one and the same order, each exactly once, as long as its socket was never full; if it was, it receives some of them, in that order and none twice.", "quantifier": "all histories of calls on the bus and any number of endpoints, all choices of the router socket, all socket capacities", "why_tests_cant": "Ranges over all interleavings of senders and receivers and all choices of the fair queue.", "anchors": ["knp/core-library/impl/message_bus_zmq_impl/message_bus_zmq_impl.cpp:step", "knp/core-library/impl/message_bus_zmq_impl/message_endpoint_zmq_impl.cpp:send_zmq_message", "knp/core-library/impl/message_bus_zmq_impl/message_endpoint_zmq_impl.cpp:receive_zmq_message"]}
{"id": "C79", "title": "ZeroMQ bus: a routing round delivers everything", "statement": "route_messages() on a ZeroMQ bus returns, routes every message that was sent, once, and returns their number; after receive_all_messages() every subscription has exactly the messages of its type from its senders; sending never blocks.", "quantifier": "all states of the bus between calls, all numbers of messages, all choices of the router socket, all socket capacities", "why_tests_cant": "Depends on how many messages wait in which socket when the round starts.", "anchors": ["knp/core-library/impl/message_bus.cpp:route_messages", "knp/core-library/impl/message_bus_zmq_impl/message_bus_zmq_impl.cpp:step", "knp/core-library/impl/message_bus_zmq_impl/message_bus_zmq_impl.h:isit_id"]}
{"id": "C80", "title": "Aggregated spikes log", "statement": "The aggregated spikes logger writes one line at each step that is a multiple of its period; the line has one column for every name of the header, with the number of spikes that the populations of that name sent in the period steps before, so that every step is counted in exactly one line.", "quantifier": "all sets of observed populations and names, all periods, all first steps, all sequences of received messages", "why_tests_cant": "Ranges over all histories of messages and all periods; a line depends on everything received since the line before.", "anchors": ["knp/base-framework/impl/monitoring/model.cpp:make_aggregated_spikes_observer_function", "knp/base-framework/impl/monitoring/model.cpp:write_aggregated_spikes_logger_header", "knp/base-framework/impl/monitoring/model.cpp:save_aggregated_spikes_log", "knp/base-framework/impl/monitoring/model.cpp:add_status_logger"]}
{"id": "C81", "title": "Projection weights log", "statement": "At each step that is a multiple of the period the projection weights logger writes, for every neuron that has a synapse in the projection, in ascending order, one block with the weights of exactly the synapses that end in this neuron, ordered by their source.", "quantifier": "all projections, all sets of synapses including repeated pairs of neurons, all orders std::sort may give to equal elements, all periods and steps", "why_tests_cant": "Ranges over all projections and all results an unstable sort may give.", "anchors": ["knp/base-framework/impl/monitoring/model.cpp:process_projection_weights", "knp/base-framework/impl/monitoring/model.cpp:make_projection_weights_observer_function"]}
{"id": "C82", "title": "Rescaler maps one interval to the other", "statement": "A rescaler made from an input and an output interval maps the start of the first to the start of the second and the end to the end, maps greater values to greater or equal ones, maps every value of the input interval into the output interval, and the result is the linear image up to the rounding of the type.", "quantifier": "all finite interval bounds and all values, float and double", "why_tests_cant": "Ranges over all floating-point intervals and values; rounding differs for each.", "anchors": ["knp/base-framework/include/knp/framework/normalization/normalizers.h:Rescaler"]}
{"id": "C83", "title": "Normalization touches every element and nothing else", "statement": "normalize_neurons and normalize_synapses replace the chosen parameter of every neuron (synapse) of every population (projection) of a network by its corrected value, and change no other parameter, element, identifier or connection.", "quantifier": "all networks of all neuron and synapse kinds, all correctors and both floating-point types", "why_tests_cant": "Ranges over all networks and all correctors.", "anchors": ["knp/base-framework/include/knp/framework/normalization/neuron_normalizer.h:normalize_neurons", "knp/base-framework/include/knp/framework/normalization/synapse_normalizer.h:normalize_synapses", "knp/base-framework/include/knp/framework/normalization/neuron_accessors.h:PotentialAccessor", "knp/base-framework/include/knp/framework/normalization/synapse_accessors.h:WeightAccessor"]}
{"id": "C84", "title": "Dataflow and exactly-once delivery in networks that learn", "statement": "In a network that mixes plain and learning populations with delta, additive-STDP and resource-STDP projections, every step hands every population and projection exactly the messages addressed to it, and every incoming spike leads through every synapse of its neuron to exactly one impact, delivered after the synapse's delay with the weight the synapse had after the training of the step in which the spike came in, whatever learning does in between.", "quantifier": "all networks, all subscriptions made before the start, all histories of outside messages and of start_learning/stop_learning calls between steps, all values of exp and pow", "why_tests_cant": "Ranges over all networks, histories and lengths of runs; learning and transport interleave in every step.", "anchors": ["knp/backends/cpu/cpu-single-threaded-backend/impl/backend.cpp:_step", "knp/backends/cpu/cpu-library/include/knp/backends/cpu-library/populations.h:train_population", "knp/backends/cpu/cpu-library/include/knp/backends/cpu-library/projections.h"]}
{"id": "C85", "title": "A run changes nothing but what learning may change", "statement": "Over a whole run identifiers, ends, forcing flag, STDP populations, number of synapses and their neurons, delays and types stay as they were; in a step only resource projections that are unlocked and end in a learning population are trained, delta projections never change, and the step of a resource projection changes only the last-spike stamp of its synapses.", "quantifier": "all networks, histories and steps", "why_tests_cant": "A frame property over all executions.", "anchors": ["knp/backends/cpu/cpu-single-threaded-backend/impl/backend.cpp:_step", "knp/backends/cpu/cpu-library/include/knp/backends/cpu-library/impl/synaptic_resource_stdp_impl.h"]}
{"id": "C86", "title": "Training is local to a neuron and the synapses leading to it", "statement": "What training does to a neuron and the unlocked resource synapses that lead to it is a function of the step, of whether the neuron fired in this step, of the neuron and of these synapses alone; it does not depend on other neurons, other projections or the position of the synapses in their projections.", "quantifier": "all networks, steps and neurons of both learning neuron kinds", "why_tests_cant": "Independence of everything else cannot be tested exhaustively.", "anchors": ["knp/backends/cpu/cpu-library/include/knp/backends/cpu-library/impl/synaptic_resource_stdp_impl.h:do_STDP_resource_plasticity", "knp/backends/cpu/cpu-library/include/knp/backends/cpu-library/populations.h:train_population"]}
{"id": "C87", "title": "Order of training tasks does not matter", "statement": "In every reachable step, running the training tasks of the populations one by one in any order after all populations have produced their spikes (as the multi-threaded backend does), with the indexes in each spike message in any order, gives the same populations and synapses as the single-threaded step, which trains every population before the next one starts.", "quantifier": "all reachable steps of all runs, all orders of tasks and of indexes", "why_tests_cant": "Ranges over all schedules.", "anchors": ["knp/backends/cpu/cpu-multi-threaded-backend/impl/backend.cpp:calculate_populations", "knp/backends/cpu/cpu-single-threaded-backend/impl/backend.cpp:calculate_populations"]}
{"id": "C88", "title": "stop_learning freezes the weights", "statement": "After stop_learning, until start_learning is called, no weight of the network changes and the network behaves as without learning; before the first start_learning nothing is learned.", "quantifier": "all networks, histories and run lengths", "why_tests_cant": "Ranges over all histories.", "anchors": ["knp/core-library/include/knp/core/backend.h:stop_learning", "knp/core-library/include/knp/core/projection.h:lock_weights", "knp/backends/cpu/cpu-single-threaded-backend/impl/backend.cpp"]}
{"id": "C89", "title": "Weights follow synaptic resources", "statement": "If the weight of every resource synapse equals the value of its resource at the start, it does so at every later moment; and after the target neuron fires, the weights of all synapses that can learn equal the value of their resources, whatever they were before.", "quantifier": "all networks, histories and moments", "why_tests_cant": "An invariant over all executions.", "anchors": ["knp/backends/cpu/cpu-library/include/knp/backends/cpu-library/impl/synaptic_resource_stdp_impl.h:recalculate_synapse_weights"]}
{"id": "C90", "title": "Whole steps of the multi-threaded backend with training", "statement": "For every network on the multi-threaded backend, with training and with start_learning and stop_learning between the steps, whatever the thread schedule and part sizes: every population and projection takes in exactly the messages meant for it (as in C70); the populations, the trained synapses and (up to the order of neurons inside a message) the spikes of a step are those of the populations taken one after the other with training in between, and a step fails under one schedule exactly if it fails under every other; after training a step keeps the ends, weights and lock of every projection and stores its number in exactly the resource-STDP synapses whose presynaptic neuron is in the projection's first spike message; a projection sends what its single-threaded calculation over the first message of every step and the synapses as trained by then sends, up to the order of impacts.", "quantifier": "all sound networks of LIF, BLIFAT, AltAI, resource-STDP BLIFAT and AltAI populations and delta and resource-STDP projections, all subscriptions, all sequences of outside calls and of learning switches, all part sizes, all schedules in every step, runs of any length", "why_tests_cant": "A test observes a few schedules of a few networks; the claim ranges over all schedules, all networks and all histories.", "anchors": ["knp/backends/cpu/cpu-multi-threaded-backend/impl/backend.cpp: MultiThreadedCPUBackend::_step, calculate_populations, calculate_projections", "knp/backends/cpu/cpu-library/include/knp/backends/cpu-library/impl/projections/delta_impl.h: calculate_projection_multithreaded_impl", "knp/backends/cpu/cpu-library/include/knp/backends/cpu-library/impl/populations/training/stdp.h"]}
{"id": "C91", "title": "CUDA launches work on every element exactly once", "statement": "A kernel launch configured for n elements, n at most 2^32, works on each of the elements 0..n-1 exactly once and on nothing else, whatever the order in which the driver runs the threads; blocks have at most 256 threads, there are at most 2^24 blocks and no launch for n > 0 is empty. Above 2^32 elements the claim is false: the 32-bit thread index wraps, elements from 2^32 on are never worked on and element 0 is worked on twice.", "quantifier": "all element counts, all orders of the threads", "why_tests_cant": "A test sees one driver's order for a few sizes; the claim is about all sizes up to 2^32 and all orders, and the failure needs more memory than test machines have.", "anchors": ["knp/backends/gpu/cuda-backend/impl/cuda_lib/get_blocks_config.cuh: get_blocks_config", "knp/backends/gpu/cuda-backend/impl/cuda_lib/kernels/vector_kernels.cuh"]}
{"id": "C92", "title": "The device vector of plain data is a sequence", "statement": "A CUDAVector of trivially copyable elements, constructed from a std::vector and changed by any sequence of push_back, resize, set, erase, clear and reserve calls, each made by the host (with any order of the kernel threads) or by a device thread, holds exactly the elements a sequence container would hold; set and pop_back answer accordingly; copies, moves and assignments on either side give the elements of the source, leave the source as it was (a moved-from vector empty), and so does the assignment of a std::vector.", "quantifier": "all trivially copyable types, all programs of host and device calls, all thread orders, all sizes up to 2^32", "why_tests_cant": "The tests run a few calls on small vectors in one order.", "anchors": ["knp/backends/gpu/cuda-backend/impl/cuda_lib/vector.cuh: CUDAVector"]}
{"id": "C93", "title": "The device vector of class objects", "statement": "A CUDAVector of objects with destructors is a sequence for host calls that do not erase in front of remaining elements, and host copies, assignments and moves are right. The rest is false for every such type: a host erase that leaves elements behind it is undefined behaviour (the moved elements are destroyed twice), assigning a std::vector leaves elements that were never constructed, and on the device copying a non-empty vector, pushing to a full one or reserving beyond its capacity assigns to raw memory.", "quantifier": "all class types, all programs of host calls, all thread orders, all sizes up to 2^32", "why_tests_cant": "Undefined behaviour on raw device memory often looks right in a test.", "anchors": ["knp/backends/gpu/cuda-backend/impl/cuda_lib/vector.cuh: erase, operator=, dev_reserve, CUDAVector"]}
{"id": "C94", "title": "Comparison of device vectors", "statement": "operator== of two device vectors called on the device answers whether they hold equal sequences. Called on the host it answers only whether sizes and first elements agree: vectors [a,b] and [a,c] compare equal.", "quantifier": "all element types with a right comparison, all vectors", "why_tests_cant": "Tests compare a few vectors; the claim is about all.", "anchors": ["knp/backends/gpu/cuda-backend/impl/cuda_lib/vector.cuh: operator==", "knp/backends/gpu/cuda-backend/impl/cuda_lib/kernels/vector_kernels.cuh: equal_kernel"]}
{"id": "C95", "title": "Copying a device vector between host and device", "statement": "Moving a vector between the memories (extraction and insertion with actualize) keeps its elements if it has any or never had memory. A vector that had elements and was emptied is copied into one that is empty but whose next push_back, on either side, writes through a null pointer.", "quantifier": "all element types, all vectors, all thread orders", "why_tests_cant": "The failure needs the history of emptying before the copy.", "anchors": ["knp/backends/gpu/cuda-backend/impl/cuda_lib/vector.cuh: actualize, gpu_extract", "knp/backends/gpu/cuda-backend/impl/cuda_lib/extraction.cuh: gpu_insert"]}
{"id": "C96", "title": "The CUDA message bus as a sequential object", "statement": "For every history of subscribe, unsubscribe, remove_receiver, send_message, send_message_gpu_batch, clear and unload calls on the CUDA message bus, with every order in which the driver may run the threads of each kernel, the bus holds exactly the subscriptions and messages a list implementation holds and gives the same answers; the history is undefined exactly when it unsubscribes a subscription that is not the youngest. Without unsubscribe calls every (receiver, type) has at most one subscription, whose senders are all those ever named for it, each once.", "quantifier": "all histories of calls, all thread orders of every launch", "why_tests_cant": "Thread orders and histories are unbounded; a race in the lookup kernels shows only under some orders.", "anchors": ["knp/backends/gpu/cuda-backend/impl/cuda_bus/message_bus.cu", "knp/backends/gpu/cuda-backend/impl/cuda_bus/message_bus.cuh: subscribe_gpu", "knp/backends/gpu/cuda-backend/impl/cuda_bus/subscription.cuh"]}
{"id": "C97", "title": "What a receiver of the CUDA bus reads", "statement": "unload_messages gives every place of the bus that holds a message of the asked type from a sender the receiver subscribed to, each once, and no other place; messages stay until the bus is cleared. A sender taken out of a subscription is gone and the others stay. remove_receiver does nothing: the receiver goes on reading; unsubscribe is undefined unless the subscription is the youngest.", "quantifier": "all histories without unsubscribe, all receivers, all thread orders", "why_tests_cant": "The index list is filled with an atomic counter, its order and correctness depend on the thread order.", "anchors": ["knp/backends/gpu/cuda-backend/impl/cuda_bus/message_bus.cu: find_messages_kernel, unload_messages, remove_receiver", "knp/backends/gpu/cuda-backend/impl/cuda_bus/subscription.cuh: remove_sender"]}
{"id": "C98", "title": "Exchange of messages between the CUDA bus and the host", "statement": "A message that goes to the device and back is unchanged. In each exchange the host gets, in order, exactly the device's own messages of this step and of the step before; the device gets, subscription by subscription, exactly what the host's endpoint holds for it, and none of these ever goes back. The first step copies all the host endpoint's subscriptions. A host message wanted by two receivers on the device is not delivered once: it is put on the bus twice and both receivers read both copies.", "quantifier": "all messages, all bus contents, all host histories, all thread orders", "why_tests_cant": "Ranges over all messages and subscriptions; the tests use one receiver per sender.", "anchors": ["knp/backends/gpu/cuda-backend/impl/cuda_bus/message_bus.cu: send_messages_to_host, receive_messages_from_host, sync_with_host", "knp/backends/gpu/cuda-backend/impl/cuda_bus/messaging.cu: make_gpu_message, make_host_message"]}
{"id": "C99", "title": "Delta projection on the CUDA backend", "statement": "Each spike has each of its impacts sent exactly once, at the step its synapse's delay says, in one message of that step, whatever the order of the device's threads, provided impacts never wait for three different steps and never more than two messages arrive at once; delays of at most two steps never lead there. Otherwise the step is undefined. The impacts are the host projection's in another order. Impacts with delay 0 are never sent and keep their place forever.", "quantifier": "all projections, synapses, runs of any length, messages, thread orders", "why_tests_cant": "Needs all delays and histories; the tests use one delay, for which the device vector never grows past two messages.", "anchors": ["knp/backends/gpu/cuda-backend/impl/backend_impl.cu: calculate_projection, extract_projection_message, route_projection_messages, calculate_projections_kernel", "knp/backends/gpu/cuda-backend/impl/projection.cuh: CUDAProjection"]}
{"id": "C100", "title": "BLIFAT population on the CUDA backend", "statement": "A population of any size computes each step what the host's population computes. False: only neuron 0 can fire and is named once per impact of the first message from the impact at which it fires; all other neurons only collect impacts; without impacts nothing fires; the additional threshold is ignored; the order in which messages are found matters; three messages make the step undefined. It holds for one neuron with one impact in the first message. Bursts count down in every step, unlike on the host.", "quantifier": "all populations, messages, thread orders", "why_tests_cant": "The tests use one neuron and one impact per step, the case in which the backends agree.", "anchors": ["knp/backends/gpu/cuda-backend/impl/backend_impl.cu: calculate_population, calculate_populations_kernel", "knp/backends/cpu/cpu-library/include/knp/backends/cpu-library/impl/populations/blifat/blifat_impl.h"]}
{"id": "C101", "title": "Networks on the CUDA backend: who reads what, and when", "statement": "In every run that is not undefined, the device's bus holds at each step exactly what the projections sent in the step before; every population reads exactly the impact messages of the projections onto it (and those the host's endpoint subscribed it to), every projection the spike messages of its presynaptic population of the same step, each once; every projection sends exactly the impacts due, in one message with the number of the step.", "quantifier": "all networks of BLIFAT populations and delta projections, run lengths, host histories, thread orders of every launch", "why_tests_cant": "The tests run one small network for a few steps with one thread order.", "anchors": ["knp/backends/gpu/cuda-backend/impl/backend.cu: CUDABackend::_step, _init", "knp/backends/gpu/cuda-backend/impl/backend_impl.cu: init, calculate_populations, calculate_projections, route_projection_messages"]}
{"id": "C102", "title": "What the host gets from the CUDA backend", "statement": "Every message made on the device is sent to the host exactly once. False: in each step all impact messages of the step before are sent twice; in the first two steps an empty spike message with sender 0 is sent for every silent population. Messages that came from the host are never sent back. All calls on the host's bus during a run are given.", "quantifier": "all networks, run lengths, host histories, thread orders", "why_tests_cant": "Tests look for expected spikes and accept duplicates.", "anchors": ["knp/backends/gpu/cuda-backend/impl/backend.cu: CUDABackend::_step", "knp/backends/gpu/cuda-backend/impl/message_bus.cu: send_messages_to_host, receive_messages_from_host, sync_with_host"]}
{"id": "C103", "title": "Devices can be selected by the identifiers they report", "statement": "After get_devices() the user can pass identifiers of the listed devices to select_devices() and the named devices become the current ones; on the CUDA backend select_device(d) makes d the GPU that is used. False: the move constructors of the device classes give a fresh random identifier, so identifiers reported by one get_devices() never occur again and select_devices() never adds the device; CUDA always uses the first GPU. What holds: the list has one device per online socket or GPU, in order and with its name.", "quantifier": "all machines (number of sockets/GPUs, names, online flags), histories of get_devices/select_devices/select_device calls, all three device classes, any injective identifier generator", "why_tests_cant": "Tests select whatever get_devices() returned as objects and check only that the call returns.", "anchors": ["knp/backends/cpu/cpu-devices/impl/x86_cpu.cpp: CPU move constructor, list_processors", "knp/core-library/impl/backend.cpp: Backend::select_devices", "knp/backends/gpu/cuda-backend/impl/gpu_cuda_device.cu", "knp/backends/gpu/cuda-backend/impl/backend.cu: select_device"]}
{"id": "C104", "title": "A CPU power reading is the energy used divided by the time since the last reading", "statement": "get_power() reports consumed energy over elapsed time. False: the elapsed time is cut to whole seconds, so two readings within one second give infinity (or NaN if no energy was used); otherwise the reading is between the power and twice the power.", "quantifier": "all energies, all elapsed times", "why_tests_cant": "Depends on the wall clock between two calls and on privileged counters.", "anchors": ["knp/backends/cpu/cpu-devices/impl/x86_cpu_power.cpp: CpuPower::get_power"]}
{"id": "C105", "title": "A network under the model executor: same steps, and who hears what", "statement": "A model loaded with ModelLoader into a ModelExecutor on the single-threaded backend loads exactly if every input channel has a generator. Its steps are those of the same network on the backend alone with the channels and handlers as outside senders (so everything proved of runs of the backend holds of it), one per call of the user's predicate that answers true; start_learning/stop_learning calls act on the next step. In every step what comes from outside is exactly what the input channels sent since the step before, then what the handlers sent in the step before; each output channel, handler and observer gets exactly the messages of the step of its type from its senders, once; a handler sends at most one message, stamped with the next step. The order in which a listener gets the messages of a step is not the order of sending (refuted by a run).", "quantifier": "all sound networks, all channels, handlers (with any, even stateful, function) and observers, all generators' data, all predicates, all sequences of start calls, any number of steps", "why_tests_cant": "the claim ranges over every network, every wiring and every schedule of rounds; a test runs one model for a few steps", "anchors": ["knp/base-framework/impl/model_executor.cpp:ModelExecutor::start, SpikeMessageHandler::update", "knp/base-framework/impl/model_loader.cpp:ModelLoader::load", "knp/base-framework/impl/output_channel.cpp", "knp/base-framework/include/knp/framework/monitoring/observer.h", "knp/backends/cpu/cpu-single-threaded-backend/impl/backend.cpp:_step"]}
{"id": "C106", "title": "Input channel data reach the connected projections in their step, once", "statement": "The data an input channel's generator yields in the round of step t are taken in, in step t and stamped t, by every projection the channel is connected to, exactly once, and by no other projection. If the user's predicate refuses a round, the data sent in that round are taken in in addition to those of the next round of the same step (so a restart after a refused round delivers the inputs of that step twice).", "quantifier": "all sound networks, all wirings with distinct identifiers, all data, all sequences of rounds, every step, channel and projection", "why_tests_cant": "needs every wiring and every sequence of accepted and refused rounds", "anchors": ["knp/base-framework/impl/model_executor.cpp:ModelExecutor::start", "knp/base-framework/include/knp/framework/io/input_channel.h:send", "knp/base-framework/impl/model_loader.cpp:gen_input_channel", "knp/core-library/impl/backend.cpp:start"]}
{"id": "C107", "title": "Output channels hold exactly the spikes of their populations; reading an interval gives its steps", "statement": "After any run of the executor an output channel that listens to populations holds exactly the spike messages of these populations over all steps, in order; read_some_from_buffer(a, b) gives exactly the spikes of steps a to b and leaves the others; the same with reads anywhere between the steps.", "quantifier": "all sound networks, wirings with distinct identifiers, data, rounds, channels, intervals a <= b within what can be allocated, runs of at most 2^64 steps", "why_tests_cant": "ranges over all runs and all intervals", "anchors": ["knp/base-framework/impl/output_channel.cpp:update, read_some_from_buffer", "knp/base-framework/impl/model_executor.cpp:ModelExecutor::start"]}
{"id": "C108", "title": "Handlers answer with one step of latency", "statement": "What a spike message handler answers to the messages of step t is taken in by every projection it is connected to in step t+1, exactly once and stamped t+1; in the first step nothing from a handler is taken in.", "quantifier": "all sound networks, wirings with distinct identifiers, handler functions (even stateful), data, rounds, steps", "why_tests_cant": "ranges over all networks, handler functions and schedules", "anchors": ["knp/base-framework/impl/model_executor.cpp:SpikeMessageHandler::update, add_spike_message_handler"]}
{"id": "C109", "title": "Loading and reading back a network", "statement": "After any sequence of load, remove and read-back calls on a backend, get_network_copy gives exactly what was loaded last, up to the first population or projection the backend does not support; load_all_* throws exactly if the list contains an unsupported element; remove_* removes what it names; the same holds on CUDA.", "quantifier": "all backends, call histories, lists of populations and projections", "why_tests_cant": "ranges over all call histories and networks of any size", "anchors": ["knp/meta-library/include/knp/meta/variant_helpers.h:load_from_container", "knp/backends/cpu/cpu-single-threaded-backend/impl/backend.cpp:load_*", "knp/backends/cpu/cpu-multi-threaded-backend/impl/backend.cpp:load_*", "knp/backends/gpu/cuda-backend/impl/backend.cu:load_*", "knp/base-framework/impl/synchronization.cpp:get_network_copy"]}
{"id": "C110", "title": "The life of a backend: loads, starts, reloads", "statement": "What runs is the network loaded last with the subscriptions made so far: at the first start, at a later start after another load, and after reading the network back and loading it again; stopping and starting goes on where the network was.", "quantifier": "all sequences of subscribe, load, reload and start, all networks and inputs", "why_tests_cant": "ranges over all histories of calls and all networks", "anchors": ["knp/core-library/impl/backend.cpp:pre_start, start", "knp/backends/cpu/cpu-library/include/knp/backends/cpu-library/init.h:init", "knp/base-framework/impl/synchronization.cpp:get_network_copy"]}
{"id": "C111", "title": "A run depends only on the messages meant for its populations and projections", "statement": "Two runs of the same network with the same switching of learning, in which at every step the same messages wait for every population and projection, agree in everything: what is received and sent, neurons and synapses at every step. Other traffic on the bus, who sends and through which endpoint, have no influence.", "quantifier": "all sound networks (delta, additive and resource STDP), all pairs of schedules of other users of the bus, all steps", "why_tests_cant": "a relation between all pairs of executions", "anchors": ["knp/backends/cpu/cpu-single-threaded-backend/impl/backend.cpp:_step", "knp/core-library/impl/message_bus_cpu_impl.cpp"]}
{"id": "C112", "title": "Moving a network to another backend", "statement": "A network read back with get_network_copy and loaded into another backend behaves there, with the same input, as it would have behaved here, up to the time stamps of messages.", "quantifier": "all networks, moments of the copy, inputs, steps", "why_tests_cant": "a relation between all pairs of executions and all moments", "anchors": ["knp/base-framework/impl/synchronization.cpp:get_network_copy", "knp/backends/cpu/cpu-single-threaded-backend/impl/backend.cpp:load_all_populations, _step"]}
{"id": "C113", "title": "A well-wired network never fails", "statement": "In a network whose synapses all lead to existing neurons that know the type of what they are sent (LIF: excitatory and inhibitory current; AltAI: all but inhibitory conductance; BLIFAT: all; blocking values are step counts and come from delta synapses), every step returns: it neither throws nor leaves the arrays of a population, whatever spikes are fed from outside, whatever number of steps was made and however learning is switched. Conversely, whenever a step returned, every impact a population was given was addressed to one of its neurons and of a type that population knows. Nothing in the library checks that a network is wired: a stray synapse is loaded without complaint and makes a later step throw, or write outside of the population.", "quantifier": "every network of any kinds of populations and projections, every history of steps, outside calls and switches of learning, every neuron model parameter", "why_tests_cant": "a failure can come at any step after any history, and an access outside of an array need not be visible in a test", "anchors": ["knp/backends/cpu/cpu-single-threaded-backend/impl/backend.cpp:89-141", "knp/backends/cpu/cpu-library/include/knp/backends/cpu-library/impl/populations/lif/lif_impl.h:43-66", "knp/backends/cpu/cpu-library/include/knp/backends/cpu-library/impl/populations/altai/altai_impl.h:56-83", "knp/backends/cpu/cpu-library/include/knp/backends/cpu-library/populations.h:73-85 impact_population"]}
{"id": "C114", "title": "A well-wired network never fails on the multi-threaded backend", "statement": "On the multi-threaded backend too, a network whose synapses lead to existing neurons that know the type of what they are sent completes every step: no throw and no access outside of a population, whatever the part sizes, whatever order the worker threads finish in, whatever was done before and however learning is switched, as long as impacts sent from outside fit their populations. (The claim without any further condition is false: this backend multiplies a weight by the number of times a neuron is named in a message, so with blocking synapses a spike message from outside that names a neuron twice can overflow the blocking period, where the single-threaded backend goes on.)", "quantifier": "every network, every history of steps and outside calls, every schedule of the worker threads and every part size", "why_tests_cant": "a failure can depend on the order of the threads and on any earlier step, and writing outside of an array need not be visible", "anchors": ["knp/backends/cpu/cpu-multi-threaded-backend/impl/backend.cpp:100-323", "knp/backends/cpu/cpu-library/include/knp/backends/cpu-library/impl/projections/delta/delta_impl.h"]}
{"id": "C115", "title": "Running validators on a network", "statement": "Executor::run_validators calls every population validator on every population, then every projection validator on every projection, then every network validator on the network, each exactly once, one after another, validators in the order of their identifiers and elements in the order of the network, and returns exactly the reports in that order, each with the identifier and the name of its validator. It throws exactly when a validator throws, an issue has an unknown severity, or an element to validate has a \"name\" tag that is not a string. Validators get the given name or their kind and the number of validators of the kind added before; default names are pairwise different. (The documented \"one entry per executed validator\" is false for population and projection validators.)", "quantifier": "every sequence of add_validator calls, every network, every user-supplied validator (with any effects, possibly throwing), every state of the program", "why_tests_cant": "validators are arbitrary code with effects and the identifiers, hence the order, are random", "anchors": ["knp/base-framework/impl/network_validation/executor.cpp:31-158", "knp/base-framework/include/knp/framework/network_validation/executor.h", "knp/base-framework/include/knp/framework/tags/name.h:54-62"]}
{"id": "C116", "title": "A well-wired model never fails under the executor", "statement": "A model whose input channels all have a generator and whose network is wired (synapses lead to existing neurons that know what they are sent, including through what channels and handlers feed) is loaded and run by the model executor without an exception or an access outside of a population: every round of every start is carried out, whatever data the generators yield, whatever the handlers answer, whatever the predicate says and however learning is switched; as many steps are made as rounds the predicate agreed to. A channel without a generator makes loading throw, for any network.", "quantifier": "every model, every sequence of rounds over any number of starts, every generator, handler, observer and predicate", "why_tests_cant": "a failure can come at any step after any history, and depends on user code", "anchors": ["knp/base-framework/impl/model_executor.cpp:62-149", "knp/base-framework/impl/model_loader.cpp:32-141", "knp/core-library/impl/backend.cpp:57-192", "knp/backends/cpu/cpu-single-threaded-backend/impl/backend.cpp:89-141"]}
{"id": "C117", "title": "The same network does the same on both CPU backends", "statement": "The same network is loaded into the single-threaded and into the multi-threaded CPU backend, and before every step the same calls are made from outside and learning is started or stopped alike. If only spikes come from outside, no projection gets two spike messages in one step, and the order in which impacts are added makes no difference to the neurons (in particular: no neuron gets two impacts in one step), then in every step and at the end the neurons, the synapses and their trained weights are exactly the same on both, and the messages are the same up to the order of the entries in them, whatever the part sizes and the thread scheduling. Without the condition on the order this fails: with weights 2^24, 1, 1 on one neuron it depends on the scheduling whether the neuron spikes.", "quantifier": "all networks of the kinds both backends load, all calls from outside, all numbers of steps below 2^64, all part sizes, all schedules of the threads of the multi-threaded backend", "why_tests_cant": "a test compares a few networks under the schedules that happen to occur; float addition is not associative, so the agreement depends on the order chosen by the threads in every step", "anchors": ["knp/backends/cpu/cpu-single-threaded-backend/impl/backend.cpp: SingleThreadedCPUBackend::_step", "knp/backends/cpu/cpu-multi-threaded-backend/impl/backend.cpp: MultiThreadedCPUBackend::_step", "knp/backends/cpu/cpu-library/include/knp/backends/cpu-library/impl/projections/delta_impl.h"]}
{"id": "C118", "title": "Quantization keeps the network within the range of the hardware", "statement": "When a trained network is prepared for AltAI hardware, every projection is scaled by 255 over the largest magnitude of its own weights and of the thresholds of the neurons it leads to (as the projections before it left them), and rounded: afterwards every weight is a whole number from -255 to 255 within 1/2 of the exact quotient, the largest becomes 255, weights keep their order and zero stays zero; the first part of every threshold is at most 255; nothing but weights and thresholds changes; only networks whose projections all lead to plastic AltAI populations get through, and with ordinary thresholds and weights the procedure completes. What it does not keep: the relation between projections to the same population (thresholds are scaled once per projection), the relation to the leak, and networks of zeros.", "quantifier": "all networks, all finite weights, all thresholds", "why_tests_cant": "the result depends on real-valued maxima and rounding for every weight and on the order of projections", "anchors": ["examples/mnist-learn/models/altai/prepare_network_for_inference.cpp: quantize_network"]}
{"id": "C119", "title": "The resource computed for a wanted weight gives that weight", "statement": "The function that computes a synaptic resource for a wanted weight accepts exactly the weights in the range of the rule, the upper end reduced by 1e-6, in whichever order the two ends are given, and throws for all others; for ranges within [-2, 2] the synapse with this resource has the wanted weight up to 2^-19; larger weights give resources that are not smaller, and the lower end gives resource 0. For large bounds the resource may be infinite.", "quantifier": "all finite weights and bounds", "why_tests_cant": "floating-point rounding near the ends of the range for every value", "anchors": ["examples/mnist-learn/models/resource_from_weight.h: resource_from_weight"]}
{"id": "C120", "title": "Preparation for inference replaces groups of winners by projections", "statement": "Preparing an AltAI network for inference keeps exactly the marked populations and projections; every projection named as receiver of a group of winners is replaced by a copy with a new identifier that starts at the population sending to the group and has the same postsynaptic population and the same synapses; other projections stay and the groups are cleared. Groups that name a receiver twice (in particular: groups of two senders) or an unknown receiver are refused with an exception, and nothing is undefined. All weights of the prepared network are whole numbers from -255 to 255.", "quantifier": "all networks, markings and lists of groups", "why_tests_cant": "the replacement edits the collection of projections inside nested loops over groups; a test exercises one network", "anchors": ["examples/mnist-learn/models/altai/prepare_network_for_inference.cpp: prepare_network_for_inference, replace_wta_with_projections"]}
{"id": "C121", "title": "Connected parts of a network, their description and their drawing", "statement": "Dividing a network by connectivity gives parts such that every population is in exactly one part and two populations are in the same part exactly when a chain of projections, in whichever direction, connects them; the result does not depend on the order in which hash tables keep their elements, and the search ends. The printed description names, for every population, its size, the targets of all its projections and the sources of all projections to it (the input for sources outside of the network). Drawing a part draws exactly one shape for every projection that leads to it: an arrow, a loop, or an entry from outside, and one point for every population. Projections must lead to populations of the network (otherwise behaviour is undefined), and names are right only for the part that starts the list of populations.", "quantifier": "all networks, all hash orders", "why_tests_cant": "connectivity is a closure over paths of any length; hash order differs between runs and platforms", "anchors": ["knp/base-framework/impl/visualizer/visualize_network.cpp: NetworkGraph, build_adjacency_list, make_reverse_list, find_connected_set, divide_graph_by_connectivity, print_network_description, draw_edges, draw_annotated_subgraph"]}
{"id": "C122", "title": "Tasks of the thread pool that throw", "statement": "When tasks posted to executors of the thread pool throw, nothing is lost: a normal return of join() still means that every task posted to its executor was run to its end (by returning or throwing), an exception is delivered exactly once, out of a call of join(), nobody waits for ever in join(), and the outcome of a program does not depend on which thread takes the throwing task; a join() that throws does so because of a task of its own executor and after all tasks of that executor ended.", "quantifier": "every number of workers and clients, every program of posts (nested too), joins and stops, every set of throwing tasks, every interleaving and every spurious wake-up", "why_tests_cant": "which thread takes a task is up to the scheduler; a test sees one interleaving, and the bad one ends the test process", "anchors": ["knp/backends/cpu/thread_pool/impl/thread_pool_context.cpp:execute", "knp/backends/cpu/thread_pool/impl/thread_pool_context.cpp:execute_next", "knp/backends/cpu/thread_pool/include/knp/backends/thread_pool/thread_pool_executor.h:join"]}
{"id": "C123", "title": "A model executor on the multi-threaded backend delivers inputs, handler answers and outputs as on the other backend, under every schedule", "statement": "A model loaded into a ModelExecutor over MultiThreadedCPUBackend: whatever the order in which the thread pool runs its tasks, the steps are those of the network on that backend; the data that input channels yield for a step reach exactly the connected projections, once, in order and stamped with the step; what a handler answers reaches its receivers in the next step; output channels, handlers and observers get exactly the messages of the step of their type from their senders; buffers hold exactly the spikes of the populations listened to. Refuted: that what reaches a projection also has an effect (a projection of this backend uses only the first message of a step).", "quantifier": "all networks the backend can load, all channels, handlers, observers, all data, all answers of the user's predicate, all schedules of the pool and part sizes, all numbers of rounds", "why_tests_cant": "The orders of pool tasks and the programs are unbounded in number, and a run shows one order only.", "anchors": ["knp/base-framework/impl/model_executor.cpp: ModelExecutor::start", "knp/backends/cpu/cpu-multi-threaded-backend/impl/backend.cpp: MultiThreadedCPUBackend::_step"]}
{"id": "C124", "title": "The same executor program has the same results on both CPU backends", "statement": "The same model, data and handlers on the single-threaded and on the multi-threaded backend: if only spike messages without repeated neurons come from outside, every projection gets at most one message per step, the order of impacts makes no difference to the neurons and handlers do not look at the order of spikes in a message, then, whatever the schedules, output channels hold the same messages, handlers and observers are called with the same messages (up to the order inside a message), handlers answer the same, and neurons and synapses are the same after every step. Refuted without the condition on handlers.", "quantifier": "all networks, programs, data and schedules that meet the conditions, all numbers of rounds", "why_tests_cant": "The agreement is about every schedule of the pool and every history; differences show only under rare orders.", "anchors": ["knp/base-framework/impl/model_executor.cpp: ModelExecutor::start", "knp/backends/cpu/cpu-multi-threaded-backend/impl/backend.cpp: MultiThreadedCPUBackend::_step", "knp/backends/cpu/cpu-single-threaded-backend/impl/backend.cpp: SingleThreadedCPUBackend::_step"]}
{"id": "C125", "title": "MNIST client: from a file of images to the spikes of every step", "statement": "The client cuts its file into images of the given size and shows every image for a fixed number of steps: at each step the input channel gets, in ascending order, exactly the pixels whose brightness has reached the level of that step's frame (brightness * levels >= 256 * frame number), nothing in the frames after the last level and nothing after the last image; over the frames of an image a pixel is sent floor(brightness * levels / 256) times. The results recorded are exactly the messages with spikes, in order. A file of n images gives n images, and a generator that skips frames works up to the last frame.", "quantifier": "all files (lists of bytes), image sizes, numbers of frames and levels, steps, skips and message histories", "why_tests_cant": "every brightness, level and frame meets binary64 rounding differently; file lengths, steps and histories are unbounded", "anchors": ["examples/mnist-client/process_data.cpp: image_to_spikes, read_images_from_file, read_spikes_from_grayscale_file", "examples/mnist-client/inference.cpp: make_input_image_generator, make_observer_function"]}
{"id": "C126", "title": "A network made with the network constructor is the one the calls describe, runs without ever failing, and keeps a closed part for inference", "statement": "After any sequence of add_population, add_channeled_population and add_projection calls that makes sense (new identifiers, sizes the creators can deal with, synapse types the neurons take) the network has the populations in order and, for every call, a projection with the identifier, ends, lock and exactly the synapses asked for; the outputs are the populations declared so; a population is marked for inference exactly when asked to and a projection exactly when both its ends are, so that kept projections lead from and to kept populations or from or to nothing; and both the network and what is left of it for inference are such that no spikes ever make a step fail. The AltAI and BLIFAT networks of the MNIST example are of this kind for all numbers of classes, neurons per column and pixels; for inference they keep the projection of the images and the one from the input to the output population, with the right ends. The inference client does not accept the model the learning example makes, because it looks for a projection of 117600 synapses.", "quantifier": "all sequences of calls, all neuron and synapse parameters, sizes and identifiers; all spikes from outside and all numbers of steps", "why_tests_cant": "the example is run with one set of sizes and parameters; which synapses exist, what is kept and whether a step can fail depend on all of them", "anchors": [{"file": "examples/mnist-learn/models/network_constructor.h", "symbols": ["NetworkConstructor::add_population", "NetworkConstructor::add_channeled_population", "NetworkConstructor::add_projection"]}, {"file": "examples/mnist-learn/models/altai/construct_network.cpp", "symbols": ["construct_network", "create_populations", "create_projections"]}, {"file": "examples/mnist-learn/models/blifat/construct_network.cpp", "symbols": ["construct_network"]}, {"file": "examples/mnist-learn/models/blifat/prepare_network_for_inference.cpp", "symbols": ["prepare_network_for_inference"]}, {"file": "examples/mnist-client/inference.cpp", "symbols": ["do_inference", "find_projections"]}]}
{"id": "C127", "title": "A well-wired model never fails under the executor on the multi-threaded backend", "statement": "A model whose input channels all have a generator, whose network is wired (synapses lead to existing neurons that know what they are sent, including through what channels and handlers feed) and can be loaded into MultiThreadedCPUBackend is run by the model executor on that backend without an exception or an access outside of a population, under every schedule of the thread pool: every round of every start is carried out, whatever the predicate says and however learning is switched, and as many steps are made as rounds the predicate agreed to; provided that there are no blocking synapses, or that neither the data of the channels nor the answers of handlers repeat a neuron in a message. Refuted without the proviso: a repeated spike through a blocking synapse makes a period that does not fit its type, where the single-threaded backend goes on.", "quantifier": "all models of this kind, all data, handlers and predicates, all switching of learning, all schedules and part sizes, any number of rounds", "why_tests_cant": "a test sees a few schedules and rounds; that no task of any schedule ever throws needs an invariant over all of them", "anchors": [{"file": "knp/base-framework/impl/model_executor.cpp", "symbols": ["ModelExecutor::start"]}, {"file": "knp/backends/cpu/cpu-multi-threaded-backend/impl/backend.cpp", "symbols": ["MultiThreadedCPUBackend::_step", "MultiThreadedCPUBackend::calculate_populations", "MultiThreadedCPUBackend::calculate_projections"]}, {"file": "knp/base-framework/impl/message_handlers.cpp", "symbols": []}]}
{"id": "C128", "title": "MNIST learning example: training goes through and shows every frame", "statement": "The training program of the MNIST learning example, for either neuron type: with at least one training frame, training is carried out without an error and makes exactly 15 steps per training frame, however the channels fall into the buckets of the model's multimap, whatever the winner-takes-all handlers draw, whatever observers there are. In step t the channels send the pixels of step t mod 15 of training frame t / 15, and in step 11 of every frame its label, and nothing else; no frame of the inference part is shown. The choice of winners never throws. Without training frames the first round is undefined (the generators are called before the predicate).", "quantifier": "all datasets, sizes and parameters of the networks, arrangements of the channels, random draws, observers, lengths of the run", "why_tests_cant": "a training run is long and random; an error in any of the steps would depend on the data, the draws and the hash of the identifiers", "anchors": ["examples/mnist-learn/training.h: build_channel_map_train, train_network", "examples/mnist-learn/models/altai/spike_generators.cpp, models/blifat/spike_generators.cpp", "knp/base-framework/impl/projection/wta.cpp: add_wta_handlers", "knp/base-framework/impl/model_executor.cpp: ModelExecutor::start", "knp/core-library/impl/backend.cpp: Backend::start"]}
{"id": "C129", "title": "A network that ran can be used again", "statement": "Take a network made by the constructors of projections, whose synapses lead to existing neurons that can take their impacts, and run it with the executor, with any data, handlers, predicate and switching of learning. Then any part of it, taken out of the backend (any choice of the populations and any choice of the projections), is again a sound network whose synapses all lead to neurons that can take their impacts; it has the same populations of the same sizes and the same projections with the same ends and the same synapses with the same ends, delays and types. It can be run again with any other input channels, outputs, handlers and rounds, and no such run ever fails. In particular the MNIST network left by training, cut down to what its constructor keeps for inference, can be run by the inference program without failing.", "quantifier": "all networks, all input channels, handlers, outputs, data, predicates and learning switches of the first run, all parts kept, and all channels, handlers, outputs and rounds of the second", "why_tests_cant": "what a run leaves behind depends on every spike and every weight change in it; a test runs one history and one continuation", "anchors": ["knp/backends/cpu/cpu-single-threaded-backend/include/knp/backends/cpu-single-threaded/backend.h: ProjectionWrapper, SingleThreadedCPUBackend", "knp/base-framework/impl/model_executor.cpp: ModelExecutor::start", "examples/mnist-learn/training.h: train_network", "examples/mnist-learn/models/blifat/prepare_network_for_inference.cpp: prepare_network_for_inference"]}
