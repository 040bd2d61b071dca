# A Rocq (Coq 8.16.1) model of KasperskyLab/knp

## Layout

`rocq/theories/`

* `Base.v` – small shared vocabulary: `outcome` (`Ret`/`Throw`/`UB`), 64-bit wrap, list helpers. No code of /repo.
* `*_Model.v` – executable Gallina models. Every definition cites file and lines in /repo. No proofs.
* `*_Spec.v` – the small specifications (what the English property says), independent of the models' helpers.
* `*_Proofs.v` – lemmas.
* `Props_*.v` – the property theorems only: each closed by `exact <lemma>`, followed by
  `Print Assumptions` and by `Example`s showing that concrete non-trivial cases meet the hypotheses.

Conventions: sizes and positions in memory are `nat`; machine integers whose wrap-around matters are `N`/`Z` with an
explicit `mod 2^64` (or 2^32); IEEE-754 `float`/`double` are `SpecFloat.spec_float` from Coq's standard library
(binary32: precision 24, emax 128; binary64: 53, 1024), an axiom-free executable model with round-to-nearest-even;
C++ exceptions are `Throw`, undefined behaviour is `UB`, never silently totalised.
External code (user generators, predicates, random generators, hash functions, thread scheduler) is universally
quantified in the theorems, never an axiom.

Where the code violates the property as stated in `properties.jsonl`, the theorem list contains a `..._refuted` theorem
(a concrete witness evaluated by the model) together with the strongest `..._partial` statement that does hold and
with the exact condition in its hypotheses. These are findings; they are listed at the end of this file.

## Per-property plan

| id | model | proof |
|----|-------|-------|
| C01 | bus = list of endpoints with send/receive buffers, sender filter, subscriptions; `update`, `step`, `route`, `receive_all` | refinement of route+receive to a filter of the pending list, induction on buffers |
| C02 | same | equality of lists (two reversals) under empty buffers |
| C03 | same | refuted by a two-round history; partial: general formula for k rounds |
| C04 | same | induction on the routed buffer |
| C05 | same | map-like laws of the subscription container incl. frame |
| C06 | same | union law over lists of subscribe calls |
| C07 | same | invariant over later histories |
| C08 | same, iterator loop with explicit iterator invalidation | refuted (UB whenever a subscription matches); partial: no match => unchanged |
| C09 | same | invariant by induction over operations |
| C10 | same + `add_sender` | refuted; partial under filter membership |
| C11 | same + destroy | commutation with removal of the endpoint |
| C12 | generator counter, 16-byte encoding | injectivity of little-endian encoding |
| C13 | lexicographic byte comparison | induction |
| C14 | token/character level printers and parsers | round-trip induction; refuted for empty into used object |
| C15 | table-level pack/unpack (FlatBuffers' own byte layout not modelled) | round-trip; partial |
| C16 | synapse list + cached index + flag, all operations | invariant over operation lists without the faulty branch; refuted with it |
| C17 | same | list filter equality, sorted-index removal lemma |
| C18 | same | induction on the generator range |
| C19 | `remove_neurons` loop with shifts and UB on out-of-range erase | partial for ascending lists; refuted for others |
| C20 | tag map with inserting lookup | refuted; partial for existing names |
| C21,C22 | loop as state machine with user predicates that may call stop or throw, fuel = number of iterations | trace invariant; C22 refuted |
| C23 | nested loops over devices | refuted; partial for one device |
| C24,C25 | future-message map with u64 keys, step function over histories | invariant on the future map: content = impacts due later |
| C26 | partition loop | interval arithmetic |
| C27,C28,C29 | partition tasks, schedules as permutations | permutation of impacts; C28 refuted with binary32 witness + exact-arithmetic partial; C29 refuted |
| C30–C36 | neuron state machines over IEEE floats | induction over steps |
| C37 | population step | induction over neurons |
| C38–C40 | rational-arithmetic model of resource rule; u64 ISI machine | algebra over Q; invariants |
| C41–C43 | interleaving semantics of workers, client and condition variable | inductive invariant, well-founded measure |
| C44, C70 | composition of bus, endpoint, populations and projections; single- and multi-threaded step; subscriptions made before the start; arbitrary outside calls | refinement to a dataflow equation per step, induction over the run |
| C45–C51, C55–C57 | function-by-function models of the framework | induction over histories / lists |
| C52–C54, C63 | generators as functions of the iteration index | div/mod arithmetic |
| C58–C61 | projection queue headers; window, locality and stability of resource STDP | invariants, 64-bit arithmetic |
| C62, C64–C66 | stream converters, dataset generators | induction over streams |
| C67 | metrics in binary32 via Flocq's real semantics | rounding lemmas over the reals |
| C68, C69 | SONATA save/load at table level | round trip, induction over entities |
| C75, C76 | closed form of one training; sequences of trainings | loop lemma for independent synapses; invariant on the Hebbian flag |
| C77 | thread pool with stop() at any moment | invariants before and after the stop (state against the task count); refutations by executions |
| C78, C79 | ZeroMQ bus as a labelled transition system over socket pipes | invariants over histories; induction over the routing round |
| C80, C81 | loggers as functions of the received messages and steps; std::sort as a relation | induction over the calls; sortedness and permutation of the sorted list |
| C82, C83 | rescaler over binary32/binary64 and over unbounded integers; normalization as a loop over all elements with a stateful corrector | rounding error analysis with Flocq; induction over the elements |
| C84–C86, C88, C89 | the whole single-threaded step with training: message transport, LIF/BLIFAT/AltAI populations with and without resource STDP, delta, additive and resource projections, start_learning/stop_learning between steps | step relation per population and projection, invariants over the run, locality of training as one function |
| C87 | training tasks of the multi-threaded backend as a list executed in any order | determinacy of the result from the slices of synapses that lead to each population |
| C103, C104 | devices with identifiers from a counter, default-constructed base in move constructors; power formula in binary64 | freshness invariant over call histories; integer division |
| C105–C108 | executor around the network model: endpoints of channels, handlers and observers one by one, phases of a round | invariant over rounds (buffers of each endpoint), own subscriptions commuted to the front, reduction to the network run, then C84 and C47 |
| C109–C112 | containers of the backends under call histories; life of a backend over loads and starts; pairs of runs | induction over call histories; invariant "deaf endpoint" for late projections; a step as a function of what arrives, two runs side by side (equal, or shifted by the step counter) |
| C113 | whole runs of the single-threaded backend for networks whose synapses fit the populations they reach | invariant over runs: kinds and sizes of populations, ends and types of synapses, and all impacts in queues and on the bus fit; progress of each loop under it |
| C114 | the same for the multi-threaded step, schedules universally quantified | the invariant of C113 along the multi-threaded run; impacts of merged parts still fit |
| C115 | executor of validators; user code as state-passing functions that may throw | the nested loops as one list of calls, compared with the schedule call by call |
| C116 | the executor of C105 on wired networks | progress of each phase of a round under the invariants of C105 and C113 together |
| C117 | Run of the same network on the two backends, step by step: the same neurons, the same synapses, queues that agree as multisets, boxes equal up to order; the waiting messages depend only on an outline of the bus that both backends keep alike. | induction over the steps with c70/c84/c90 facts of both backends; permutation of impacts on different neurons; counterexample for two impacts on one neuron |
| C118 | quantize_network as a fold over the projections that rewrites weights (binary32) and the thresholds of the postsynaptic population. | the float maxima, quotient, product and rounding related to real numbers with Flocq; induction over the projections; counterexamples |
| C119 | resource_from_weight in binary32/binary64 and the weight formula of the STDP rule. | error bounds of the composed roundings over the reals; counterexample for large bounds |
| C120 | Loops over groups, senders and receivers on the list of projections; cloning with the generator loop of C63; then C118. | induction over the pairs with distinct identifiers; composition with C118 |
| C121 | Network graph, adjacency and reverse lists, the search over hash sets with an arbitrary choice of the next element, the description and the shapes drawn. | invariant of the search (closed under neighbours, all reached), induction over the parts; permutation arguments for description and drawing; counterexamples |
| C122 | Thread pool with tasks that throw: exception counted as finished, leaves join() on a client, std::terminate on a worker. | the invariant and the measure of C41/C42 carried over the new steps; counterexample executions |
| C123 | Model executor (channels, handlers, observers) around the step of the multi-threaded backend, with a schedule per round; the invariant of C105 carried over; proved for all programs and schedules. |
| C124 | Both executors on the same program: induction over the rounds, with the equality of the network steps (C117) and of what handlers answer. |
| C125 | process_data.cpp and the generator and observer of inference.cpp as functions of the bytes of a file, binary64 arithmetic | error bounds over the reals away from equality, kernel computation over the finitely many equalities up to 363 levels, induction over the reads |
| C126 | the network constructor as a fold over calls, the call lists of both models of the example, marks, BLIFAT preparation | invariant of the fold (state after a list of calls), the creators of C52, soundness and wiring as for C113, composition with C120 for AltAI |
| C127 | the executor on the multi-threaded backend of C123 | composition of the invariants of C116 (what the mailboxes hold), C114 (wired networks on this backend) and C123; the counterexample by kernel computation |
| C128 | the training program of the MNIST example: build the network, load it with its channels, run the loop `start(predicate)` with the generators in it | the loop is shown to be a run of C116 by induction on the rounds (the step of the backend is the number of rounds); generators by C64; network by C126 |
| C129 | the executor's run, and what can be copied out of the backend after it (projections without their waiting messages) | the invariant of C113 (sizes, synapses fixed but for weights, no blocked-for-ever neuron) holds after the run; a second invariant: indexes of projections stay up to date through steps, training and locks; then C116 again |
| C73, C74 | data files as values (JSON tree / HDF5 attributes and data sets), conversion to messages | permutation and sortedness lemmas, rounding lemmas over the reals; exact characterisation of success/exception/UB |
| C91–C102 | CUDA: launches as permutations of thread indices, device vectors as allocated memory, device bus, one population/projection, whole run with the host bus | index arithmetic of the grid; invariants over histories; simulation of the host functions |
| C71, C72 | additive STDP projection; exp universally quantified | simulation by the delta projection of C24; rounding lemmas over the reals for monotonicity |

## Trusted base

* Coq 8.16.1 kernel (including its `vm_compute` reduction).
* Faithfulness of the models to the cited lines of /repo (read by hand; the code was not run).
* Semantics of C++ assumed by the models: 64-bit little-endian platform, IEEE-754 binary32/binary64 with
  round-to-nearest-even and no excess precision, `std` containers as documented (unordered containers: any iteration
  order, quantified or avoided; capacity limits only where the code reserves), sequential consistency inside critical
  sections (the thread pool protects all shared data by one mutex).
* Axioms: see the section "Print Assumptions" below. No axiom is declared in /verif.

## What is modelled

| code | model | left out |
|------|-------|----------|
| core-library message bus (CPU implementation), endpoint, subscription | Messaging_Model | locks (calls are atomic) |
| core-library ZeroMQ bus and endpoint | Zmq_Model | libzmq (pipes with capacities, identity frames: its documented behaviour), bytes of the packed messages |
| core-library uid, message text I/O, envelope, tags, backend start/stop/step, population, device selection | Codec_Model, Core_Model | FlatBuffers byte layout; boost random uuid generator |
| core-library projection | Projection_Model | – |
| cpu-library delta projections (single and multi-threaded) | Delta_Model | – |
| cpu-library LIF, BLIFAT, AltAI neurons and populations (both backends) | Neuron_Model | stochastic threshold noise is an input |
| cpu-library resource STDP | Stdp_Model | – |
| base-framework storage/native | Storage_Model | the JSON parser, HDF5 library, file system errors |
| cpu-library additive STDP | Additive_Model | value of std::exp (any function) |
| thread_pool | Pool_Model, Raise_Model (tasks that throw) | what the handler of a client does with an exception; exceptions of the allocator; a destructor of an executor that runs while an exception is thrown |
| whole step, single- and multi-threaded backend | Pipeline_Model, Mt_Model | – |
| whole step with training | Train_Model, Net_Model | – |
| training tasks of the multi-threaded backend | Sched_Model | interleaving inside a task |
| base-framework network, model loader, executor, channels, converters, handlers | Framework_Model, Handlers_Model | logging, wall-clock time |
| base-framework projection creators, synapse generators, connectivity validator | Connect_Model | – |
| base-framework classification datasets, inference results, metrics | Classify_Model | – |
| base-framework monitoring (loggers) | Monitor_Model | text formatting, state of the output stream beyond good/bad |
| base-framework normalization | Normalize_Model | overflow of `int` in Rescaler<int>; the copying overloads are the in-place ones applied to a copy |
| base-framework SONATA saving and loading | Sonata_Model | HDF5 library and file system (tables and CSV cells are values) |
| CUDA backend, device library (launches, CUDAVector) | Gpu_Model | interleaving inside a kernel thread (every kernel has one effect per element); driver errors |
| CUDA backend, message bus and its exchange with the host | GpuBus_Model | vectors of plain data inside of a message or subscription are lists (C92); a default message has send time 0; driver errors |
| CUDA backend, one BLIFAT population and one delta projection | GpuNet_Model | device arithmetic is the host's (no contraction of multiply and add); vectors of plain data (synapses, neurons, impacts) are lists (C92) |
| CUDA backend, initialisation and whole steps with the host's bus | GpuStep_Model | load_populations/load_projections only as a list of loaded objects; load_all_*, device selection and learning switches (no-ops) not modelled; the order of the host's subscription container is a parameter |
| device classes (x86, unknown CPU, CUDA) and selection | Device_Model | power-counter library (energy is an input), wall clock (elapsed time is an input) |
| model executor end to end (rounds, inputs, outputs, handlers, observers) | Exec_Model | throwing callbacks; executor on the CUDA backend (on the multi-threaded one: C123, C124) |
| loading, reading back, lives of a backend over several loads and starts | Load_Model | the life model is of the single-threaded backend; load_populations with unsupported kinds does not compile and is UB in the model |
| examples/mnist-learn, preparation for inference (AltAI): marking, replacement of groups, quantization; resource_from_weight | Quant_Model, Infer_Model | data reading; construction and BLIFAT preparation are in Build_Model |
| base-framework visualizer: graph of a network, parts, description, shapes | Graph_Model | pixel positions, physics of the layout, OpenCV; `int` indexes are exact (fewer than 2^31 populations) |
| examples/mnist-client: images to frames, generator, observer | Client_Model | search of projections and populations by size, the executor (C105), OpenCV display |
| examples/mnist-learn/models: network constructor, construct_network of both models, BLIFAT preparation for inference; mnist-client: search for the image projection | Build_Model | names of populations, tags, values of the parameters (given), the plasticity of the weights after construction |
| examples/mnist-learn: build_channel_map_train, train_network, label generators of both models; add_wta_handlers; the loop of ModelExecutor::start(predicate) | Mnist_Model | loggers other than as observers, files, progress output |

Not modelled: python-framework, layout physics of the visualiser, logging.

<!-- generated -->

## Print Assumptions

469 property theorems. 440 of them are "Closed under the global context" (no axiom at all).
The others rest on axioms of the standard library only:

* `Props_Additive.c72_weaken_refuted`: `ClassicalDedekindReals.sig_forall_dec`, `ClassicalDedekindReals.sig_not_dec`, `Classical_Prop.classic`, `FunctionalExtensionality.functional_extensionality_dep`
* `Props_Client.c125_input`: `ClassicalDedekindReals.sig_forall_dec`, `ClassicalDedekindReals.sig_not_dec`, `Classical_Prop.classic`, `FunctionalExtensionality.functional_extensionality_dep`
* `Props_Client.c125_exact`: `ClassicalDedekindReals.sig_forall_dec`, `ClassicalDedekindReals.sig_not_dec`, `Classical_Prop.classic`, `FunctionalExtensionality.functional_extensionality_dep`
* `Props_Client.c125_levels`: `ClassicalDedekindReals.sig_forall_dec`, `ClassicalDedekindReals.sig_not_dec`, `Classical_Prop.classic`, `FunctionalExtensionality.functional_extensionality_dep`
* `Props_Client.c125_count`: `ClassicalDedekindReals.sig_forall_dec`, `ClassicalDedekindReals.sig_not_dec`, `Classical_Prop.classic`, `FunctionalExtensionality.functional_extensionality_dep`
* `Props_Infer.c120_hardware`: `ClassicalDedekindReals.sig_forall_dec`, `ClassicalDedekindReals.sig_not_dec`, `Classical_Prop.classic`, `FunctionalExtensionality.functional_extensionality_dep`
* `Props_Metrics.c67_range`: `ClassicalDedekindReals.sig_forall_dec`, `ClassicalDedekindReals.sig_not_dec`, `Classical_Prop.classic`, `FunctionalExtensionality.functional_extensionality_dep`
* `Props_Metrics.c67_values`: `ClassicalDedekindReals.sig_forall_dec`, `ClassicalDedekindReals.sig_not_dec`, `Classical_Prop.classic`, `FunctionalExtensionality.functional_extensionality_dep`
* `Props_Metrics.c67_get_recall`: `ClassicalDedekindReals.sig_forall_dec`, `ClassicalDedekindReals.sig_not_dec`, `Classical_Prop.classic`, `FunctionalExtensionality.functional_extensionality_dep`
* `Props_MtExec.c124_same`: `ClassicalDedekindReals.sig_forall_dec`, `ClassicalDedekindReals.sig_not_dec`, `Classical_Prop.classic`, `FunctionalExtensionality.functional_extensionality_dep`
* `Props_MtNet.c90_outputs`: `ClassicalDedekindReals.sig_forall_dec`, `ClassicalDedekindReals.sig_not_dec`, `Classical_Prop.classic`, `FunctionalExtensionality.functional_extensionality_dep`
* `Props_Normalize.c82_rescale_partial`: `ClassicalDedekindReals.sig_forall_dec`, `ClassicalDedekindReals.sig_not_dec`, `Classical_Prop.classic`, `FunctionalExtensionality.functional_extensionality_dep`
* `Props_Quant.c118_weights`: `ClassicalDedekindReals.sig_forall_dec`, `ClassicalDedekindReals.sig_not_dec`, `Classical_Prop.classic`, `FunctionalExtensionality.functional_extensionality_dep`
* `Props_Quant.c118_ends`: `ClassicalDedekindReals.sig_forall_dec`, `FunctionalExtensionality.functional_extensionality_dep`
* `Props_Quant.c118_order`: `ClassicalDedekindReals.sig_forall_dec`, `ClassicalDedekindReals.sig_not_dec`, `Classical_Prop.classic`, `FunctionalExtensionality.functional_extensionality_dep`
* `Props_Quant.c118_all_weights`: `ClassicalDedekindReals.sig_forall_dec`, `ClassicalDedekindReals.sig_not_dec`, `Classical_Prop.classic`, `FunctionalExtensionality.functional_extensionality_dep`
* `Props_Quant.c118_thresholds`: `ClassicalDedekindReals.sig_forall_dec`, `ClassicalDedekindReals.sig_not_dec`, `Classical_Prop.classic`, `FunctionalExtensionality.functional_extensionality_dep`
* `Props_Quant.c118_threshold_once`: `ClassicalDedekindReals.sig_forall_dec`, `ClassicalDedekindReals.sig_not_dec`, `Classical_Prop.classic`, `FunctionalExtensionality.functional_extensionality_dep`
* `Props_Quant.c118_completes`: `ClassicalDedekindReals.sig_forall_dec`, `ClassicalDedekindReals.sig_not_dec`, `Classical_Prop.classic`, `FunctionalExtensionality.functional_extensionality_dep`
* `Props_Resource.c119_symmetric`: `ClassicalDedekindReals.sig_forall_dec`, `ClassicalDedekindReals.sig_not_dec`, `Classical_Prop.classic`, `FunctionalExtensionality.functional_extensionality_dep`
* `Props_Resource.c119_range`: `ClassicalDedekindReals.sig_forall_dec`, `ClassicalDedekindReals.sig_not_dec`, `Classical_Prop.classic`, `FunctionalExtensionality.functional_extensionality_dep`
* `Props_Resource.c119_back`: `ClassicalDedekindReals.sig_forall_dec`, `ClassicalDedekindReals.sig_not_dec`, `Classical_Prop.classic`, `FunctionalExtensionality.functional_extensionality_dep`
* `Props_Resource.c119_monotone`: `ClassicalDedekindReals.sig_forall_dec`, `ClassicalDedekindReals.sig_not_dec`, `Classical_Prop.classic`, `FunctionalExtensionality.functional_extensionality_dep`
* `Props_Resource.c119_lowest`: `ClassicalDedekindReals.sig_forall_dec`, `ClassicalDedekindReals.sig_not_dec`, `Classical_Prop.classic`, `FunctionalExtensionality.functional_extensionality_dep`
* `Props_Same.c117_same`: `ClassicalDedekindReals.sig_forall_dec`, `ClassicalDedekindReals.sig_not_dec`, `Classical_Prop.classic`, `FunctionalExtensionality.functional_extensionality_dep`
* `Props_Same.c117_one_each`: `ClassicalDedekindReals.sig_forall_dec`, `ClassicalDedekindReals.sig_not_dec`, `Classical_Prop.classic`, `FunctionalExtensionality.functional_extensionality_dep`
* `Props_Storage.c73_json_round_trip_partial`: `ClassicalDedekindReals.sig_forall_dec`, `ClassicalDedekindReals.sig_not_dec`, `Classical_Prop.classic`, `FunctionalExtensionality.functional_extensionality_dep`
* `Props_Storage.c73_h5_default`: `ClassicalDedekindReals.sig_forall_dec`, `ClassicalDedekindReals.sig_not_dec`, `Classical_Prop.classic`, `FunctionalExtensionality.functional_extensionality_dep`
* `Props_Storage.c73_h5_near`: `ClassicalDedekindReals.sig_forall_dec`, `ClassicalDedekindReals.sig_not_dec`, `Classical_Prop.classic`, `FunctionalExtensionality.functional_extensionality_dep`

## Findings and exact limits, per property

From MANIFEST.json; every `_refuted` theorem is a concrete witness evaluated by the kernel or a universally quantified
negation.

* **C01** (proved) Exact delivery on the in-process bus: Exact multiset delivery for every history without Subscription::add_sender (that case is C10), plus at-most-once over every history.
* **C02** (proved) Send order is preserved across one routing round: Order of one route+receive round equals pending order when the receive buffer is empty (exactly the situation of the English statement).
* **C03** (partial) Send order is preserved across several routing rounds: Refuted: two routing rounds before a receive swap messages. Partial: order holds when a receive follows every routing pass.
* **C04** (proved) Routing drains the bus and reports the exact count: Every bus state.
* **C05** (proved) Unloading hands over each message once: Every reachable state, with frame conditions.
* **C06** (proved) Subscribing accumulates senders and keeps messages: Every reachable state; histories of subscribe calls give the union.
* **C07** (proved) Unsubscribing stops delivery: Result, frame and silence over every later history.
* **C08** (partial) Removing a receiver is well defined: Refuted: increment of an erased iterator (UB) exactly when the receiver has a subscription. Partial: without a match nothing changes.
* **C09** (proved) Endpoint sender filter covers its subscriptions: Invariant over every history (add_sender excluded, see C10).
* **C10** (partial) Senders added to a subscription object are delivered: Refuted with a witness. Partial: exact delivery rule for arbitrary histories including add_sender; delivered iff the sender was also named in some subscribe call on the endpoint.
* **C11** (proved) Messages of a destroyed endpoint: Routing and stepping after destruction equal those without the endpoint.
* **C12** (proved) Generated identifiers are distinct: The counting generator (debug builds); release builds use boost's random generator, which is external. Injectivity for every start value and all 2^64 positions; nil exactly when the counter is 0.
* **C13** (proved) Identifier comparison is a strict total order: Strict total order over all 128-bit identifiers; note operator< is the reverse of the byte order.
* **C14** (partial) Text form of messages round-trips: Refuted twice: an empty message read into a used object keeps old data; float values are written with six digits, two different messages have the same text. Partial: character-level round trip for all fitting messages otherwise (strtof is a parameter).
* **C15** (partial) Binary envelope round-trips: Partial: table-level round trip; the byte layout produced by the FlatBuffers library is not modelled. Unknown type throws.
* **C16** (partial) Synapse search agrees with the synapse list: Refuted: remove_postsynaptic_neuron_synapses on an up-to-date index erases by the wrong key and keeps stale positions; operator[] assignment likewise. Partial: exact search after every other history.
* **C17** (proved) Synapse removal is exact and stable: All removal operations, every state.
* **C18** (proved) Synapse insertion adds what the generator yields: Every generator (given by the values it yields) and every count.
* **C19** (partial) Neuron removal by index list: c19_remove_refuted: index lists not in ascending order remove the wrong neurons (or erase out of range). c19_remove_partial: ascending lists are exact. c19_add: adding.
* **C20** (partial) Reading a missing tag leaves the tags unchanged: c20_failed_read_refuted: non-const get_tag of a missing name inserts an empty tag. Partial: reads of existing names; last write wins.
* **C21** (proved) Step loop call discipline: For all predicate, step and stop() behaviours.
* **C22** (partial) A backend whose run has ended is not running: c22_running_refuted: after a predicate returned false, running() stays true. Partial: exact value of running() after every start.
* **C23** (partial) Device selection selects all requested devices: c23_select_refuted: returns after the first match, so at most one device is ever added. Partial: single-device requests.
* **C24** (proved) Spike impact arrives at the right step exactly once: Delta and resource-STDP synapses (weights may change between steps). Hypothesis: the projection's search index is undamaged (C16).
* **C25** (partial) Zero-delay synapses take effect: Refuted for all runs: a delay-0 synapse is scheduled one step in the past (or at 2^64-1) and never sent.
* **C26** (proved) Work partition covers every element exactly once: Sizes up to 2^63; part size 0 never terminates (c26_zero_part_size).
* **C27** (partial) Multi-threaded projection agrees with the single-threaded one: c27_header_refuted: the multi-threaded code swaps presynaptic and postsynaptic population identifiers. Partial: everything else agrees for every schedule.
* **C28** (partial) Multi-threaded results do not depend on the schedule: Refuted: part order changes the impact order and hence the potential (0 or 1). Partial: projection messages of any two schedules differ in impact order only; population phases are schedule-independent; steps are order-independent for at most one impact per neuron, or integer weights/potentials below 2^24 (2^53) in exact floating-point range.
* **C29** (partial) Multi-threaded projection uses every incoming spike message: Refuted: only the first waiting message is processed.
* **C30** (proved) LIF refractory period: Every state, parameter and current sequence, all IEEE values; other impact kinds throw.
* **C31** (proved) BLIFAT refractory period: Every run of both variants, any start state.
* **C32** (partial) A fresh BLIFAT neuron may fire: Refuted for every parameter set: the default counter wraps to 0, the first step never fires. Partial: from any other counter value exactly the refractory period and threshold decide.
* **C33** (proved) Blocked BLIFAT neuron ignores impacts: Exactly k steps including the step of arrival, both variants; extra: value 0 blocks for ever.
* **C34** (partial) BLIFAT bursting: Refuted: for every period but 1 the reflexive weight never has any effect; in the STDP variant with period 1 it is added at every step. Partial: plain variant, period 1.
* **C35** (proved) BLIFAT potential floor: Every step of both variants.
* **C36** (proved) AltAI neuron threshold and activity timer: Every state, flags and impacts; the floor holds with the saturate flag.
* **C37** (proved) Population step reports exactly the spiking neurons: Generic in the neuron kind, single- and multi-threaded (every part order).
* **C38** (proved) Synaptic resource weight range: Range, strict monotonicity and lower bound over the rationals; every synapse of a trained spiking neuron gets that weight. In float (weight_f, binary32) the bounds fail: overflow to infinity and 0/0 = NaN are exhibited.
* **C39** (proved) Synaptic resource is conserved: Exact arithmetic (rationals). One training step per neuron: conserved or reduced by exactly the drain part; all histories with drain 0 conserve. Finding: a neuron without synapses loses its free resource at renormalisation.
* **C40** (partial) Spike sequences are recognised by inter-spike interval: Finding: stdp.h:108,114 compute last_step_ - step (operands swapped, unsigned), so a period never continues; c40_isi_refuted proves it for every increasing sequence of steps. The _partial theorems give the parts of the rule that hold.
* **C41** (proved) join returns only after every posted task ran: Interleaving model of ThreadPoolContext/ThreadPoolExecutor: critical sections are atomic steps, notify_one wakes any waiter, spurious wake-ups allowed, several clients and executors, tasks may post tasks. Tasks that throw: C122.
* **C42** (proved) join terminates without deadlock or lost wake-up: Progress in every reachable state with a client in join(), an explicit bound on the number of non-spurious steps, and: when nothing can move all clients have returned.
* **C43** (proved) Stopping the pool ends all workers: stop() called once, after all posted tasks have finished (ThreadPool's member order and the joining destructor of the executor ensure it).
* **C44** (proved) Single-threaded step pipeline: Whole-network refinement: bus + endpoint + LIF/BLIFAT/AltAI populations + delta projections. c44_dataflow gives the exact input of every entity at every step for arbitrary outside calls between steps, c44_alone that nothing else influences an entity, c44_latency the n+d arrival, c44_failures that the bus calls never fail. Populations with resource STDP and additive-STDP subscriptions are not in this composition; routing by third parties during or between steps is left out.
* **C45** (partial) Network entity identifiers stay unique: Holds for the templated add/remove/get/exists/list calls, failed calls included; the variant overloads of add_* skip the check (c45_variant_refuted).
* **C46** (partial) Each input and output channel keeps its own identifier: Proved when no two channel identifiers share a hash bucket. In general false: init_channels iterates buckets, so identifiers in one bucket are merged into the channel of the first (c46_bucket_refuted).
* **C47** (partial) Output channel reads are exact: Proved for step-ordered arrivals and intervals a<=b with a+b+1 within the allocatable number. read_some_from_buffer reserves a+b+1 elements, so wide intervals throw, and reversed ones are undefined behaviour (c47_interval_refuted).
* **C48** (partial) Input channels send only non-empty data and stop with the run: Sending discipline proved for every environment; the inputs of a refused step are already sent when the predicate is asked (c48_refused_refuted). Generators that throw are not modelled.
* **C49** (partial) Output converters are exact: Exact (counts modulo 2^64); the set converter truncates the output size to 32 bits (c49_set_refuted).
* **C50** (proved) Index strings parse as written: Proved for decimal texts of values below 2^32 without signs and spaces around them.
* **C51** (partial) Winner-take-all handlers select from the input: Any random numbers, any sort/shuffle/set order. Exceptions found: reserve(borders*winners) throws for huge winner counts (c51_reserve_refuted); GroupWtaRandomHandler with 0 winners reads before the first group (c51_zero_winners_refuted). Like the code, only the first message of a step is handled (documented).
* **C52** (proved) Regular connectors generate the advertised edges: Proved for all sizes whose product fits in size_t.
* **C53** (partial) Aligned connector stays within the populations: Proved for sizes where the smaller divides the larger; c53_in_range_iff shows that this is exactly when the ends are in range. The property is false otherwise (c53_refuted: sizes 5 and 3 give a synapse to neuron 4 of 3) and for one empty population (division by zero).
* **C54** (proved) Random connectors respect their fan: Random draws are arbitrary within the range of the distribution. c54_limits: neurons are drawn with replacement (an edge may repeat); an empty postsynaptic population gives out-of-range ends; a NaN probability is accepted.
* **C55** (proved) Connectivity validation is exact: Report exact for every list of populations and projections; each population at most once.
* **C56** (partial) Dataset split: Proved for datasets below 2^32 frames and sums that fit in size_t. False otherwise: t + i wraps (c56_wrap_refuted, accepted and then out of range) and counts are cut to 32 bits (c56_truncation_refuted).
* **C57** (partial) Confusion counts are consistent: The four counts are characterised exactly and add up. The claim is false for false positives: they are booked on the labelled class, not the predicted one (c57_refuted). c57_stuck: messages not starting at step 0 or out of order are silently ignored.
* **C58** (partial) Impact messages carry their send step: Refuted: the header has the step of the first spike that contributed, not the send step. Partial: delay 1.
* **C59** (partial) Contribution window: Holds from step >= period on; in the first steps the unsigned start of the window wraps and is swapped, so that the window is inverted (c59_early_refuted).
* **C60** (proved) Training is local to a neuron: Blifat and AltAI variants are the same code but for the neuron type.
* **C61** (partial) Stability change at reward: Holds when at least ISImax steps passed; before, the unsigned difference wraps and the factor is -1 where the documented one is >= 1 (c61_early_refuted).
* **C62** (proved) Sequence converter reads exactly its share of the stream: Proved for lengths up to 2^32; a stream that ends early is reported as undefined behaviour (uninitialised value).
* **C63** (proved) Projections built from given synapses reproduce them: Map contents are modelled in iteration order.
* **C64** (proved) Generators replay the dataset: Empty parts divide by zero (c64_empty_part_ub).
* **C65** (proved) Image to spikes conversion: Proved for active steps <= steps per frame; more active steps throw (c65_too_many_active, one-pixel images).
* **C66** (partial) Labels are paired with their images: Proved for at least as many images as labels and labels ended by line feeds. False otherwise (c66_refuted): an unterminated last label is dropped; a surplus label is paired with the previous image.
* **C67** (partial) Reported metrics are the metrics of the counts: Range [0,1] of all five metrics for all counts (through Flocq reals), correctly rounded quotients for counts up to 2^24, rows. The recall column of the CSV is refuted: processor.cpp passes the false positives, so it repeats the precision (c67_recall_is_precision, c67_recall_refuted).
* **C68** (partial) A saved network is the network that is loaded: Proved: a saveable network (>=1 population, >=1 projection, none empty, no additive STDP) always saves and loads to the same identifiers, synapses, locks and neuron fields except an exact per-kind list of forgotten fields; projections exact; loading again is stable; exact condition for saving to throw. Refuted parts: each forgotten field really is lost (c68_exact_refuted), a saved empty population or projection makes loading read out of bounds (c68_empty_refuted).
* **C69** (partial) The type tables list the types used: Proved: exactly the used types are listed, none more than twice. Refuted: 'one row each' fails on every first saving, because the last row is never compared (type_id_defines.h:87).
* **C70** (partial) Whole steps of the multi-threaded backend: Dataflow and per-part behaviour proved in full. The last sentence (interchangeability) is false: an impact message from outside is taken in one step later than on the single-threaded backend (c70_outside_impacts, c70_same_as_single_threaded_refuted); see also C27-C29. Networks with resource STDP: C90.
* **C71** (proved) An additive-STDP projection transmits exactly the spikes it should, with the weight current at the step of the spike: c71_dataflow, c71_stdp_only_silent.
* **C72** (partial) The additive STDP rule strengthens causal pairs, weakens anti-causal ones, and keeps its histories consistent: Proved: frame (c72_frame), equal sizes whenever the rule is applied, i.e. the assertion holds (c72_same_size). Refuted: a weight never gets smaller (c72_weaken_refuted: both factors are +1 and the time difference is unsigned); the presynaptic history is searched by the target neuron, the source's spikes are ignored (c72_source_ignored_refuted); a projection with STDPOnly populations only never trains (c72_stdp_only_never_trains).
* **C73** (partial) Spikes saved to a data file and loaded come back the same: Proved: JSON for steps up to 2^24 and indexes below 2^31 (c73_json_round_trip_partial), HDF5 whenever steps survive multiplication and division by time_per_step (c73_h5_round_trip_partial), in particular for time_per_step 1 and steps up to 2^24 (c73_h5_default); for other times of a step a spike comes back at its step or one early (c73_h5_near); nothing is ever lost (c73_no_spike_lost). Refuted: with time_per_step 0.001 step 63 comes back as 62 (c73_h5_refuted); steps 2^24 and 2^24+1 merge (c73_json_refuted); an index of 2^31 or more makes the library's own file undefined to load (c73_json_index_refuted). Senders and empty messages are not stored (c73_senders_forgotten, c73_empty_dropped).
* **C74** (partial) A malformed data file is reported by an exception: Proved for all files whose parts, where present, have the types of the format, as an exact characterisation of success and exception (c74_json_reported_partial, c74_h5_reported_partial). Refuted otherwise: a root that is not an object, attributes of other types, nodes that are not 32-bit numbers, times below 0 give undefined behaviour (c74_root_refuted, c74_attributes_refuted, c74_attribute_refuted, c74_node_refuted, c74_time_refuted), so does an HDF5 version attribute of three numbers beginning 0, 1 (c74_version_refuted); strict mode accepts a magic attribute without a value (c74_magic_refuted).
* **C75** (partial) Resource STDP does to a neuron and its synapses exactly what the rule says: c75_training proves the closed form (in exact arithmetic, neurons whose last spike is not in the future). The documented sign of stability_change_at_isi_ is refuted: it is subtracted (c75_stability_at_isi_refuted).
* **C76** (partial) A synapse is strengthened by Hebbian plasticity at most once in an ISI period: Proved relative to the ISI status the code computes (c76_once). As that status never continues a period when step numbers grow (C40), the synapse is in fact strengthened at every spike (c76_every_spike_refuted, c76_twice).
* **C77** (partial) Stopping the thread pool does not lose tasks and ends the workers: Proved for programs that use one executor and post nothing after stop(). Refuted otherwise: with two executors a queued task is lost (the context becomes READY when one executor runs out of tasks), and a task that posts after stop() resets the state, so that the workers wait forever.
* **C78** (proved) ZeroMQ bus: one order of messages for all endpoints: libzmq itself is modelled by its documented behaviour (trusted).
* **C79** (partial) ZeroMQ bus: a routing round delivers everything: Proved: the round ends and publishes everything once; delivery if the receiving socket has room. Refuted: the result is twice the number of messages (identity frames are counted, unlike the CPU bus); messages beyond the high-water mark of a receiver are lost silently; send_message() spins forever when the bus is not run. packed_size > 5 is a hypothesis (a 5-byte body would be taken for an identity).
* **C80** (partial) Aggregated spikes log: Proved for a positive period and different names. Refuted: populations with the same name share a column but have two in the header; period 0 is a division by zero; the status logger of the same file takes a period and ignores it.
* **C81** (partial) Projection weights log: Proved for resource-STDP projections with neuron numbers below 2^64-1. Refuted: the values are synaptic resources, not weights; a projection of any other kind makes the logger throw.
* **C82** (partial) Rescaler maps one interval to the other: Proved for float and double when the length of the input interval and the result do not overflow: start to start, monotone, never below the start, error at most 8 ulp-like units of the output bounds plus underflow. Refuted: the end can become more or less than the end of the output interval; an interval of one point gives NaN; Rescaler<int> maps everything to the start when the output interval is shorter.
* **C83** (proved) Normalization touches every element and nothing else: Proved for correctors without state. c83_state_refuted shows that a corrector with a state starts again in every population, because it is passed by value.
* **C84** (proved) Dataflow and exactly-once delivery in networks that learn: Single-threaded backend; exact equation of every mailbox; impacts up to order inside a message.
* **C85** (proved) A run changes nothing but what learning may change: Frame conditions per kind of projection.
* **C86** (proved) Training is local to a neuron and the synapses leading to it: One function for all networks, both neuron kinds and all steps; C75 gives its closed form. c86_neuron_step says what a neuron with STDP does before its training: the same as one without, on the impacts addressed to it, with the forced flag set exactly by forcing excitatory impacts of this step.
* **C87** (proved) Order of training tasks does not matter: A training task is one atomic action in the model; tasks touch disjoint populations and synapses (C85, C86). Equality up to the search index of a projection, which cannot be seen from outside.
* **C88** (proved) stop_learning freezes the weights: Proved for resource synapses (weights and resources frozen, but for the last-spike stamp). Refuted for the rest: additive-STDP projections go on learning (c88_additive_not_stopped) and the additional threshold of a learning neuron becomes 0 when it fires with all its projections locked, so the spikes of the network change (c88_locked_threshold, c88_inference_changed).
* **C89** (proved) Weights follow synaptic resources: Invariant of all runs; binary32 arithmetic of the code.
* **C90** (proved) Whole steps of the multi-threaded backend with training: A training task is one atomic action of the model (the tasks work on disjoint populations and synapses, C85, C86). Equality of projections up to the search index, which cannot be seen from outside. c90_outputs needs fewer than 2^64 steps, at most 2^63 synapses per projection and messages from outside without repeated neurons.
* **C91** (partial) CUDA launches work on every element exactly once: Full claim proved up to 2^32 elements, refuted beyond.
* **C92** (proved) The device vector of plain data is a sequence: All sequences of calls on vectors of plain data; allocation failure is not modelled.
* **C93** (partial) The device vector of class objects: Proved for host programs without middle erases; the rest of the claim is refuted for every class type.
* **C94** (partial) Comparison of device vectors: Device comparison proved exact; host comparison characterised exactly and refuted.
* **C95** (partial) Copying a device vector between host and device: Proved for vectors that hold elements or never had capacity, plain data and class elements; an emptied vector copies to one whose next push_back writes through null (c95_emptied_refuted).
* **C96** (proved) The CUDA message bus as a sequential object: Histories whose sizes stay within the 2^32 elements a launch reaches (C91).
* **C97** (partial) What a receiver of the CUDA bus reads: The reading half is proved; removal of receivers and of older subscriptions is refuted.
* **C98** (partial) Exchange of messages between the CUDA bus and the host: Exactly-once delivery of host messages on the device is refuted by c98_once_refuted; everything else is proved.
* **C99** (partial) Delta projection on the CUDA backend: The unrestricted property is refuted by c99_third_refuted; under the two restrictions it holds for all runs.
* **C100** (partial) BLIFAT population on the CUDA backend: Refuted in general (c100_first_neuron_refuted, c100_same_as_host_refuted, c100_order_refuted, c100_three_messages_refuted); c100_same_as_host_partial is the case that holds, c100_first_neuron and c100_others say exactly what the device computes.
* **C101** (proved) Networks on the CUDA backend: who reads what, and when: Conditional on the run being defined (C99 and C100 say when it is not). Delays of at least 1: impacts with delay 0 are never sent (c99_zero_delay).
* **C102** (partial) What the host gets from the CUDA backend: The property as promised by C01 is refuted; what is sent is characterised for all runs.
* **C103** (partial) Devices can be selected by the identifiers they report: Refuted for every machine and history (c103_reported_identifiers_refuted, c103_gpu_refuted); what is listed and selection by object are proved.
* **C104** (partial) A CPU power reading is the energy used divided by the time since the last reading: Refuted below one second; above, the exact divisor is given.
* **C105** (partial) A network under the model executor: same steps, and who hears what: Order of delivery refuted: c105_order_refuted. The executor on the single-threaded backend only; handlers, generators and observers that throw are not modelled.
* **C106** (partial) Input channel data reach the connected projections in their step, once: c106_refused_refuted shows the double delivery on a run; it is what the code does and c106_inputs states it for every run.
* **C107** (proved) Output channels hold exactly the spikes of their populations; reading an interval gives its steps: Composes C105 with C47.
* **C108** (proved) Handlers answer with one step of latency: Handlers as arbitrary functions of the number of the call and the messages received; the first round of a handler is c108_first.
* **C109** (partial) Loading and reading back a network: Refuted: remove_populations and remove_projections do nothing on any backend (c109_remove_refuted); on CUDA load_all_* only fills containers the device never sees, so such a network does nothing, and get_network_copy dereferences null (c109_cuda_refuted).
* **C110** (partial) The life of a backend: loads, starts, reloads: First start (c110_last_load) and restart (c110_restart) proved. Refuted: a projection loaded after the first start is never subscribed, so it neither receives nor sends (c110_late_refuted, for all histories); reloading loses impacts under way (c110_reload_refuted), and is without effect if there are none (c110_reload_partial). CPU single-threaded backend.
* **C111** (proved) A run depends only on the messages meant for its populations and projections: Non-interference over pairs of runs (c111_deterministic); the functions exp and 2^x are parameters.
* **C112** (partial) Moving a network to another backend: Proved for networks without learning that are at rest (c112_transfer), including wrap-around of the step counter. Refuted otherwise: waiting impacts are not copied (c112_waiting_refuted); STDP state refers to the old step counter, and the copy learns differently even at rest (c112_stdp_refuted).
* **C113** (partial) A well-wired network never fails: Safety of whole runs of the single-threaded backend model; c113_stray_refuted shows the unchecked cases (throw for LIF with dopamine/blocking/conductance, out-of-bounds write for a target index past the end).
* **C114** (partial) A well-wired network never fails on the multi-threaded backend: c114_next_step (any history, any schedule), c114_alone (a network left alone runs for any number of steps). The claim without the condition on repeated neurons is refuted by c114_repeated_refuted (2^62 x 2 does not fit int64; the single-threaded backend returns on the same network and calls).
* **C115** (partial) Running validators on a network: c115_run, c115_throws (exact, both directions), c115_count, c115_registered, c115_each, c115_default_names. The documented "one entry per executed validator" is refuted by c115_one_entry_refuted; c115_name_refuted: an unrelated name tag aborts the validation.
* **C116** (proved) A well-wired model never fails under the executor: c116_never_fails, c116_steps, c116_no_generator, on the single-threaded backend.
* **C117** (partial) The same network does the same on both CPU backends: c117_same and c117_one_each: same neurons, synapses and messages. The claim without a condition on the order of impacts is false of the code: c117_order_refuted exhibits two schedules of the multi-threaded backend with different spikes. The calls from outside leaving the same messages waiting on both buses is proved (Same_Proofs4.same_ext), not assumed.
* **C118** (partial) Quantization keeps the network within the range of the hardware: The guarantees are proved in full. The wanted relation between projections, to the leak, and the case of zeros are false of the code: c118_relation_refuted, c118_leak_refuted, c118_zero_refuted are the counterexamples.
* **C119** (partial) The resource computed for a wanted weight gives that weight: c119_back, c119_monotone and c119_lowest for bounds within [-2, 2]; c119_infinite_refuted shows that without such a bound an accepted weight may give an infinite resource.
* **C120** (partial) Preparation for inference replaces groups of winners by projections: Proved in full for groups with one sender; the loop over several senders cannot work: c120_two_senders_refuted (the receiver has been removed when the second sender is reached, so get_projection throws).
* **C121** (partial) Connected parts of a network, their description and their drawing: Proved in full for networks whose projections all lead to populations of the network. False of the code: a projection to an unknown population is an out-of-range index (c121_unknown_refuted); draw_annotated_subgraph takes the name of nodes_[i] instead of nodes_[nodes[i]] (c121_names_refuted).
* **C122** (partial) Tasks of the thread pool that throw: Proved for all schedules: completeness of a normal return (c122_return), at most once, delivery exactly once while the process lives (c122_not_lost), progress, boundedness, end states, termination only by a worker running a throwing task (c122_terminated; never without workers), coincidence with C41-C43's model when nothing throws. Refuted: the same program throws or is terminated depending on the schedule (c122_schedule_refuted), join() throws while other tasks of its executor are still queued (c122_unfinished_refuted), join() throws the exception of another executor's task while the join() of that one returns normally (c122_foreign_refuted).
* **C123** (partial) A model executor on the multi-threaded backend delivers inputs, handler answers and outputs as on the other backend, under every schedule: MtExec_Model over Exec_Model and MtNet_Model.
* **C124** (partial) The same executor program has the same results on both CPU backends: c124_same; c124_handler_refuted shows that the condition on handlers is needed.
* **C125** (partial) MNIST client: from a file of images to the spikes of every step: Proved for up to 363 levels (the client uses 10): c125_input, c125_exact, c125_count; for more levels right unless brightness * levels = 256 * frame exactly (c125_levels), and wrong there with 364 levels (c125_levels_refuted, binary64 rounding). Refuted: a file of n whole images gives n + 1 images, the last one black (c125_images_refuted; the loop tests the stream before the read); images of size 0 never end (c125_no_size_refuted); the generator's skip parameter reads behind the frames for every value but 0 (c125_skip_refuted; the client uses the default 0); the observer records only the first message of a step, so that with two output populations, or after an empty first message, results are lost (c125_observed_refuted). The observer is right for at most one message per step (c125_observed).
* **C126** (partial) A network made with the network constructor is the one the calls describe, runs without ever failing, and keeps a closed part for inference: c126_network and c126_closed for all calls, c126_runs and c126_prepared: sound and wired, hence C113; c126_altai and c126_blifat: the calls of the example are of this kind; c126_altai_shapes, c126_blifat_shapes and c126_inference: what the networks consist of; c126_client_refuted: with 10 classes, columns of 20 and 784 pixels (global_config.h, hyperparameters.h of both models) the projection of images has 156800 synapses and do_inference of mnist-client throws; c126_client_accepts: with columns of 15 it would not. A negative finding.
* **C127** (partial) A well-wired model never fails under the executor on the multi-threaded backend: c127_never_fails, c127_steps; c127_repeated_refuted: wired, loadable, the same program runs on the single-threaded backend (C116), undefined on this one. A negative finding, the executor's form of c114_repeated_refuted.
* **C128** (partial) MNIST learning example: training goes through and shows every frame: Composes C126, C116, C64 and C51 on the executable loop. c128_trains, c128_told (what comes from outside in each step), c128_connected (which projections each channel leads to, however the buckets of the multimap come out), c128_competition (in every step the handler of the winners gets the spikes of the input population and sends the winners drawn among them, which the projection from input to output hears; the output channel gets the spikes of the output population), c128_winners; c128_nothing_to_train_refuted. Single-threaded backend. Loggers are observers.
* **C129** (proved) A network that ran can be used again: c129_again: any part of what the executor leaves is sound, has its indexes up to date and is wired for any channels and handlers, so the statement can be applied again to the second run. c129_never_fails: so every second run is carried out. c129_same: sizes of the populations and the fixed parts of the projections are those of before. c129_inference: for the MNIST networks, after train_network and the cut to what is kept (prepare_blifat, the preparation of BLIFAT; for AltAI the replacement of the winners' projections and the quantization are apart, C120). Hypothesis: every projection has its index up to date (as constructors leave it; c129_inference proves it for networks of the constructor). Messages waiting in a backend are not part of a network taken out of it.
