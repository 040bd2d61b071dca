(** Model of the training part of the MNIST learning example.  Paths are relative to
    /repo/examples/mnist-learn/. *)
From Verif Require Import Base Messaging_Model Neuron_Model Pipeline_Model Train_Model Net_Model Framework_Model Exec_Model Handlers_Model Classify_Model Build_Model.

(** global_config.h: [steps_per_image]. *)
Definition steps_per_image : N := 15.
(** [make_training_labels_spikes_generator], models/blifat/spike_generators.cpp:32-42 and
    models/altai/spike_generators.cpp:32-42, the same.  [get_data_for_training] gives
    iterators to the dataset: [first[i]] beyond the training part is a frame as long as
    there is one. *)
Definition training_labels (d : dataset) (step : N) : outcome (list N) :=
  obind (mod_ step steps_per_image) (fun local =>
  if N.eqb local 11 then
    obind (training_data d) (fun _ =>
    obind (div_ step steps_per_image) (fun i =>
    obind (at_ (ds_data d) i) (fun nf => Ret [fst nf])))
  else Ret []).

(** [build_channel_map_train], training.h:52-80: the entries of the model's multimap from
    channels to projections and the generators of the channels.  [projections_from_raster_] and
    [projections_from_classes_]: models/altai/construct_network.cpp:121, 135, 149, 162 and
    models/blifat/construct_network.cpp:122, 136, 172, 196. *)
Definition input_entries (m : names) (images labels : uid) : list (uid * uid) :=
  [(images, nm_raster_input m); (labels, nm_target_input_dopamine m); (labels, nm_target_input_excitatory m); (labels, nm_target_gate m)].
Definition generator_of (d : dataset) (images c : uid) (step : N) : outcome (list N) :=
  if N.eqb c images then training_spikes d step else training_labels d step.

(** [add_wta_handlers], /repo/knp/base-framework/impl/projection/wta.cpp:30-52: a handler for
    every group, named [fresh i]; [r i n] is what the [n]-th call of handler [i] draws.
    [KWtaPerGroup] throws when it asks for more memory than [limit] (c128_winners says it does
    not); the model of a handler gives nothing then. *)
Definition winners_of (limit : N) (r : random) (borders : list N) (winners : nat) (ms : list message) : list N :=
  match kwta_per_group limit r borders winners ms with Ret (l, _) => l | _ => [] end.
Fixpoint wta_calls (limit : N) (fresh : nat -> uid) (r : nat -> nat -> random) (i : nat) (winners : nat) (borders : list N) (groups : list (list uid * list uid)) : list xcall :=
  match groups with
  | [] => []
  | (senders, receivers) :: t =>
      AddHandler (fresh i) senders receivers (fun n ms => winners_of limit (r i n) borders winners ms) :: wta_calls limit fresh r (S i) winners borders t
  end.

(** [ModelExecutor::start(predicate)], base-framework/impl/model_executor.cpp:92-128, in the
    loop of [Backend::start] (core-library/impl/backend.cpp:122-133): every round the generators are called
    with the step of the backend, in the order of the channels, and then the predicate, here
    [step != steps] (training.h:174-178).  [first] are the calls of [start_learning] and
    [stop_learning] before the start.  The loop runs for at most [fuel] rounds; the answer tells
    whether it has ended. *)
Fixpoint generate (gen : uid -> N -> outcome (list N)) (step : N) (ins : list (uid * list uid)) : outcome (list (list N)) :=
  match ins with
  | [] => Ret []
  | (c, _) :: t => obind (gen c step) (fun l => obind (generate gen step t) (fun r => Ret (l :: r)))
  end.
Definition round_at (gen : uid -> N -> outcome (list N)) (ins : list (uid * list uid)) (first : list bool) (steps step : N) : outcome xturn :=
  obind (generate gen step ins) (fun l => Ret (mkXT (if N.eqb step 0 then first else []) (fun j => nth j l []) (negb (N.eqb step steps)))).
Section Loop.
Variables pow2f expf : flt -> flt.
Variables (gen : uid -> N -> outcome (list N)) (ins outs : list (uid * list uid)) (calls : list xcall) (first : list bool) (steps : N).
Fixpoint executor_loop (fuel : nat) (x : xstate) : outcome (xstate * list xrecord * bool) :=
  match fuel with
  | 0 => Ret (x, [], false)
  | S fuel =>
      obind (round_at gen ins first steps (nb_step (x_net x))) (fun u =>
      obind (executor_turn pow2f expf ins outs calls u x) (fun y =>
      match snd y with
      | None => Ret (fst y, [], true)
      | Some r => obind (executor_loop fuel (fst y)) (fun z => let '(x', recs, e) := z in Ret (x', r :: recs, e))
      end))
  end.
End Loop.

(** [train_network], training.h:101-180, on a network made with [network_calls]: [b] are the buckets of the
    multimap of the channels; [before] and [after] the observers added before and after the
    handlers. *)
Definition train_network (pow2f expf : flt -> flt) (network_calls : list bcall) (m : names) (borders : list N) (winners : nat) (d : dataset)
    (images labels output : uid) (b : buckets) (limit : N) (fresh : nat -> uid) (r : nat -> nat -> random) (before after : list xcall) (fuel : nat)
    : outcome (xstate * list xrecord * bool) :=
  obind (build network_calls nothing) (fun s =>
  let ins := channels_of b in
  let outs := [(output, bt_outputs s)] in
  let calls := before ++ wta_calls limit fresh r 0 winners borders (wta_groups m) ++ after in
  obind (executor_init [images; labels] ins outs calls (bt_pops s) (bt_projs s)) (fun x =>
  executor_loop pow2f expf (generator_of d images) ins outs calls [] (training_steps d) fuel x)).
