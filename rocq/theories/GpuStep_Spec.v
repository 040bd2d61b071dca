(** What a user expects of a network on the CUDA backend. *)
From Verif Require Import Base Messaging_Model Delta_Model Neuron_Model Gpu_Model Gpu_Spec GpuBus_Model GpuBus_Spec GpuNet_Model GpuNet_Spec GpuStep_Model.

(** All orders of threads are possible ones. *)
Definition fair_turn (t : gturn) : Prop := forall a b c e, any_orders (gt_ord t a b c e).

(** The bus when the populations are computed: what was there and what came from
    the host; and when the projections are. *)
Definition for_pops (r : grec) : list gmsg := gr_bus r ++ map as_gpu (gr_host r).
Definition for_projs (r : grec) : list gmsg := for_pops r ++ gr_pout r.

(** The places [idx] are those of the messages of type [ty] on the bus [l] that
    are meant for [r], each once, in some order. *)
Definition places (subs : list gsub) (l : list gmsg) (r : uid) (ty : nat) (idx : list nat) : Prop :=
  NoDup idx /\ forall k, In k idx <-> exists m, nth_error l k = Some m /\ mine subs r ty m.

(** A step fits into what launches reach. *)
Definition small_step (npops : nat) (r : grec) : Prop :=
  (N.of_nat (length (for_pops r) + npops) <= limit)%N /\
  Forall (fun m => (N.of_nat (payload (as_host m)) <= limit)%N) (for_pops r) /\
  (N.of_nat (length (concat (gr_out r))) <= limit)%N.

(** The calls a step makes on the host's bus. *)
Definition to_send (step : N) (l : list gmsg) : list op := map (fun g => OSend 0 (as_host g)) (filter (for_host step) l).
Definition step_ops (subs : list gsub) (step : N) (r : grec) : list op :=
  to_send step (gr_bus r) ++ [ORoute; OReceiveAll 0] ++ host_unload subs ++ [ORoute] ++
  to_send step (for_projs r) ++ [ORoute].

(** Who is to hear whom: a projection the spikes of its presynaptic population, a
    population the impacts of the projections onto it, and whatever the host's
    endpoint was subscribed to before the first step ([order]).  The identifier 0
    means none. *)
Definition told (heads : list phead) (order : list (key * sub)) (r : uid) (ty : nat) (u : uid) : Prop :=
  (ty = 0 /\ u <> 0%N /\ exists h, In h heads /\ ph_uid h = r /\ ph_pre h = u) \/
  (ty = 1 /\ r <> 0%N /\ exists h, In h heads /\ ph_post h = r /\ ph_uid h = u) \/
  (exists s, In ((ty, r), s) order /\ In u (s_senders s)).
(** The places [idx] of [l] are exactly those [r] is to read, each once. *)
Definition reads (heads : list phead) (order : list (key * sub)) (l : list gmsg) (r : uid) (ty : nat) (idx : list nat) : Prop :=
  NoDup idx /\ forall k, In k idx <-> exists m, nth_error l k = Some m /\ g_type m = ty /\ told heads order r ty (g_sender m).

(** Population and projection number [i]: what they read in a step, and what
    they sent. *)
Definition pop_read (i : nat) (r : grec) : list gmsg := messages_at (for_pops r) (nth i (gr_pidx r) []).
Definition proj_input (i : nat) (x : orders * grec) : ginput := mkGI (for_projs (snd x)) (nth i (gr_qidx (snd x)) []) (fst x).
Definition proj_sent (i : nat) (r : grec) : list gmsg := nth i (gr_out r) [].
(** What a population that is silent leaves in its place. *)
Definition left_by (m : option gmsg) : gmsg := match m with Some x => x | None => GSpike 0 0 false [] end.
(** One population over consecutive steps. *)
Fixpoint pop_run (u : uid) (step : N) (reads : list (list gmsg)) (ns : list (bl_par * bl))
  : outcome (list (bl_par * bl) * list (option gmsg)) :=
  match reads with
  | [] => Ret (ns, [])
  | ms :: t =>
      obind (g_population u step ms ns) (fun x =>
      obind (pop_run u (step + 1) t (fst x)) (fun y => Ret (fst y, snd x :: snd y)))
  end.
(** The host's side of a run: the calls of the user, and those of the steps; the
    first one begins with the subscriptions. *)
Fixpoint host_calls (subs : list gsub) (step : N) (turns : list gturn) (recs : list grec) : list op :=
  match turns, recs with
  | t :: turns, r :: recs => gt_ops t ++ step_ops subs step r ++ host_calls subs (step + 1) turns recs
  | _, _ => []
  end.
Definition sync_calls (order : list (key * sub)) : list op :=
  map (fun x => OSubscribe 0 (fst (fst x)) (snd (fst x)) (s_senders (snd x))) order.

(** A completed run of a network with the given populations and projections: the
    backend was initialised, and the steps were made, with any order of threads;
    nothing exceeded what a launch reaches. *)
Definition first_order (turns : list gturn) : list (key * sub) := match turns with t :: _ => gt_order t | [] => [] end.
Record gpu_run (sz : nat) (pops : list (uid * list (bl_par * bl))) (projs : list (phead * list dsyn)) (turns : list gturn) (h0 : bus)
  (d : gdev) (h : bus) (recs : list grec) : Prop := mkGRun {
  run_size : 1 <= sz;
  run_fair : Forall fair_turn turns;
  run_made : exists o d0, (forall a b c, any_orders (o a b c)) /\ g_init o pops projs = Ret d0 /\ g_steps sz turns d0 h0 = Ret (d, h, recs);
  run_subs : (N.of_nat (4 * length projs + list_sum (map (fun x : key * sub => (1 + length (s_senders (snd x)))%nat) (first_order turns)))%nat <= limit)%N;
  run_types : Forall (fun x => fst (fst x) < 2) (first_order turns);
  run_steps : (N.of_nat (length turns) + two32 <= two64)%N;
  run_small : Forall (small_step (length pops)) recs }.
(** The spikes a projection with the synapses [l] was told in a step. *)
Definition proj_told (i : nat) (l : list dsyn) (r : grec) : pinput :=
  mkIn l (map as_host (messages_at (for_projs r) (nth i (gr_qidx r) []))).
(** The calls that send messages to the host's endpoint. *)
Definition send_calls (l : list gmsg) : list op := map (fun g => OSend 0 (as_host g)) l.
