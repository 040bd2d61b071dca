(** Model of a whole step of the multi-threaded CPU backend. *)
From Verif Require Import Base Messaging_Model Messaging_Spec Projection_Model Delta_Model Neuron_Model Pipeline_Model.

(** What the thread scheduler decides in one step: for every population the orders
    in which the parts of its first and of its last phase take effect
    (cpu-multi-threaded-backend/impl/backend.cpp:77-98, 121-162), and for every
    projection the order in which its parts are merged into its queue (256-283).
    That every schedule of the pool amounts to such orders is C41-C43. *)
Record sched := mkSched { sc_pops : list (list (nat * nat) * list (nat * nat)); sc_projs : list (list (nat * nat)) }.

(** One population in the three phases, backend.cpp:77-162.  The populations with
    resource STDP, whose training phase (163-198) works on projections, are left
    out as in Pipeline_Model; for the others training is empty. *)
Definition mt_apop_step (u : uid) (step : N) (ms : list message) (o : list (nat * nat) * list (nat * nat)) (a : apop)
  : outcome (apop * option message) :=
  match a with
  | PopLif l =>
      obind (mt_population_step (lift_pre lif_pre) (lift_imp lif_impact) (lift_post lif_post) u step ms (fst o) (snd o) l)
            (fun r => Ret (PopLif (fst (fst r)), snd r))
  | PopBlifat l =>
      obind (mt_population_step (lift_pre (bl_prestep false)) (lift_imp bl_impact) (lift_post bl_post) u step ms (fst o) (snd o) l)
            (fun r => Ret (PopBlifat (fst (fst r)), snd r))
  | PopAltai l =>
      obind (mt_population_step (lift_pre (al_prestep false)) (lift_imp al_impact) (lift_post al_post) u step ms (fst o) (snd o) l)
            (fun r => Ret (PopAltai (fst (fst r)), snd r))
  end.

(** Unloading the messages of several receivers one after the other
    (backend.cpp:103-107 and 256-259). *)
Fixpoint unload_all (ty : nat) (rs : list uid) (b : bus) : outcome (bus * list (list message)) :=
  match rs with
  | [] => Ret (b, [])
  | r :: t => obind (unload_own b ty r) (fun x =>
              obind (unload_all ty t (fst x)) (fun y => Ret (fst y, snd x :: snd y)))
  end.
(** Sending messages one after the other (213-220 and 285-294). *)
Fixpoint send_all (l : list (option message)) (b : bus) : outcome bus :=
  match l with
  | [] => Ret b
  | o :: t => obind (send_own b o) (send_all t)
  end.

(** The populations on the messages unloaded for them. *)
Fixpoint mt_pops (step : N) (ins : list (list message)) (os : list (list (nat * nat) * list (nat * nat)))
    (pops : list (uid * apop)) : outcome (list (uid * apop) * list (option message)) :=
  match pops, ins, os with
  | (u, a) :: t, ms :: ins', o :: os' =>
      obind (mt_apop_step u step ms o a) (fun y =>
      obind (mt_pops step ins' os' t) (fun z => Ret ((u, fst y) :: fst z, snd y :: snd z)))
  | _, _, _ => Ret ([], [])
  end.
(** The projections on the messages unloaded for them. *)
Fixpoint mt_projs (step : N) (ins : list (list message)) (os : list (list (nat * nat)))
    (projs : list wproj) : list wproj * list (option message) :=
  match projs, ins, os with
  | w :: t, ms :: ins', o :: os' =>
      let '(q, m) := mt_calculate (wp_head w) step ms (p_syn (wp_proj w)) o (wp_queue w) in
      let '(t', l) := mt_projs step ins' os' t in
      (mkWP (wp_head w) (wp_proj w) q :: t', m :: l)
  | _, _, _ => ([], [])
  end.

(** [calculate_populations], backend.cpp:203-221: only in this order do the bus
    calls happen: all populations are unloaded (106) before anything is sent
    (219). *)
Definition mt_populations_phase (s : sched) (step : N) (pops : list (uid * apop)) (b : bus)
  : outcome (list (uid * apop) * bus * list (list message) * list (option message)) :=
  obind (unload_all 1 (map fst pops) b) (fun x =>
  obind (mt_pops step (snd x) (sc_pops s) pops) (fun y =>
  obind (send_all (snd y) (fst x)) (fun b' => Ret (fst y, b', snd x, snd y)))).
(** [calculate_projections], backend.cpp:250-295. *)
Definition mt_projections_phase (s : sched) (step : N) (projs : list wproj) (b : bus)
  : outcome (list wproj * bus * list (list message) * list (option message)) :=
  obind (unload_all 0 (map (fun w => ph_uid (wp_head w)) projs) b) (fun x =>
  let y := mt_projs step (snd x) (sc_projs s) projs in
  obind (send_all (snd y) (fst x)) (fun b' => Ret (fst y, b', snd x, snd y))).

(** [MultiThreadedCPUBackend::_step], backend.cpp:310-323. *)
Definition mt_backend_step (s : sched) (ext : list message) (k : backend) : outcome (backend * record) :=
  obind (mt_populations_phase s (k_step k) (k_pops k) (k_bus k)) (fun x =>
  let '(pops, b1, pin, pout) := x in
  obind (route_receive_own b1) (fun b2 =>
  obind (mt_projections_phase s (k_step k) (k_projs k) b2) (fun y =>
  let '(projs, b3, jin, jout) := y in
  obind (route_receive_own b3) (fun b4 =>
  Ret (mkBackend b4 pops projs (add64 (k_step k) 1), mkRecord ext pin pout jin jout))))).

(** A run: before every step, calls from outside; every step has its schedule. *)
Fixpoint mt_backend_run (calls : list (list op * sched)) (k : backend) : outcome (backend * list record) :=
  match calls with
  | [] => Ret (k, [])
  | (ops, s) :: t =>
      obind (run (k_bus k) ops) (fun x =>
      obind (mt_backend_step s (pending (fst x)) (mkBackend (fst x) (k_pops k) (k_projs k) (k_step k))) (fun y =>
      obind (mt_backend_run t (fst y)) (fun z =>
      Ret (fst z, snd y :: snd z))))
  end.
