(** CUDA backend, populations and projections.  Directory: /repo/knp/backends/
    gpu/cuda-backend/impl.  The arithmetic of the device is taken to be the
    host's: the compiler's contraction of multiplications and additions is not
    modelled. *)
From Verif Require Import Base Messaging_Model Projection_Model Delta_Model Neuron_Model Gpu_Model GpuBus_Model.

Section Device.
(** The size of a message in bytes, see [d_reserve]. *)
Context (sz : nat).

(** backend_impl.cu:204-214 and 279-287: the messages of a population or
    projection are put into a vector on the device, one after the other. *)
Fixpoint collect (mem : list (cell gmsg)) (size : nat) (idx : list nat) (v : vec gmsg) : outcome (vec gmsg) :=
  match idx with
  | [] => Ret v
  | i :: t => if size <=? i then collect mem size t v
              else obind (read mem i) (fun m => obind (d_push gmsg_elem sz v m) (collect mem size t))
  end.

(** ** Delta projection *)
(** projection.cuh:106-136.  Synapses are plain data, a list here (C92). *)
Record gproj := mkGP { gp_uid : uid; gp_pre : uid; gp_post : uid; gp_syn : list dsyn; gp_msgs : vec gmsg }.
(** projection.cuh:75-95 and 63: neuron numbers are cut to 32 bits. *)
Definition load_projection (h : phead) (l : list dsyn) : gproj :=
  mkGP (ph_uid h) (ph_pre h) (ph_post h)
    (map (fun s => mkSyn (sy_params s) (w32 (sy_from s)) (w32 (sy_to s))) l) v_empty.
Definition imp_elem : elem gmsg := mkElem false (GImpact 0 0 false 0 0 false []) g_moved (fun _ _ => false).
(** [iter->impacts_.push_back(impact)]: a vector of plain data (C92). *)
Definition g_push (i : impact) (m : gmsg) : gmsg :=
  match m with
  | GImpact s t e p q f l => GImpact s t e p q f (l ++ [i])
  | GSpike _ _ _ _ => m
  end.

(** backend_impl.cu:701-711: [true] if there was a message for the step [key]. *)
Fixpoint add_pending (key : N) (i : impact) (v : vec gmsg) (k n : nat) : outcome (vec gmsg * bool) :=
  match n with
  | 0 => Ret (v, false)
  | S n' =>
      obind (read (deref v) k) (fun m =>
      if N.eqb (g_time m) key
      then obind (write (deref v) k (Obj (g_push i m))) (fun mem => Ret (with_mem v mem (v_size v), true))
      else add_pending key i v (S k) n')
  end.
(** 691-725: the message carries the step at which it will be sent. *)
Definition g_schedule (p : gproj) (step : N) (index : nat) (s : dsyn) (v : vec gmsg) : outcome (vec gmsg) :=
  let key := future_step (d_delay (sy_params s)) step in
  obind (add_pending key (impact_of index s) v 0 (v_size v)) (fun r =>
  if snd r then Ret (fst r)
  else d_push imp_elem sz (fst r) (GImpact (gp_uid p) key false (gp_pre p) (gp_post p) true [impact_of index s])).
(** 683-726: all synapses are looked at for every spike. *)
Fixpoint g_synapses (p : gproj) (step n : N) (index : nat) (l : list dsyn) (v : vec gmsg) : outcome (vec gmsg) :=
  match l with
  | [] => Ret v
  | s :: t => if N.eqb (sy_from s) n then obind (g_schedule p step index s v) (g_synapses p step n (S index) t)
              else g_synapses p step n (S index) t v
  end.
Fixpoint g_spikes (p : gproj) (step : N) (l : list N) (v : vec gmsg) : outcome (vec gmsg) :=
  match l with
  | [] => Ret v
  | n :: t => obind (g_synapses p step n 0 (gp_syn p) v) (g_spikes p step t)
  end.
(** 672-678. *)
Definition g_spikes_of (l : list gmsg) : list N :=
  flat_map (fun m => match m with GSpike _ _ _ idx => idx | _ => [] end) l.
(** A thread of the kernel 265-292. *)
Definition g_calculate (p : gproj) (step : N) (mem : list (cell gmsg)) (size : nat) (idx : list nat) : outcome gproj :=
  obind (collect mem size idx v_empty) (fun msgs =>
  obind (to_std msgs) (fun l =>
  obind (g_spikes p step (g_spikes_of l) (gp_msgs p)) (fun v =>
  Ret (mkGP (gp_uid p) (gp_pre p) (gp_post p) (gp_syn p) v)))).

(** 610-627.  The loop variable is increased after an erasure, too. *)
Fixpoint g_extract (fuel i : nat) (step : N) (v out : vec gmsg) : outcome (vec gmsg * vec gmsg) :=
  match fuel with
  | 0 => Ret (v, out)
  | S f =>
      if v_size v <=? i then Ret (v, out)
      else obind (read (deref v) i) (fun m =>
           if N.eqb (g_time m) step
           then obind (write (deref v) i (Obj (g_moved m))) (fun mem =>
                obind (d_push gmsg_elem sz out m) (fun out =>
                obind (d_erase imp_elem sz (with_mem v mem (v_size v)) i (i + 1)) (fun v =>
                g_extract f (S i) step v out)))
           else g_extract f (S i) step v out)
  end.
(** 654-658: the projection's messages for this step, copied by the host. *)
Definition g_route (ord : orders) (p : gproj) (step : N) : outcome (gproj * vec gmsg) :=
  obind (g_extract (v_size (gp_msgs p)) 0 step (gp_msgs p) v_empty) (fun r =>
  obind (actualized ord (snd r)) (fun out =>
  Ret (mkGP (gp_uid p) (gp_pre p) (gp_post p) (gp_syn p) (fst r), out))).

(** One projection over consecutive steps: what is on the bus, the places read
    by the projection, and the order of threads of the copy. *)
Record ginput := mkGI { gi_bus : list gmsg; gi_idx : list nat; gi_ord : orders }.
Fixpoint g_run (step : N) (ins : list ginput) (p : gproj) : outcome (list (list gmsg)) :=
  match ins with
  | [] => Ret []
  | i :: t =>
      obind (g_calculate p step (map Obj (gi_bus i)) (length (gi_bus i)) (gi_idx i)) (fun p =>
      obind (g_route (gi_ord i) p step) (fun r =>
      obind (to_std (snd r)) (fun out =>
      obind (g_run (add64 step 1) t (fst r)) (fun outs => Ret (out :: outs)))))
  end.

(** ** BLIFAT population *)
(** backend_impl.cu:429-456: phases above one are counted down (compare
    [bl_prestep]). *)
Definition g_prestep (p : bl_par) (n : bl) : bl :=
  let '(phase, pot) :=
    if N.eqb (b_phase n) 0 then (b_phase n, d_mul (b_pot n) (bp_pot_decay p))
    else let ph := (b_phase n - 1)%N in
         (ph, if N.eqb ph 0 then d_add (d_mul (b_pot n) (bp_pot_decay p)) (bp_reflex p)
              else d_mul (b_pot n) (bp_pot_decay p)) in
  mkBl (add64 (b_since n) 1) (d_mul (b_dyn n) (bp_thr_decay p)) (d_mul (b_trace n) (bp_trace_decay p))
       (d_mul (b_inh n) (bp_inh_decay p)) pot pot phase (b_block n) (b_dopa n).
(** 487: [static_cast<unsigned int>]; other values are undefined. *)
Definition to_uint32 (x : flt) : outcome Z :=
  match Z_trunc x with
  | Some z => if ((0 <=? z) && (z <? 2 ^ 32))%Z then Ret z else UB
  | None => UB
  end.
(** 472-489. *)
Definition g_impact (n : bl) (i : impact) : outcome bl :=
  match i_type i with
  | BLOCKING => obind (to_uint32 (i_value i)) (fun z =>
      Ret (mkBl (b_since n) (b_dyn n) (b_trace n) (b_inh n) (b_pot n) (b_pre n) (b_phase n) z (b_dopa n)))
  | _ => bl_impact n i
  end.
(** 510-525. *)
Definition g_block (n : bl) : bl :=
  if (b_block n <=? 0)%Z
  then mkBl (b_since n) (b_dyn n) (b_trace n) (b_inh n) (b_pre n) (b_pre n) (b_phase n)
            (let z := if (b_block n <? 0)%Z then (b_block n + 1)%Z else b_block n in
             if ((z =? 0) && (b_block n <? 0))%Z then int64_max else z) (b_dopa n)
  else mkBl (b_since n) (b_dyn n) (b_trace n) (b_inh n) (b_pot n) (b_pre n) (b_phase n) (b_block n - 1) (b_dopa n).
(** 536-563: the threshold has two parts only. *)
Definition g_fires (p : bl_par) (n : bl) : bool :=
  (bp_refract p <? b_since n)%N && f_ge (b_pot n) (d_add (bp_thr p) (b_dyn n)).
Definition g_test (p : bl_par) (n : bl) : bl * bool :=
  let pot := if f_lt (b_inh n) d_one
             then d_sub (b_pot n) (d_mul (d_sub (b_pot n) (bp_rev p)) (b_inh n))
             else bp_rev p in
  let n1 := mkBl (b_since n) (b_dyn n) (b_trace n) (b_inh n) pot (b_pre n) (b_phase n) (b_block n) (b_dopa n) in
  let spike := g_fires p n1 in
  let n2 := if spike
            then mkBl 0 (d_add (b_dyn n1) (bp_thr_inc p)) (d_add (b_trace n1) (bp_trace_inc p)) (b_inh n1)
                      (bp_reset p) (b_pre n1) (bp_burst p) (b_block n1) (b_dopa n1)
            else n1 in
  (if f_lt (b_pot n2) (bp_min p)
   then mkBl (b_since n2) (b_dyn n2) (b_trace n2) (b_inh n2) (bp_min p) (b_pre n2) (b_phase n2) (b_block n2) (b_dopa n2)
   else n2, spike).
(** 533-571: the test is made once for every impact of the message; [spike] is
    kept; neurons and their parameters in one record on the device. *)
Fixpoint g_tests (p : bl_par) (index : nat) (l : list impact) (n : bl) (spike : bool) (idx : list N) : bl * list N :=
  match l with
  | [] => (n, idx)
  | _ :: t => let (n, s) := g_test p n in
              let spike := spike || s in
              g_tests p index t n spike (if spike then idx ++ [w32 (N.of_nat index)] else idx)
  end.
(** The first message with impacts of the list, 528-531. *)
Fixpoint first_impacts (l : list gmsg) : option (list impact) :=
  match l with
  | [] => None
  | GImpact _ _ _ _ _ _ is :: _ => Some is
  | GSpike _ _ _ _ :: t => first_impacts t
  end.
(** 505-587: the function returns inside of the loop over the messages, after the
    first one.  [neuron] is written back in the loop over the impacts only. *)
Fixpoint g_neurons (u : uid) (step : N) (ms : list gmsg) (index : nat) (ns : list (bl_par * bl))
  : list (bl_par * bl) * option gmsg :=
  match ns with
  | [] => ([], None)
  | (p, n) :: t =>
      match first_impacts ms with
      | Some is =>
          let (n', idx) := g_tests p index is (g_block n) false [] in
          ((p, match is with [] => n | _ => n' end) :: t,
           match idx with [] => None | _ => Some (GSpike u step false idx) end)
      | None => let (t', m) := g_neurons u step ms (S index) t in ((p, n) :: t', m)
      end
  end.
(** 458-500. *)
Definition g_impacts_of (ms : list gmsg) : list impact :=
  flat_map (fun m => match m with GImpact _ _ _ _ _ _ l => l | _ => [] end) ms.
Definition g_population (u : uid) (step : N) (ms : list gmsg) (ns : list (bl_par * bl))
  : outcome (list (bl_par * bl) * option gmsg) :=
  let n0 := map (fun x => (fst x, g_prestep (fst x) (snd x))) ns in
  obind (impact_population (fun x i => obind (g_impact (snd x) i) (fun n => Ret (fst x, n))) (g_impacts_of ms) n0)
    (fun n1 => Ret (g_neurons u step ms 0 n1)).
(** A thread of the kernel 194-222: the new neurons and what is put into the
    place of the population in the vector of results. *)
Definition g_population_thread (u : uid) (step : N) (mem : list (cell gmsg)) (size : nat) (idx : list nat)
  (ns : list (bl_par * bl)) : outcome (list (bl_par * bl) * gmsg) :=
  obind (collect mem size idx v_empty) (fun msgs =>
  obind (to_std msgs) (fun l =>
  obind (g_population u step l ns) (fun r =>
  Ret (fst r, match snd r with Some m => m | None => g_default end)))).
End Device.
