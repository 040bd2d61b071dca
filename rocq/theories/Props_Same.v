(** Property theorem C117: the same network does the same on the two CPU backends. *)
From Verif Require Import Base ListLemmas Messaging_Model Messaging_Spec Projection_Model Projection_Spec Projection_Proofs
  Delta_Model Delta_Spec Delta_Proofs Neuron_Model Pipeline_Model Pipeline_Spec Pipeline_Proofs Pipeline_Proofs2
  Stdp_Model Additive_Model Train_Model Train_Proofs Net_Model Net_Spec Net_Proofs Net_Proofs2 Net_Proofs3 Net_Proofs4 Net_Proofs5
  Props_Net Props_Net2 Props_Sched Mt_Model Mt_Spec Mt_Proofs Mt_Proofs2 Sched_Model Sched_Proofs MtNet_Model MtNet_Spec MtNet_Proofs MtNet_Proofs2 MtNet_Proofs3 Props_MtNet
  Same_Spec Same_Proofs Same_Proofs2 Same_Proofs3 Same_Proofs4.

(** *** C117 *)
(** The same network, loaded into the two backends, with the same calls from outside
    before every step and the same [start_learning] and [stop_learning]; part sizes and
    what the thread scheduler decides are arbitrary.  If from outside come only spikes, no
    projection gets two spike messages in a step and the order of impacts makes no
    difference to the populations (on the single-threaded backend), then both runs have
    the same neurons and synapses in every step and at the end, and the same messages
    except for the order of the entries in them. *)
Theorem c117_same pow2f expf extra pops projs pp pj (turns : list (turn * nsched)) k k' tr tr' :
  sound_network pops projs -> Forall loadable projs -> Forall numeric projs ->
  Forall (fun w => (N.of_nat (length (delta_synapses w)) <= 2 ^ 63)%N) projs ->
  (0 < pp < two64)%N -> (0 < pj < two64)%N ->
  Forall (fun c => forallb outside (tu_ops (fst c)) = true /\ nsched_ok pp pj pops projs (snd c)) turns ->
  (N.of_nat (length turns) < two64)%N ->
  net_run pow2f expf extra pops projs (map fst turns) k tr ->
  mt_net_run pow2f extra pops projs turns k' tr' ->
  (forall r, In r tr -> plain_input r) -> indifferent tr ->
  Forall2 same_record tr tr' /\
  nb_pops k' = nb_pops k /\ map bare (nb_projs k') = map bare (nb_projs k).
Proof.
  intros Hs Hl Hnum Hsyn Hpp Hpj Hf Hlen Hr Hr' Hin Hfree.
  assert (Hf' : Forall (fun u => forallb outside (tu_ops u) = true) (map fst turns)) by (apply Forall_map; eapply Forall_impl; [|exact Hf]; intros c [H _]; exact H).
  assert (Hf2 : Forall (fun e : turn * nsched => forallb outside (tu_ops (fst e)) = true) turns) by (eapply Forall_impl; [|exact Hf]; intros c [H _]; exact H).
  pose proof (same_ext _ _ _ _ _ _ _ _ _ _ Hf2 Hr Hr') as Hext.
  destruct (net_run_facts _ _ _ _ _ _ _ _ Hs Hf' Hr) as (L & _ & E & _). rewrite map_length in L.
  destruct (mt_net_run_facts _ _ _ _ _ _ _ _ _ Hs Hl Hpp Hf Hr') as (L' & _ & E' & _).
  assert (Hlen' : (N.of_nat (length tr) < two64)%N) by now rewrite L.
  assert (L2 : length tr' = length tr) by congruence.
  destruct (together_all pow2f expf extra pops projs pp pj (map fst turns) turns k k' tr tr' Hs Hl Hnum Hsyn Hpp Hpj Hf Hf' (map_map _ _ _) Hr Hr' Hlen' Hin Hfree L2) as (T & R).
  { intros t _ _ t0 r r' _ Ht Ht'. pose proof (f_equal (fun l => nth_error l t0) Hext) as H. cbv beta in H. rewrite !nth_error_map, Ht, Ht' in H. cbn [option_map] in H.
    exact (f_equal (fun o => match o with Some x => x | None => [] end) H). }
  split; [apply F2_build; [congruence|]; exact R|].
  destruct (T (length tr) (le_n _)) as (T1 & T2 & _). rewrite L2 in E'.
  pose proof (f_equal fst E) as A1. pose proof (f_equal snd E) as A2. pose proof (f_equal fst E') as B1. pose proof (f_equal snd E') as B2. cbn [fst snd] in A1, A2, B1, B2.
  split; [congruence|]. rewrite A2, B2. symmetry. eapply F2_same; [|exact T2]. intros a b H. apply H.
Qed.
(** In particular if no neuron gets two impacts in one step. *)
Theorem c117_one_each pow2f expf extra pops projs pp pj (turns : list (turn * nsched)) k k' tr tr' :
  sound_network pops projs -> Forall loadable projs -> Forall numeric projs ->
  Forall (fun w => (N.of_nat (length (delta_synapses w)) <= 2 ^ 63)%N) projs ->
  (0 < pp < two64)%N -> (0 < pj < two64)%N ->
  Forall (fun c => forallb outside (tu_ops (fst c)) = true /\ nsched_ok pp pj pops projs (snd c)) turns ->
  (N.of_nat (length turns) < two64)%N ->
  net_run pow2f expf extra pops projs (map fst turns) k tr ->
  mt_net_run pow2f extra pops projs turns k' tr' ->
  (forall r, In r tr -> plain_input r /\ Forall one_each (r_pop_in (nr_msgs r))) ->
  Forall2 same_record tr tr' /\
  nb_pops k' = nb_pops k /\ map bare (nb_projs k') = map bare (nb_projs k).
Proof.
  intros Hs Hl Hnum Hsyn Hpp Hpj Hf Hlen Hr Hr' Hin.
  apply (c117_same pow2f expf extra pops projs pp pj turns k k' tr tr'); auto; [intros r H; now apply Hin|].
  intros t r i u a ms Ht _ Hm. apply one_each_free. destruct (Hin r (nth_error_In _ _ Ht)) as [_ F]. rewrite Forall_forall in F. apply F. eapply nth_error_In; eauto.
Qed.

(** In the example of C90, in which weights are trained, all this holds. *)
Definition one_each_b (ms : list message) : bool :=
  (fix nd (l : list N) := match l with [] => true | x :: t => negb (existsb (N.eqb x) t) && nd t end) (map i_post (impacts_of ms)).
Lemma nd_ok : forall l : list N, (fix nd (l : list N) := match l with [] => true | x :: t => negb (existsb (N.eqb x) t) && nd t end) l = true -> NoDup l.
Proof.
  induction l as [|x l IH]; intros H; constructor; apply andb_true_iff in H as [H1 H2]; [|auto].
  intros Hx. apply negb_true_iff in H1. assert (existsb (N.eqb x) l = true) by (apply existsb_exists; exists x; split; [exact Hx|apply N.eqb_refl]). congruence.
Qed.
Definition spike_b (m : message) : bool := match m with SpikeMsg _ _ l => one_each_b [] && (fix nd (l : list N) := match l with [] => true | x :: t => negb (existsb (N.eqb x) t) && nd t end) l | _ => false end.
Definition plain_b (r : nrecord) : bool :=
  forallb spike_b (r_ext (nr_msgs r)) && forallb (fun ms => Nat.leb (length ms) 1) (r_proj_in (nr_msgs r)) && forallb one_each_b (r_pop_in (nr_msgs r)).
Lemma plain_b_ok r : plain_b r = true -> plain_input r /\ Forall one_each (r_pop_in (nr_msgs r)).
Proof.
  unfold plain_b. intros H. apply andb_true_iff in H as [H H3]. apply andb_true_iff in H as [H1 H2]. rewrite forallb_forall in H1, H2, H3.
  split; [split|]; apply Forall_forall; intros x Hx.
  - specialize (H1 x Hx). destruct x as [s t l|]; [|discriminate]. exists s, t, l. split; [reflexivity|]. apply andb_true_iff in H1 as [_ H1]. now apply nd_ok.
  - apply Nat.leb_le. auto.
  - apply nd_ok. exact (H3 x Hx).
Qed.
Definition st_view (o : outcome (nbackend * list nrecord)) : option bool := match o with Ret (k, tr) => Some (forallb plain_b tr) | _ => None end.
Lemma st_view_is : st_view sc_run = Some true.
Proof. vm_compute. reflexivity. Qed.
Lemma st_view_inv o : st_view o = Some true -> exists k tr, o = Ret (k, tr) /\ forall r, In r tr -> plain_input r /\ Forall one_each (r_pop_in (nr_msgs r)).
Proof.
  intros H. destruct o as [[k tr]| |]; cbn [st_view] in H; try discriminate H. exists k, tr. split; [reflexivity|]. injection H as H. intros r Hr.
  apply plain_b_ok. rewrite forallb_forall in H. auto.
Qed.
Example c117_case : exists k tr k' tr' r,
  sound_network Props_Sched.sc_pops Props_Sched.sc_projs /\ Forall loadable Props_Sched.sc_projs /\ Forall numeric Props_Sched.sc_projs /\
  Forall (fun w => (N.of_nat (length (delta_synapses w)) <= 2 ^ 63)%N) Props_Sched.sc_projs /\
  Forall (fun c => forallb outside (tu_ops (fst c)) = true /\ nsched_ok 1 1 Props_Sched.sc_pops Props_Sched.sc_projs (snd c)) mx_turns /\
  net_run one1 one1 sc_extra Props_Sched.sc_pops Props_Sched.sc_projs (map fst mx_turns) k tr /\
  mt_net_run one1 sc_extra Props_Sched.sc_pops Props_Sched.sc_projs mx_turns k' tr' /\
  (forall r, In r tr -> plain_input r /\ Forall one_each (r_pop_in (nr_msgs r))) /\
  nth_error tr' 1 = Some r /\ r_pop_out (nr_msgs r) = [Some (SpikeMsg 1 1 [1; 0]%N); Some (SpikeMsg 2 1 [1; 0]%N)] /\ weights (nr_trained r) <> weights (nr_projs r).
Proof.
  destruct (mx_view_inv _ _ mx_view_is) as (k' & tr' & r & E & Er & H1 & H2). destruct (st_view_inv _ st_view_is) as (k & tr & E0 & H0). exists k, tr, k', tr', r.
  split; [apply sc_sound|]. split; [repeat constructor|]. split; [repeat constructor|]. split; [repeat constructor; cbn; discriminate|].
  split; [repeat (constructor; [split; [reflexivity|exact ex_sched_ok]|]); constructor|].
  split; [change (map fst mx_turns) with Props_Sched.sc_turns; now apply sc_net|]. split; [now apply mx_net|]. auto.
Qed.

(** Without the condition on the order of impacts it does not hold: three synapses with
    the weights 2^24, 1 and 1 on one LIF neuron with the threshold 2^24.  The
    single-threaded backend adds in the order of the synapses, and the sum stays 2^24;
    the multi-threaded one adds in the order in which the threads are done, and with
    another order the neuron spikes.  Two runs of the multi-threaded backend differ as
    well. *)
Definition big : Z := (2 ^ 24)%Z.
Definition or_pops : list (uid * npop) := [(1%N, NPlain (PopLif [(mkLifPar (f_of_Z 0) (f_of_Z big) (f_of_Z 1) 0, mkLif (f_of_Z 0) 0)]))].
Definition or_syn (w : Z) : dsyn := mkSyn (mkDP (f_of_Z w) 1 EXCITATORY) 0 0.
Definition or_projs : list nproj := [mkNP 21 0 1 true (NDelta (proj_generated (fun i => nth_error [or_syn big; or_syn 1; or_syn 1] i) 3)) []].
Definition or_extra : list subscr := [mkSubscr 0 21 [9]%N].
Definition or_sched (back : bool) : nsched :=
  mkNSched [([(0, 1)], [(0, 1)])]%nat [0]%nat [if back then [(2, 3); (1, 2); (0, 1)] else [(0, 1); (1, 2); (2, 3)]]%nat.
Definition or_turns (back : bool) : list (turn * nsched) := [(mkTurn [OCreate; OSend 1 (SpikeMsg 9 0 [0]%N)] [], or_sched back); (mkTurn [] [], or_sched back)].
Lemma or_sound : sound_network or_pops or_projs.
Proof.
  split; cbn [or_pops or_projs map fst np_uid].
  - repeat constructor; cbn; intuition discriminate.
  - repeat constructor; cbn; intuition discriminate.
  - repeat constructor; cbn [np_kind sound_kind]. eexists _, true, [], []. split; [right; split; [eauto|reflexivity]|]. split; [reflexivity|exact I].
  - repeat constructor.
  - repeat constructor; cbn; discriminate.
Qed.
Lemma or_sched_ok b : nsched_ok 1 1 or_pops or_projs (or_sched b).
Proof.
  assert (H : any_order 1 1 [(0, 1)]%nat) by (exists [(0, 1)]%N, 2; split; [reflexivity|]; apply Permutation_refl).
  split; [|split].
  - repeat constructor; exact H.
  - apply Permutation_refl.
  - destruct b; repeat constructor; exists [(0, 1); (1, 2); (2, 3)]%N, 4; (split; [reflexivity|]).
    + apply Permutation_sym. apply (Permutation_rev [(0, 1); (1, 2); (2, 3)]%nat).
    + apply Permutation_refl.
Qed.
Definition or_st := obind (nbackend_init or_extra or_pops or_projs) (nbackend_run one1 one1 (map fst (or_turns true))).
Definition or_mt b := obind (nbackend_init or_extra or_pops or_projs) (mt_nbackend_run one1 (or_turns b)).
Definition plain_b' (r : nrecord) : bool := forallb spike_b (r_ext (nr_msgs r)) && forallb (fun ms => Nat.leb (length ms) 1) (r_proj_in (nr_msgs r)).
Definition or_view (o : outcome (nbackend * list nrecord)) := match o with Ret (k, tr) => Some (forallb plain_b' tr, map (fun r => r_pop_out (nr_msgs r)) tr) | _ => None end.
Lemma or_view_inv o x : or_view o = Some (true, x) -> exists k tr, o = Ret (k, tr) /\ (forall r, In r tr -> plain_input r) /\ map (fun r => r_pop_out (nr_msgs r)) tr = x.
Proof.
  intros H. destruct o as [[k tr]| |]; cbn [or_view] in H; try discriminate H. exists k, tr. split; [reflexivity|]. injection H as H1 H2. split; [|exact H2].
  intros r Hr. rewrite forallb_forall in H1. specialize (H1 r Hr). unfold plain_b' in H1. apply andb_true_iff in H1 as [H1 H3]. rewrite forallb_forall in H1, H3.
  split; apply Forall_forall; intros y Hy.
  - specialize (H1 y Hy). destruct y as [s t l|]; [|discriminate]. exists s, t, l. split; [reflexivity|]. apply andb_true_iff in H1 as [_ H1]. now apply nd_ok.
  - apply Nat.leb_le. auto.
Qed.
Lemma or_st_net k tr : or_st = Ret (k, tr) -> net_run one1 one1 or_extra or_pops or_projs (map fst (or_turns true)) k tr.
Proof. unfold or_st, net_run. intros H. destruct (nbackend_init _ _ _) as [k0| |] eqn:E; cbn [obind] in H; try discriminate. eauto. Qed.
Lemma or_mt_net b k tr : or_mt b = Ret (k, tr) -> mt_net_run one1 or_extra or_pops or_projs (or_turns b) k tr.
Proof. unfold or_mt, mt_net_run. intros H. destruct (nbackend_init _ _ _) as [k0| |] eqn:E; cbn [obind] in H; try discriminate. eauto. Qed.
Theorem c117_order_refuted : exists k tr ka tra kb trb,
  sound_network or_pops or_projs /\ Forall loadable or_projs /\ Forall numeric or_projs /\
  (forall b, Forall (fun c => forallb outside (tu_ops (fst c)) = true /\ nsched_ok 1 1 or_pops or_projs (snd c)) (or_turns b)) /\
  (forall b, map fst (or_turns b) = map fst (or_turns true)) /\
  net_run one1 one1 or_extra or_pops or_projs (map fst (or_turns true)) k tr /\
  mt_net_run one1 or_extra or_pops or_projs (or_turns true) ka tra /\
  mt_net_run one1 or_extra or_pops or_projs (or_turns false) kb trb /\
  (forall r, In r tr -> plain_input r) /\
  map (fun r => r_pop_out (nr_msgs r)) tr = [[None]; [None]] /\
  map (fun r => r_pop_out (nr_msgs r)) tra = [[None]; [Some (SpikeMsg 1 1 [0]%N)]] /\
  map (fun r => r_pop_out (nr_msgs r)) trb = [[None]; [None]].
Proof.
  destruct (or_view_inv or_st [[None]; [None]]) as (k & tr & E & H & V); [vm_compute; reflexivity|].
  destruct (or_view_inv (or_mt true) [[None]; [Some (SpikeMsg 1 1 [0]%N)]]) as (ka & tra & Ea & _ & Va); [vm_compute; reflexivity|].
  destruct (or_view_inv (or_mt false) [[None]; [None]]) as (kb & trb & Eb & _ & Vb); [vm_compute; reflexivity|].
  exists k, tr, ka, tra, kb, trb. split; [exact or_sound|]. split; [repeat constructor|]. split; [repeat constructor|].
  split; [intros b; repeat (constructor; [split; [reflexivity|apply or_sched_ok]|]); constructor|]. split; [intros []; reflexivity|].
  split; [exact (or_st_net _ _ E)|]. split; [exact (or_mt_net _ _ _ Ea)|]. split; [exact (or_mt_net _ _ _ Eb)|]. split; [exact H|]. split; [exact V|]. split; [exact Va|exact Vb].
Qed.

Print Assumptions c117_same.
Print Assumptions c117_one_each.
Print Assumptions c117_order_refuted.
