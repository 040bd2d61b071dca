(** C68, C69: saving a network and loading it back. *)
From Coq Require Import String Sorted Permutation ZArith Lia.
From Verif Require Import Base Codec_Model Sonata_Model Sonata_Spec Sonata_Proofs Sonata_Proofs2.
Open Scope list_scope.

(** C68: whatever the directory held, saving a network the format can hold
    succeeds and loading gives the network back: same identifiers, sizes, types,
    synapses and locks, in the order of the identifiers, and every neuron field
    except the forgotten ones. *)
Theorem c68_round_trip d net : saveable net -> tables_ok d ->
  exists d' net', save_network d net = Ret d' /\ (forall fresh, load_network fresh d' = Ret net') /\ loaded_as net net'.
Proof. apply round_trip. Qed.

(** The full claim (every field is kept) is false for every neuron type. *)
Definition one_syn (k : synapse_kind) : projection :=
  mkProj 7 1 1 k false [(put "weight_" (VF (f_of_Z 3)) (default_synapse k), 0%N, 0%N)].
Definition one_net (k : neuron_kind) (n : struct) : network := mkNet 5 [mkPop 1 k [n]] [one_syn DeltaSyn].
Theorem c68_exact_refuted k f : In f (forgotten k) ->
  forall v, get f (default_neuron k) <> Some v ->
  exists net d' net', saveable net /\ save_network empty_dir net = Ret d' /\ load_network 0 d' = Ret net' /\
    (exists n, p_neurons (hd (mkPop 0 k []) (n_pops net)) = [n] /\ get f n = Some v) /\
    (exists n, p_neurons (hd (mkPop 0 k []) (n_pops net')) = [n] /\ get f n <> Some v).
Proof.
  intros Hf v Hv. set (n := put f v (default_neuron k)).
  assert (Hin : In f (names (default_neuron k))).
  { destruct k; cbn in Hf; repeat (destruct Hf as [<-|Hf]; [cbn; tauto|]); destruct Hf. }
  assert (Hn : neuron_ok k n) by (unfold neuron_ok, n; apply put_names).
  assert (S : saveable (one_net k n)).
  { split; cbn [one_net n_uid n_pops n_projs]; try discriminate.
    - reflexivity.
    - constructor; [|constructor]. split; [reflexivity|]. split; [discriminate|]. constructor; [exact Hn|constructor].
    - constructor; [|constructor]. unfold proj_ok. cbn [one_syn j_uid j_pre j_post j_kind j_synapses].
      repeat (split; [first [reflexivity|discriminate]|]). constructor; [apply put_names|constructor].
    - repeat constructor; cbn; tauto.
    - repeat constructor; cbn; tauto. }
  destruct (round_trip empty_dir _ S) as (d' & net' & E & L & A); [split; discriminate|].
  exists (one_net k n), d', net'. split; [exact S|]. split; [exact E|]. split; [apply L|]. split.
  - exists n. split; [reflexivity|]. apply get_put_same. exact Hin.
  - destruct (la_pops _ _ A) as (ps & P & F). cbn [one_net n_pops] in P.
    symmetry in P. apply Permutation_length_1_inv in P. subst ps.
    inversion F as [|p p' l l' (Hu & Hk & Fn) F' E1 E2]. subst p l. cbn [p_neurons p_kind] in Fn.
    inversion Fn as [|m m' t t' K F'' E3 E4]. subst m t. inversion F'' as [E5|]. subst t'.
    exists m'. cbn [hd]. split; [now symmetry|]. destruct K as [_ K]. rewrite K.
    assert (existsb (String.eqb f) (forgotten k) = true) as ->; [|exact Hv].
    apply existsb_exists. exists f. split; [exact Hf|apply String.eqb_refl].
Qed.

(** C68: what was loaded is stable: saving and loading it again gives exactly
    the same network. *)
Theorem c68_stable d net d' fresh net' : saveable net -> tables_ok d ->
  save_network d net = Ret d' -> load_network fresh d' = Ret net' ->
  forall d2, tables_ok d2 -> exists d3, save_network d2 net' = Ret d3 /\ forall fresh', load_network fresh' d3 = Ret net'.
Proof.
  intros H T E L d2 T2. destruct (round_trip d net H T) as (d'' & n1 & E1 & L1 & A1).
  assert (d'' = d') by congruence. subst d''. assert (n1 = net') by (specialize (L1 fresh); congruence). subst n1.
  pose proof (loaded_saveable _ _ H A1) as H2. destruct (round_trip d2 net' H2 T2) as (d3 & n2 & E2 & L2 & A2).
  exists d3. split; [exact E2|]. rewrite <- (loaded_twice _ _ _ H A1 A2). exact L2.
Qed.

(** C68: saving succeeds exactly for networks with at least one population, at
    least one projection, distinct identifiers and no additive STDP; otherwise
    it throws. *)
Theorem c68_save_limits d net : uids_ok net -> tables_ok d ->
  (storable net -> exists d', save_network d net = Ret d') /\ (~ storable net -> save_network d net = Throw).
Proof. apply save_iff. Qed.

(** C68: a saved network with an empty population or projection cannot be
    loaded: the type of its first element is read out of bounds. *)
Theorem c68_empty_refuted d net d' fresh : storable net -> uids_ok net -> shaped net -> tables_ok d ->
  save_network d net = Ret d' ->
  Exists (fun p => p_neurons p = []) (n_pops net) \/ Exists (fun j => j_synapses j = []) (n_projs net) ->
  load_network fresh d' = UB.
Proof. apply load_empty. Qed.

(** C69: after any sequence of savings into one directory the type tables list
    exactly the types used by the saved networks (and BLIFAT), none more than
    twice. *)
Theorem c69_tables d nets : saved_dir d nets ->
  (forall t, In t (rows (d_neuron_csv d)) <-> In t (flat_map neuron_types nets)) /\
  (forall t, In t (rows (d_synapse_csv d)) <-> In t (flat_map synapse_types nets)) /\
  (forall t, count t (rows (d_neuron_csv d)) <= 2 /\ count t (rows (d_synapse_csv d)) <= 2).
Proof.
  intros H. destruct (saved_dir_inv d nets H) as [[A B] [C D]]. split; [exact A|]. split; [exact C|].
  intros t. split; [apply B|apply D].
Qed.

(** C69: "once per type" is false for every network: the first type saved into a
    new directory has two rows. *)
Theorem c69_once_refuted net d' : save_network empty_dir net = Ret d' -> ~ NoDup (rows (d_neuron_csv d')).
Proof.
  intros E. destruct (first_save_duplicates net d' E) as (t & s & ->). intros H. inversion H; subst. apply H2. now left.
Qed.

(** The hypotheses are met: two populations and two projections saved twice. *)
Definition ex_lif (v : Z) : struct :=
  put "potential_reset_value_" (VF (f_of_Z 2)) (put "potential_" (VF (f_of_Z v)) lif_default).
Definition ex_res : struct := put "isi_status_" (VZ 1) (default_neuron ResourceAltAI).
Definition ex_net : network :=
  mkNet 77 [mkPop 9 Lif [ex_lif 4; ex_lif 5]; mkPop 3 ResourceAltAI [ex_res]]
    [mkProj 8 9 3 ResourceSyn true [(put "w_max_" (VF (f_of_Z 6)) resource_synapse_default, 1%N, 0%N)];
     mkProj 6 3 9 DeltaSyn false [(put "delay_" (VZ 4) delta_default, 0%N, 1%N); (delta_default, 0%N, 0%N)]].
Example ex_saveable : saveable ex_net.
Proof.
  split; cbn [ex_net n_uid n_pops n_projs]; try discriminate.
  - reflexivity.
  - repeat constructor; discriminate.
  - repeat constructor; discriminate.
  - repeat constructor; cbn; intros H; repeat destruct H as [H|H]; try discriminate; exact H.
  - repeat constructor; cbn; intros H; repeat destruct H as [H|H]; try discriminate; exact H.
Qed.
Example ex_loaded : exists d1 d2 net', save_network empty_dir ex_net = Ret d1 /\ save_network d1 ex_net = Ret d2 /\
  load_network 0 d2 = Ret net' /\ map p_uid (n_pops net') = [3; 9]%N /\
  map (map (get "potential_")) (map p_neurons (n_pops net')) = [[Some F0]; [Some (VF (f_of_Z 4)); Some (VF (f_of_Z 5))]] /\
  map (map (get "potential_reset_value_")) (map p_neurons (n_pops net')) = [[Some (VZ 0)]; [Some F0; Some F0]] /\
  n_projs net' = [nth 1 (n_projs ex_net) (one_syn DeltaSyn); nth 0 (n_projs ex_net) (one_syn DeltaSyn)] /\
  d_neuron_csv d2 = Some [104; 104; 103; 100; 100]%Z.
Proof. do 3 eexists. vm_compute. repeat split; reflexivity. Qed.
Example ex_saved_dir : exists d, saved_dir d [ex_net; ex_net].
Proof.
  destruct ex_loaded as (d1 & d2 & net' & E1 & E2 & _). exists d2.
  apply (saved_more d1 d2 [ex_net] ex_net); [|exact E2]. apply (saved_more empty_dir d1 [] ex_net); [constructor|exact E1].
Qed.
Example ex_empty : exists net d', storable net /\ uids_ok net /\ shaped net /\ save_network empty_dir net = Ret d' /\
  Exists (fun p => p_neurons p = []) (n_pops net).
Proof.
  exists (mkNet 1 [mkPop 2 Lif []] [one_syn DeltaSyn]). eexists. split.
  { repeat split; try discriminate; repeat constructor; try (cbn; tauto); discriminate. }
  split; [repeat constructor|]. split; [split; repeat constructor|]. split; [vm_compute; reflexivity|]. now constructor.
Qed.

Print Assumptions c68_round_trip.
Print Assumptions c68_exact_refuted.
Print Assumptions c68_stable.
Print Assumptions c68_save_limits.
Print Assumptions c68_empty_refuted.
Print Assumptions c69_tables.
Print Assumptions c69_once_refuted.
