(** Devices: C103, C104. *)
From Verif Require Import Base ListLemmas Core_Model Device_Model Device_Proofs.
From Coq Require String.

(** ** C103 *)
(** The devices handed out so far. *)
Definition handed (outs : list dout) (d : device) : Prop := exists l, In (DDevices l) outs /\ In d l.

(** False on every machine and every backend: whatever was called before, a
    request for devices by identifiers the user got from [get_devices] never adds
    a device to the current ones; it is refused unless it names as many
    identifiers as devices are current already. *)
Theorem c103_reported_identifiers_refuted gen pf mc k ops s outs req :
  (forall i j, gen i = gen j -> i = j) ->
  druns gen pf mc (dstate_init k) ops = Ret (s, outs) ->
  (forall u, In u req -> exists d, handed outs d /\ dv_uid d = u) ->
  forall s' o, dexec gen pf mc s (DSelectIds req) = Ret (s', o) ->
    ds_current s' = ds_current s /\ (length req <> length (ds_current s) -> o = DRefused).
Proof.
  intros Inj H R s' o E. destruct (druns_ids _ _ _ _ _ _ _ H) as [_ F].
  assert (Q : forall u, In u req -> exists i, i < ds_next s /\ u = gen i).
  { intros u Hu. destruct (R u Hu) as [d [[l [Hl Hd]] <-]]. destruct (F (dv_uid d)) as [i [Hi ->]].
    - apply in_flat_map. exists (DDevices l). split; [exact Hl|]. exact (in_map dv_uid _ _ Hd).
    - exists i. split; [lia|reflexivity]. }
  cbn [dexec] in E. destruct (get_devices_cases gen pf mc (ds_next s)) as [G|[l [k' G]]]; rewrite G in E.
  { injection E as <- <-. auto. }
  rewrite (none_requested _ _ _ _ _ _ _ (ds_current s) Inj G Q) in E.
  destruct (Nat.eqb (length req) (length (ds_current s))) eqn:N.
  - apply Nat.eqb_eq in N. destruct pf; try (injection E as <- <-; split; [reflexivity|intros; congruence]).
    destruct (Nat.ltb 1 (length (ds_current s))); [injection E as <- <-; split; [reflexivity|intros; congruence]|].
    destruct (set_cuda _); cbn [obind] in E; try discriminate. injection E as <- <-. split; [reflexivity|intros; congruence].
  - injection E as <- <-. auto.
Qed.
Print Assumptions c103_reported_identifiers_refuted.

(** No identifier is ever reported twice, and none is the one made from the name
    of the device, so even the same processor is reported under new identifiers. *)
Theorem c103_never_again gen pf mc k k1 k2 l1 l2 k3 :
  (forall i j, gen i = gen j -> i = j) -> k1 <= k2 ->
  get_devices gen pf mc k = Ret (l1, k1) -> get_devices gen pf mc k2 = Ret (l2, k3) ->
  forall d d', In d l1 -> In d' l2 -> dv_uid d <> dv_uid d'.
Proof.
  intros Inj L G1 G2 d d' H1 H2 E. destruct (get_devices_facts _ _ _ _ _ _ G1) as [_ [A _]].
  destruct (get_devices_facts _ _ _ _ _ _ G2) as [_ [B _]]. destruct (A d H1) as [i [Hi Ei]]. destruct (B d' H2) as [j [Hj Ej]].
  rewrite Ei, Ej in E. apply Inj in E. lia.
Qed.
Print Assumptions c103_never_again.

(** What holds: the list has one device for every online socket (every GPU, or
    the one unknown CPU), in order, with its name; its number is right except on
    x86, where it is never set. *)
Theorem c103_listed_partial gen pf mc k l k' : get_devices gen pf mc k = Ret (l, k') ->
  map dv_name l = map (mc_name mc) (dev_numbers pf mc) /\
  map dv_num l = map (fun n => match pf with X86 => None | _ => Some n end) (dev_numbers pf mc) /\
  (forall n, In n (dev_numbers pf mc) <->
     match pf with
     | X86 => N.to_nat n < mc_count mc /\ mc_online mc n = true
     | UnknownCpu => n = 0%N
     | Cuda => N.to_nat n < mc_count mc
     end).
Proof.
  intros G. destruct (get_devices_facts _ _ _ _ _ _ G) as [_ [_ [A B]]]. split; [exact A|]. split; [exact B|].
  assert (S : forall n m, In n (map N.of_nat (seq 0 m)) <-> N.to_nat n < m).
  { intros n m. rewrite in_map_iff. split.
    - intros [x [<- H]]. apply in_seq in H. lia.
    - intros H. exists (N.to_nat n). split; [lia|]. apply in_seq. lia. }
  intros n. destruct pf; cbn [dev_numbers].
  - rewrite filter_In, S. reflexivity.
  - cbn. split; [intros [H|[]]; congruence|intros ->; auto].
  - apply S.
Qed.
Print Assumptions c103_listed_partial.

(** The list is refused if and only if the counter library or the driver cannot be
    used; an unknown CPU is always listed. *)
Theorem c103_available gen pf mc k :
  get_devices gen pf mc k = Throw <-> pf <> UnknownCpu /\ mc_ok mc = false.
Proof.
  unfold get_devices, list_devices. destruct pf, (mc_ok mc); cbn [obind]; split; intros H; try discriminate; try (destruct H; congruence); try (split; [discriminate|reflexivity]); reflexivity.
Qed.
Print Assumptions c103_available.
(** A request that hits a device listed by the backend itself (with identifiers that
    nobody was told, see above) adds the first such device behind the current ones. *)
Theorem c103_added_partial gen pf mc s req before d behind k' s' o : pf <> Cuda ->
  get_devices gen pf mc (ds_next s) = Ret (before ++ d :: behind, k') ->
  In (dv_uid d) req -> (forall x, In x before -> ~ In (dv_uid x) req) ->
  dexec gen pf mc s (DSelectIds req) = Ret (s', o) -> o = DDone /\ ds_current s' = ds_current s ++ [d].
Proof.
  intros Hp G Hd Hb E. cbn [dexec] in E. rewrite G in E. unfold add_requested in E.
  assert (F : find (fun d => mem (dv_uid d) req) (before ++ d :: behind) = Some d).
  { clear -Hd Hb. induction before as [|x l IH]; cbn [app find].
    - now rewrite (proj2 (mem_In _ _) Hd).
    - destruct (mem (dv_uid x) req) eqn:M; [|apply IH; intros y Hy; apply Hb; now right]. apply mem_In in M. destruct (Hb x (or_introl eq_refl) M). }
  rewrite F in E. destruct pf; [| |congruence]; injection E as <- <-; auto.
Qed.
Print Assumptions c103_added_partial.

(** Selecting a device object works on the CPU backends. *)
Theorem c103_object gen pf mc s i j d : pf <> Cuda -> take s i j = Some d ->
  exists s', dexec gen pf mc s (DSelectOne i j) = Ret (s', DDone) /\ ds_current s' = [d].
Proof. intros P T. cbn [dexec]. rewrite T. destruct pf; try congruence; eexists; split; reflexivity. Qed.
Print Assumptions c103_object.
(** On the CUDA backend the first GPU of the machine is used, whichever was
    selected. *)
Theorem c103_gpu_refuted gen mc s i j s' : dexec gen Cuda mc s (DSelectOne i j) = Ret (s', DDone) -> ds_cuda s' = Some 0%N.
Proof.
  intros H. cbn [dexec] in H. destruct (take s i j) as [d|]; [|discriminate].
  destruct (get_devices_cases gen Cuda mc (ds_next s)) as [G|[l [k' G]]]; rewrite G in H; [discriminate|].
  destruct (get_devices_facts _ _ _ _ _ _ G) as [_ [_ [_ B]]]. cbn [dev_numbers] in B.
  destruct l as [|x l]; cbn [nth_error set_cuda] in H; [discriminate|]. destruct (mc_count mc); [discriminate|].
  cbn [seq map] in B. injection B as Bx _. rewrite Bx in H. cbn [obind] in H. injection H as <-. reflexivity.
Qed.
Print Assumptions c103_gpu_refuted.

(** Two sockets, one of them offline; three GPUs. *)
Definition ex_machine : machine :=
  mkMachine true 3 (fun n => negb (N.eqb n 1)) (fun n => String.String (Ascii.ascii_of_N (48 + n)) String.EmptyString) (fun n => 1000 + n)%N.
Definition ex_gen (i : nat) : uid := N.of_nat i.
Lemma ex_gen_inj i j : ex_gen i = ex_gen j -> i = j.
Proof. unfold ex_gen. lia. Qed.
Definition dev_view (o : outcome (dstate * list dout)) : list (list (uid * option N)) * list uid * option N :=
  match o with
  | Ret (s, outs) => (flat_map (fun o => match o with DDevices l => [map (fun d => (dv_uid d, dv_num d)) l] | _ => [] end) outs,
                      map dv_uid (ds_current s), ds_cuda s)
  | _ => ([], [], None)
  end.
Example c103_case :
  dev_view (druns ex_gen X86 ex_machine (dstate_init 5) [DGet; DSelectIds [9%N]; DGet; DSelectOne 0 1]) =
    ([[(9, None); (10, None)]; [(21, None); (22, None)]]%N, [10%N], None) /\
  dev_view (druns ex_gen Cuda ex_machine (dstate_init 0) [DGet; DSelectIds [7%N]; DSelectOne 0 2]) =
    ([[(6, Some 0); (7, Some 1); (8, Some 2)]]%N, [8%N], Some 0%N).
Proof. split; vm_compute; reflexivity. Qed.

(** Whoever guesses the next identifier gets the device. *)
Example c103_added_case : exists s outs before d behind k' s' o,
  druns ex_gen X86 ex_machine (dstate_init 5) [DGet; DSelectOne 0 1] = Ret (s, outs) /\
  get_devices ex_gen X86 ex_machine (ds_next s) = Ret (before ++ d :: behind, k') /\ In (dv_uid d) [16%N] /\
  (forall x, In x before -> ~ In (dv_uid x) [16%N]) /\ dexec ex_gen X86 ex_machine s (DSelectIds [16%N]) = Ret (s', o) /\ map dv_uid (ds_current s') = [10; 16]%N.
Proof.
  do 2 eexists. exists [mkDev 15 None (mc_name ex_machine 0)], (mkDev 16 None (mc_name ex_machine 2)), []. do 3 eexists.
  split; [vm_compute; reflexivity|]. split; [vm_compute; reflexivity|]. split; [left; reflexivity|]. split; [intros x [<-|[]] [H|[]]; discriminate H|].
  split; vm_compute; reflexivity.
Qed.

(** ** C104 *)
(** False: two readings within a second give infinity if energy was used, NaN if
    not. *)
Theorem c104_power_refuted joules ns : (0 <= ns < 1000000000)%Z ->
  (forall m e, joules = S754_finite false m e -> get_power true joules ns = Ret (S754_infinity false)) /\
  (joules = S754_zero false -> get_power true joules ns = Ret S754_nan).
Proof.
  intros H. unfold get_power, whole_seconds. rewrite Z.quot_small by lia. change (d_of_Z 0) with (S754_zero false).
  split; [intros m e ->; reflexivity|intros ->; reflexivity].
Qed.
Print Assumptions c104_power_refuted.
(** Otherwise the energy is divided by the elapsed time cut to whole seconds,
    which is more than half of it: what is reported is the power or up to twice
    as much, before rounding. *)
Theorem c104_power_partial joules ns : (1000000000 <= ns)%Z ->
  exists s, (1 <= s)%Z /\ (s * 1000000000 <= ns < 2 * s * 1000000000)%Z /\
    get_power true joules ns = Ret (f_of_d (d_div joules (d_of_Z s))).
Proof.
  intros H. exists (whole_seconds ns). unfold whole_seconds. rewrite Z.quot_div_nonneg by lia.
  pose proof (Z.div_mod ns 1000000000 ltac:(lia)). pose proof (Z.mod_pos_bound ns 1000000000 ltac:(lia)).
  split; [lia|]. split; [lia|]. unfold get_power, whole_seconds. rewrite Z.quot_div_nonneg by lia. reflexivity.
Qed.
Print Assumptions c104_power_partial.
(** Without the counters there is no number but an exception. *)
Theorem c104_unavailable joules ns : get_power false joules ns = Throw.
Proof. reflexivity. Qed.
Print Assumptions c104_unavailable.
Example c104_case : get_power true (d_of_Z 90) 1999999999 = Ret (f_of_Z 90) /\ get_power true (d_of_Z 90) 3000000000 = Ret (f_of_Z 30) /\
  get_power true (d_of_Z 90) 999999999 = Ret (S754_infinity false) /\ get_power false (d_of_Z 90) 1 = Throw.
Proof. repeat split; vm_compute; reflexivity. Qed.
