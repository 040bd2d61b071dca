From Verif Require Import Base ListLemmas Core_Model Device_Model.
(** Every identifier of a listed device was taken from the generator by the call. *)
Lemma dev_moves_ids gen pf : forall l k l' k', dev_moves gen pf k l = (l', k') ->
  k' = k + length l /\ map dv_uid l' = map gen (seq k (length l)) /\ map dv_name l' = map dv_name l /\
  map dv_num l' = map (fun d => match pf with X86 => None | _ => dv_num d end) l.
Proof.
  induction l as [|d l IH]; intros k l' k' H; cbn [dev_moves] in H.
  - injection H as <- <-. cbn. repeat split; lia.
  - unfold dev_move at 1 in H. destruct (dev_moves gen pf (S k) l) as [l2 k2] eqn:E. injection H as <- <-.
    destruct (IH _ _ _ E) as [-> [A [B C]]]. cbn [length map seq dv_uid dv_name dv_num].
    rewrite A, B, C. repeat split; lia.
Qed.
Lemma dev_list_facts gen pf mc : forall ns k l k', dev_list gen pf mc k ns = (l, k') ->
  k' = k + 2 * length ns /\ length l = length ns /\ map dv_name l = map (mc_name mc) ns /\
  map dv_num l = map (fun n => match pf with X86 => None | _ => Some n end) ns.
Proof.
  induction ns as [|n ns IH]; intros k l k' H; cbn [dev_list] in H.
  - injection H as <- <-. cbn. repeat split; lia.
  - unfold dev_new, dev_move in H. destruct (dev_list gen pf mc (S (S k)) ns) as [l2 k2] eqn:E. injection H as <- <-.
    destruct (IH _ _ _ E) as [-> [A [B C]]]. cbn [length map dv_uid dv_name dv_num]. rewrite A, B, C.
    repeat split; try lia; destruct pf; reflexivity.
Qed.
Lemma get_devices_facts gen pf mc k l k' : get_devices gen pf mc k = Ret (l, k') ->
  k <= k' /\ (forall d, In d l -> exists i, k <= i < k' /\ dv_uid d = gen i) /\
  map dv_name l = map (mc_name mc) (dev_numbers pf mc) /\
  map dv_num l = map (fun n => match pf with X86 => None | _ => Some n end) (dev_numbers pf mc).
Proof.
  unfold get_devices, list_devices. intros H.
  assert (E : exists l0 k0, dev_list gen pf mc k (dev_numbers pf mc) = (l0, k0) /\ dev_moves gen pf k0 l0 = (l, k')).
  { destruct pf; cbn [obind] in H; (try (destruct (mc_ok mc); cbn [obind] in H; [|discriminate]));
      destruct (dev_list _ _ _ _ _) as [l0 k0]; injection H as H; exists l0, k0; auto. }
  destruct E as [l0 [k0 [E0 E1]]].
  destruct (dev_list_facts _ _ _ _ _ _ _ E0) as [-> [A1 [A2 A3]]].
  destruct (dev_moves_ids _ _ _ _ _ _ E1) as [-> [B1 [B2 B3]]].
  split; [lia|]. split; [|split].
  - intros d Hd. apply (in_map dv_uid) in Hd. rewrite B1 in Hd. apply in_map_iff in Hd. destruct Hd as [i [Hi Hs]].
    apply in_seq in Hs. exists i. split; [lia|congruence].
  - congruence.
  - rewrite B3, <- map_map with (g := fun n => match pf with X86 => None | _ => n end), A3, map_map.
    apply map_ext. intros n. destruct pf; reflexivity.
Qed.
Lemma get_devices_cases gen pf mc k :
  get_devices gen pf mc k = Throw \/ exists l k', get_devices gen pf mc k = Ret (l, k').
Proof.
  unfold get_devices, list_devices. destruct pf; cbn [obind];
    (try (destruct (mc_ok mc); cbn [obind]; [|left; reflexivity])); right; destruct (dev_moves _ _ _ _) as [l k']; eauto.
Qed.

(** Identifiers of the devices in a list of results. *)
Definition out_ids (o : dout) : list uid := match o with DDevices l => map dv_uid l | _ => [] end.

Lemma dexec_next gen pf mc s o s' r : dexec gen pf mc s o = Ret (s', r) ->
  ds_next s <= ds_next s' /\ (forall u, In u (out_ids r) -> exists i, ds_next s <= i < ds_next s' /\ u = gen i).
Proof.
  intros H. destruct o as [|req|i j]; cbn [dexec] in H.
  - destruct (get_devices_cases gen pf mc (ds_next s)) as [E|[l [k' E]]]; rewrite E in H.
    + injection H as <- <-. split; [lia|intros u []].
    + injection H as <- <-. cbn [ds_next out_ids]. destruct (get_devices_facts _ _ _ _ _ _ E) as [A [B _]].
      split; [exact A|]. intros u Hu. apply in_map_iff in Hu. destruct Hu as [d [<- Hd]]. exact (B d Hd).
  - destruct (get_devices_cases gen pf mc (ds_next s)) as [E|[l [k' E]]]; rewrite E in H.
    + injection H as <- <-. split; [lia|intros u []].
    + destruct (get_devices_facts _ _ _ _ _ _ E) as [A _].
      destruct (add_requested l req (ds_current s)) as [cur| |];
        [|injection H as <- <-; cbn [ds_next out_ids]; split; [lia|intros u []]..].
      destruct pf; try (injection H as <- <-; cbn [ds_next out_ids]; split; [lia|intros u []]).
      destruct (Nat.ltb 1 (length cur)); [injection H as <- <-; cbn [ds_next out_ids]; split; [lia|intros u []]|].
      destruct (set_cuda _) as [c| |]; cbn [obind] in H; try discriminate.
      injection H as <- <-. cbn [ds_next out_ids]. split; [lia|intros u []].
  - destruct (take s i j) as [d|]; [|discriminate].
    destruct pf; try (injection H as <- <-; cbn [ds_next out_ids]; split; [lia|intros u []]).
    destruct (get_devices_cases gen Cuda mc (ds_next s)) as [E|[l [k' E]]]; rewrite E in H.
    + injection H as <- <-. split; [cbn; lia|intros u []].
    + destruct (get_devices_facts _ _ _ _ _ _ E) as [A _].
      destruct (set_cuda _) as [c| |]; cbn [obind] in H; try discriminate.
      injection H as <- <-. cbn [ds_next out_ids]. split; [lia|intros u []].
Qed.
Lemma druns_ids gen pf mc : forall ops s s' outs, druns gen pf mc s ops = Ret (s', outs) ->
  ds_next s <= ds_next s' /\ (forall u, In u (flat_map out_ids outs) -> exists i, ds_next s <= i < ds_next s' /\ u = gen i).
Proof.
  induction ops as [|o ops IH]; intros s s' outs H; cbn [druns] in H.
  - injection H as <- <-. split; [lia|intros u []].
  - destruct (dexec gen pf mc s o) as [[s1 r]| |] eqn:E; cbn [obind fst snd] in H; try discriminate.
    destruct (druns gen pf mc s1 ops) as [[s2 q]| |] eqn:E2; cbn [obind fst snd] in H; try discriminate.
    injection H as <- <-. destruct (dexec_next _ _ _ _ _ _ _ E) as [A B]. destruct (IH _ _ _ E2) as [C D].
    split; [lia|]. cbn [flat_map]. intros u Hu. apply in_app_or in Hu. destruct Hu as [Hu|Hu].
    + destruct (B u Hu) as [i [Hi ->]]. exists i. split; [lia|reflexivity].
    + destruct (D u Hu) as [i [Hi ->]]. exists i. split; [lia|reflexivity].
Qed.
Lemma none_requested gen pf mc k l k' req cur : (forall i j, gen i = gen j -> i = j) ->
  get_devices gen pf mc k = Ret (l, k') -> (forall u, In u req -> exists i, i < k /\ u = gen i) ->
  add_requested l req cur = if Nat.eqb (length req) (length cur) then Ret cur else Throw.
Proof.
  intros Inj G R. unfold add_requested. destruct (find _ l) as [d|] eqn:E; [|reflexivity].
  apply find_some in E. destruct E as [Hd Hm]. apply mem_In in Hm.
  destruct (get_devices_facts _ _ _ _ _ _ G) as [_ [B _]]. destruct (B d Hd) as [i [Hi Ei]].
  destruct (R _ Hm) as [j [Hj Ej]]. rewrite Ei in Ej. apply Inj in Ej. lia.
Qed.
