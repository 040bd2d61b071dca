(** Property theorems C115: running validators on a network. *)
From Coq Require Import String DecimalString Sorting.Sorted.
From Coq Require DecimalN DecimalPos.
From Verif Require Import Base ListLemmas Core_Model Valid_Model Valid_Spec.

Section Proofs.
Context {W P Q : Type}.
Context (ptags : P -> tags) (qtags : Q -> tags).
Notation vx := (@vexec W P Q).
Notation net := (@network P Q).
Notation planned := (@planned W).

Lemma get_name_ok t : get_name t = Ret tt /\ name_readable t \/ get_name t = Throw /\ ~ name_readable t.
Proof.
  unfold get_name, tag_exists, get_tag_const, name_readable. destruct (tag_find name_tag t) as [v|]; [|left; split; [reflexivity|discriminate]].
  unfold any_cast. destruct v as [[ty x]|]; [destruct (Nat.eqb ty string_type) eqn:E|].
  - left. split; [reflexivity|]. intros v H. injection H as <-. apply Nat.eqb_eq in E as ->. eauto.
  - right. split; [reflexivity|]. intros H. destruct (H _ eq_refl) as (y & Hy). injection Hy as -> _. apply Nat.eqb_neq in E. now apply E.
  - right. split; [reflexivity|]. intros H. destruct (H _ eq_refl) as (y & Hy). discriminate.
Qed.
Lemma log_ok r : log_report r = Ret tt /\ known r \/ log_report r = Throw /\ ~ known r.
Proof.
  induction r as [|i r IH]; cbn [log_report]; [left; split; [reflexivity|constructor]|].
  unfold known in *. rewrite Forall_cons_iff. destruct (is_severity i) eqn:E; cbn [known_severity]; try (destruct IH as [[-> IH]|[-> IH]]; [left|right]; intuition; fail).
  right. tauto.
Qed.

(** One call: outcome by cases. *)
Definition reads {A} (named : A -> outcome unit) (rd : A -> Prop) := forall a, named a = Ret tt /\ rd a \/ named a = Throw /\ ~ rd a.
Lemma call_one_ok {A} named rd (v : uid * (string * @validator W A)) a w w1 r : reads named rd ->
  call_one named v a w = Ret (w1, r) <-> exists rp, pl_readable (plan rd v a) /\ pl_code (plan rd v a) w = Ret (w1, rp) /\ known rp /\ r = mkVR (pl_uid (plan rd v a)) (pl_name (plan rd v a)) rp.
Proof.
  intros Hn. unfold call_one, plan. cbn [pl_readable pl_code pl_uid pl_name]. destruct (Hn a) as [[-> H]|[-> H]]; cbn [obind].
  - destruct (snd (snd v) w a) as [[w2 rp]| |]; cbn [obind fst snd]; [|split; [discriminate|intros (? & _ & X & _); discriminate]..].
    destruct (log_ok rp) as [[-> K]|[-> K]]; cbn [obind]; split.
    + intros X. injection X as <- <-. eauto 6.
    + intros (rp' & _ & X & _ & ->). injection X as -> ->. reflexivity.
    + discriminate.
    + intros (rp' & _ & X & K' & _). injection X as -> ->. tauto.
  - split; [discriminate|]. intros (? & X & _). tauto.
Qed.
Lemma call_one_throw {A} named rd (v : uid * (string * @validator W A)) a w : reads named rd ->
  call_one named v a w = Throw <-> fails (plan rd v a) w.
Proof.
  intros Hn. unfold call_one, plan, fails. cbn [pl_readable pl_code pl_uid pl_name]. destruct (Hn a) as [[-> H]|[-> H]]; cbn [obind]; [|tauto].
  destruct (snd (snd v) w a) as [[w2 rp]| |]; cbn [obind fst snd].
  - destruct (log_ok rp) as [[-> K]|[-> K]]; cbn [obind]; split.
    + discriminate.
    + intros [X|[X|(w1 & r & X & Y)]]; [tauto|discriminate|]. injection X as -> ->. tauto.
    + intros _. right. right. eauto.
    + reflexivity.
  - tauto.
  - split; [discriminate|]. intros [X|[X|(w1 & r & X & Y)]]; [tauto|discriminate..].
Qed.

(** A plan of calls carried out by a loop. *)
Fixpoint do_plan (l : list (W -> outcome (W * vresult))) (w : W) (acc : list vresult) : outcome (W * list vresult) :=
  match l with
  | [] => Ret (w, acc)
  | c :: r => obind (c w) (fun x => do_plan r (fst x) (acc ++ [snd x]))
  end.
Lemma do_plan_app l1 l2 w acc : do_plan (l1 ++ l2) w acc = obind (do_plan l1 w acc) (fun x => do_plan l2 (fst x) (snd x)).
Proof. revert w acc. induction l1 as [|c l1 IH]; intros w acc; cbn [app do_plan obind fst snd]; [reflexivity|]. destruct (c w) as [[w1 r]| |]; cbn [obind]; auto. Qed.
Lemma elements_plan {A} named (v : uid * (string * @validator W A)) l w acc : over_elements named v l w acc = do_plan (map (call_one named v) l) w acc.
Proof. revert w acc. induction l as [|a l IH]; intros w acc; cbn [over_elements map do_plan]; [reflexivity|]. destruct (call_one named v a w) as [[w1 r]| |]; cbn [obind]; auto. Qed.
Lemma validators_plan {A} named (m : @vmap W A) l w acc : over_validators named m l w acc = do_plan (flat_map (fun v => map (call_one named v) l) m) w acc.
Proof.
  revert w acc. induction m as [|v m IH]; intros w acc; cbn [over_validators flat_map]; [reflexivity|]. rewrite do_plan_app, elements_plan.
  destruct (do_plan _ w acc) as [[w1 r]| |]; cbn [obind]; auto.
Qed.
Definition actual (e : vx) (n : net) : list (W -> outcome (W * vresult)) :=
  flat_map (fun v => map (call_one (fun p => get_name (ptags p)) v) (fst n)) (vx_pops e) ++
  flat_map (fun v => map (call_one (fun q => get_name (qtags q)) v) (snd n)) (vx_projs e) ++
  map (fun v => call_one (fun _ => Ret tt) v n) (vx_nets e).
Lemma run_plan e n w : run_validators ptags qtags e n w = do_plan (actual e n) w [].
Proof.
  unfold run_validators, actual. rewrite do_plan_app, validators_plan. destruct (do_plan _ w []) as [[w1 r]| |]; cbn [obind fst snd]; [|reflexivity..].
  rewrite do_plan_app, validators_plan. destruct (do_plan _ w1 r) as [[w2 r2]| |]; cbn [obind fst snd]; [|reflexivity..].
  rewrite validators_plan. reflexivity.
Qed.
Definition matches (c : W -> outcome (W * vresult)) (p : planned) : Prop := forall w,
  (forall w1 r, c w = Ret (w1, r) <-> exists rp, pl_readable p /\ pl_code p w = Ret (w1, rp) /\ known rp /\ r = mkVR (pl_uid p) (pl_name p) rp) /\
  (c w = Throw <-> fails p w).
Lemma actual_matches e n : Forall2 matches (actual e n) (schedule ptags qtags e n).
Proof.
  assert (G : forall A (named : A -> outcome unit) rd (v : uid * (string * @validator W A)) l, reads named rd -> Forall2 matches (map (call_one named v) l) (map (plan rd v) l)).
  { intros A named rd v l H. induction l as [|a l IH]; cbn [map]; constructor; [|exact IH]. intros w. split; [intros w1 r; now apply call_one_ok|now apply call_one_throw]. }
  unfold actual, schedule. apply Forall2_app; [|apply Forall2_app].
  - induction (vx_pops e) as [|v m IH]; cbn [flat_map]; [constructor|]. apply Forall2_app; [|exact IH]. apply G. intros a. apply get_name_ok.
  - induction (vx_projs e) as [|v m IH]; cbn [flat_map]; [constructor|]. apply Forall2_app; [|exact IH]. apply G. intros a. apply get_name_ok.
  - induction (vx_nets e) as [|v m IH]; cbn [map]; constructor; [|exact IH]. intros w.
    split; [intros w1 r; apply call_one_ok|apply call_one_throw]; intros a; left; auto.
Qed.
Lemma do_performed l ps : Forall2 matches l ps -> forall w acc w' rs, do_plan l w acc = Ret (w', rs) <-> exists r, rs = acc ++ r /\ performed ps w w' r.
Proof.
  induction 1 as [|c p l ps Hm _ IH]; intros w acc w' rs; cbn [do_plan].
  - split.
    + intros X. injection X as <- <-. exists []. split; [now rewrite app_nil_r|constructor].
    + intros (r & -> & X). inversion X; subst. now rewrite app_nil_r.
  - destruct (Hm w) as [Hr _]. split.
    + destruct (c w) as [[w1 r]| |] eqn:E; cbn [obind fst snd]; try discriminate. intros X. apply IH in X as (r' & -> & X).
      destruct (proj1 (Hr w1 r) eq_refl) as (rp & R & C & K & ->). exists (mkVR (pl_uid p) (pl_name p) rp :: r'). split; [now rewrite <- app_assoc|]. econstructor; eauto.
    + intros (r & -> & X). inversion X as [|p' ps' w0 w1 w0' rp rs0 R C K Pf]; subst.
      assert (E : c w = Ret (w1, mkVR (pl_uid p) (pl_name p) rp)) by (apply Hr; eauto 6). rewrite E. cbn [obind fst snd]. apply IH. exists rs0. split; [now rewrite <- app_assoc|exact Pf].
Qed.
Lemma do_throw l ps : Forall2 matches l ps -> forall w acc, do_plan l w acc = Throw <->
  exists before p after w1 rs, ps = before ++ p :: after /\ performed before w w1 rs /\ fails p w1.
Proof.
  induction 1 as [|c p l ps Hm _ IH]; intros w acc; cbn [do_plan].
  - split; [discriminate|]. intros (b & p & a & w1 & rs & X & _). now destruct b.
  - destruct (Hm w) as [Hr Ht]. split.
    + destruct (c w) as [[w1 r]| |] eqn:E; cbn [obind fst snd]; try discriminate.
      * intros X. apply IH in X as (b & q & a & w2 & rs & -> & Pf & F). destruct (proj1 (Hr w1 r) eq_refl) as (rp & R & C & K & ->).
        exists (p :: b), q, a, w2, (mkVR (pl_uid p) (pl_name p) rp :: rs). split; [reflexivity|]. split; [econstructor; eauto|exact F].
      * intros _. exists [], p, ps, w, []. split; [reflexivity|]. split; [constructor|now apply Ht].
    + intros (b & q & a & w1 & rs & X & Pf & F). destruct b as [|p0 b]; cbn [app] in X.
      * injection X as -> ->. inversion Pf; subst. apply Ht in F. now rewrite F.
      * injection X as <- ->. inversion Pf as [|p' ps' w0 w2 w0' rp rs0 R C K Pf']; subst.
        assert (E : c w = Ret (w2, mkVR (pl_uid p) (pl_name p) rp)) by (apply Hr; eauto 6). rewrite E. cbn [obind fst snd]. apply IH. eauto 10.
Qed.

(** *** C115: the run *)
(** A run returns exactly when the whole schedule can be performed, and then the result
    is the list of the reports, in the order of the schedule, each with the identifier
    and name of its validator. *)
Theorem c115_run (e : vx) (n : net) (w w' : W) rs :
  run_validators ptags qtags e n w = Ret (w', rs) <-> performed (schedule ptags qtags e n) w w' rs.
Proof.
  rewrite run_plan, (do_performed _ _ (actual_matches e n)). split; [intros (r & -> & X); exact X|]. intros X. exists rs. auto.
Qed.
(** It throws exactly when some call of the schedule, after all the earlier ones were
    performed, fails; the reports made before are lost. *)
Theorem c115_throws (e : vx) (n : net) (w : W) :
  run_validators ptags qtags e n w = Throw <->
  exists before (p : planned) after w1 rs, schedule ptags qtags e n = before ++ p :: after /\ performed before w w1 rs /\ fails p w1.
Proof. rewrite run_plan. apply (do_throw _ _ (actual_matches e n)). Qed.

(** The number of results, and the results of one validator. *)
Lemma performed_uids (ps : list planned) w w' rs : performed ps w w' rs -> map (fun r => (vr_uid r, vr_name r)) rs = map (fun p => (pl_uid p, pl_name p)) ps.
Proof. induction 1 as [|c l w w1 w' r rs R C K Pf IH]; cbn [map]; [reflexivity|]. cbn [vr_uid vr_name]. now rewrite IH. Qed.
Theorem c115_count (e : vx) (n : net) (w w' : W) rs : run_validators ptags qtags e n w = Ret (w', rs) ->
  length rs = length (vx_pops e) * length (fst n) + length (vx_projs e) * length (snd n) + length (vx_nets e).
Proof.
  rewrite c115_run. intros X. apply performed_uids in X. apply (f_equal (@length _)) in X. rewrite !map_length in X. rewrite X. unfold schedule.
  rewrite !app_length, map_length.
  assert (G : forall A rd (m : @vmap W A) l, length (flat_map (fun v => map (plan (W := W) rd v) l) m) = length m * length l).
  { intros A rd m l. induction m as [|v m IH]; cbn [flat_map length]; [reflexivity|]. rewrite app_length, map_length, IH. lia. }
  rewrite !G. lia.
Qed.
Lemma flat_count {A} rd (m : @vmap W A) l u : NoDup (map fst m) -> forall f, In (u, f) m ->
  filter (fun p => N.eqb (pl_uid p) u) (flat_map (fun v => map (plan (W := W) rd v) l) m) = map (plan rd (u, f)) l.
Proof.
  assert (G1 : forall u (v : uid * (string * @validator W A)), fst v <> u -> filter (fun p => N.eqb (pl_uid p) u) (map (plan (W := W) rd v) l) = []).
  { intros u' v H. induction l as [|a l' IH]; cbn [map filter]; [reflexivity|]. cbn [plan pl_uid]. rewrite (proj2 (N.eqb_neq _ _) H). exact IH. }
  assert (G2 : forall v : uid * (string * @validator W A), filter (fun p => N.eqb (pl_uid p) (fst v)) (map (plan (W := W) rd v) l) = map (plan rd v) l).
  { intros v. induction l as [|a l' IH]; cbn [map filter]; [reflexivity|]. cbn [plan pl_uid]. rewrite N.eqb_refl. cbn. f_equal. apply IH. intros u' v' H'. specialize (G1 u' v' H'). cbn [map filter plan pl_uid] in G1. now rewrite (proj2 (N.eqb_neq _ _) H') in G1. }
  intros Hn f Hf. induction m as [|v m IH]; [destruct Hf|]. cbn [map] in Hn. apply NoDup_cons_iff in Hn as [H1 H2]. cbn [flat_map]. rewrite filter_app. destruct Hf as [->|Hf].
  - pose proof (G2 (u, f)) as G3. cbn [fst] in G3. rewrite G3. clear IH G3. transitivity (map (plan (W := W) rd (u, f)) l ++ []); [f_equal|apply app_nil_r].
    induction m as [|v m IH]; cbn [flat_map]; [reflexivity|]. cbn [map In fst] in H1. rewrite filter_app, G1, IH; auto. cbn [map] in H2. now apply NoDup_cons_iff in H2.
  - rewrite G1, IH; auto. intros E. apply H1. rewrite E. apply in_map_iff. exists (u, f). auto.
Qed.

(** ** Registration *)
Definition kind_of (c : @add_call W P Q) : nat := match c with AddPop _ _ => 0 | AddProj _ _ => 1 | AddNet _ _ => 2 end.
(** The name a validator gets: the one given, or its kind and the number of validators of that
    kind added before. *)
Definition call_name (before : list (uid * @add_call W P Q)) (c : @add_call W P Q) : string :=
  let k := length (filter (fun d => Nat.eqb (kind_of (snd d)) (kind_of c)) before) in
  match c with
  | AddPop (Some s) _ | AddProj (Some s) _ | AddNet (Some s) _ => s
  | AddPop None _ => String.append "Population validator #" (decimal k)
  | AddProj None _ => String.append "Projection validator #" (decimal k)
  | AddNet None _ => String.append "Network validator #" (decimal k)
  end.
Lemma vput_in {A} u (v : string * @validator W A) m : ~ In u (map fst m) -> Permutation (vput u v m) ((u, v) :: m).
Proof.
  induction m as [|[k x] m IH]; cbn [vput map In]; intros H; [reflexivity|].
  destruct (N.eqb k u) eqn:E; [apply N.eqb_eq in E; cbn [fst] in H; tauto|]. destruct (N.ltb u k); [reflexivity|].
  rewrite IH by tauto. apply perm_swap.
Qed.
Definition in_order {A} (m : @vmap W A) := StronglySorted N.lt (map fst m).
Lemma vput_sorted {A} u (v : string * @validator W A) m : ~ In u (map fst m) -> in_order m -> in_order (vput u v m).
Proof.
  unfold in_order. induction m as [|[k x] m IH]; cbn [vput map In fst]; intros H Hs; [repeat constructor|]. apply StronglySorted_inv in Hs as [H1 H2].
  destruct (N.eqb k u) eqn:E; [apply N.eqb_eq in E; tauto|]. apply N.eqb_neq in E. destruct (N.ltb u k) eqn:L; cbn [map fst].
  - apply N.ltb_lt in L. constructor; [now constructor|]. constructor; [exact L|]. eapply Forall_impl; [|exact H2]. intros z Hz. cbn in Hz. lia.
  - apply N.ltb_ge in L. constructor; [apply IH; tauto|]. apply Forall_forall. intros z Hz. assert (Hz2 : In z (map fst ((u, v) :: m))) by (eapply Permutation_in; [apply Permutation_map, vput_in; tauto|exact Hz]).
    cbn [map fst In] in Hz2. destruct Hz2 as [<-|Hz2]; [lia|]. rewrite Forall_forall in H2. now apply H2.
Qed.
Definition registered {A} (m : @vmap W A) (k : nat) (get : @add_call W P Q -> option (@validator W A)) (l : list (uid * @add_call W P Q)) : Prop :=
  in_order m /\ forall u nm f, In (u, (nm, f)) m <-> exists b a c, l = b ++ (u, c) :: a /\ get c = Some f /\ nm = call_name b c.
Definition gets {A} (k : nat) (get : @add_call W P Q -> option (@validator W A)) : Prop := forall c, (exists f, get c = Some f) <-> kind_of c = k.
Definition sizes {A} (m : @vmap W A) (k : nat) (l : list (uid * @add_call W P Q)) : Prop := length m = length (filter (fun d => Nat.eqb (kind_of (snd d)) k) l) /\ forall u, In u (map fst m) -> In u (map fst l).
Lemma registered_add {A} m k get l u c f nm (Hg : gets (A := A) k get) : ~ In u (map fst l) -> registered m k get l -> sizes m k l ->
  get c = Some f -> nm = call_name l c -> registered (vput u (nm, f) m) k get (l ++ [(u, c)]) /\ sizes (vput u (nm, f) m) k (l ++ [(u, c)]).
Proof.
  intros Hu [Ho Hr] [Hz Hi] Hf ->. assert (Hm : ~ In u (map fst m)) by auto. pose proof (vput_in u (call_name l c, f) m Hm) as Hp. split; [split|split].
  - now apply vput_sorted.
  - intros u' nm f'. split.
    + intros H. apply (Permutation_in _ Hp) in H. destruct H as [H|H].
      * injection H as <- <- <-. exists l, [], c. auto.
      * apply Hr in H as (b & a & c' & -> & H1 & H2). exists b, (a ++ [(u, c)]), c'. split; [now rewrite <- app_assoc|auto].
    + intros (b & a & c' & E & H1 & H2). apply (Permutation_in _ (Permutation_sym Hp)).
      destruct (exists_last (l := (u', c') :: a) ltac:(discriminate)) as (a' & z & Ea). rewrite Ea in E. rewrite app_assoc in E. apply app_inj_tail in E as [El Ez].
      destruct a' as [|y a'].
      * cbn [app] in Ea. injection Ea as E1 E2. rewrite <- E1 in Ez. injection Ez as <- <-. left. rewrite app_nil_r in El. subst b. rewrite H1 in Hf. injection Hf as ->. now rewrite H2.
      * cbn [app] in Ea. injection Ea as <- Ea. right. apply Hr. exists b, a', c'. auto.
  - rewrite (Permutation_length Hp). cbn [length]. rewrite filter_app, app_length. cbn [filter snd]. assert (Hk : kind_of c = k) by (apply Hg; eauto). rewrite Hk, Nat.eqb_refl. cbn [length]. lia.
  - intros u' H. apply (Permutation_in _ (Permutation_map fst Hp)) in H. cbn [map fst In] in H. rewrite map_app. apply in_or_app. cbn. destruct H as [<-|H]; [auto|left; auto].
Qed.
Lemma registered_other {A} (m : @vmap W A) k get l u c (Hg : gets k get) : registered m k get l -> sizes m k l -> kind_of c <> k -> registered m k get (l ++ [(u, c)]) /\ sizes m k (l ++ [(u, c)]).
Proof.
  intros [Ho Hr] [Hz Hi] Hk. assert (Hc : get c = None) by (destruct (get c) as [f|] eqn:E; [|reflexivity]; exfalso; apply Hk, Hg; eauto). split; [split|split].
  - exact Ho.
  - intros u' nm f'. rewrite Hr. split.
    + intros (b & a & c' & -> & H). exists b, (a ++ [(u, c)]), c'. split; [now rewrite <- app_assoc|auto].
    + intros (b & a & c' & E & H1 & H2). destruct (exists_last (l := (u', c') :: a) ltac:(discriminate)) as (a' & z & Ea). rewrite Ea in E. rewrite app_assoc in E. apply app_inj_tail in E as [El Ez].
      destruct a' as [|y a'].
      * cbn [app] in Ea. injection Ea as E1 E2. rewrite <- E1 in Ez. injection Ez as <- <-. congruence.
      * cbn [app] in Ea. injection Ea as <- Ea. exists b, a', c'. auto.
  - rewrite filter_app, app_length. cbn [filter snd]. rewrite (proj2 (Nat.eqb_neq _ _) Hk). cbn [length]. lia.
  - intros u' H. rewrite map_app. apply in_or_app. left. auto.
Qed.
Definition get_pop (c : @add_call W P Q) := match c with AddPop _ f => Some f | _ => None end.
Definition get_proj (c : @add_call W P Q) := match c with AddProj _ f => Some f | _ => None end.
Definition get_net (c : @add_call W P Q) := match c with AddNet _ f => Some f | _ => None end.
Lemma gets_pop : gets 0 get_pop. Proof. intros []; cbn; split; try (intros [? H]); try discriminate; eauto. Qed.
Lemma gets_proj : gets 1 get_proj. Proof. intros []; cbn; split; try (intros [? H]); try discriminate; eauto. Qed.
Lemma gets_net : gets 2 get_net. Proof. intros []; cbn; split; try (intros [? H]); try discriminate; eauto. Qed.

(** *** C115: registration *)
(** After any calls of [add_validator] that got different identifiers: the executor holds, in
    the order of identifiers, exactly the validators that were added, under the given or the
    default name. *)
Theorem c115_registered (l : list (uid * @add_call W P Q)) : NoDup (map fst l) ->
  registered (vx_pops (add_all l no_validators)) 0 get_pop l /\
  registered (vx_projs (add_all l no_validators)) 1 get_proj l /\
  registered (vx_nets (add_all l no_validators)) 2 get_net l.
Proof.
  intros Hn. enough (G : forall r l e, NoDup (map fst (l ++ r)) ->
    registered (vx_pops e) 0 get_pop l /\ sizes (vx_pops e) 0 l -> registered (vx_projs e) 1 get_proj l /\ sizes (vx_projs e) 1 l -> registered (vx_nets e) 2 get_net l /\ sizes (vx_nets e) 2 l ->
    registered (vx_pops (add_all r e)) 0 get_pop (l ++ r) /\ registered (vx_projs (add_all r e)) 1 get_proj (l ++ r) /\ registered (vx_nets (add_all r e)) 2 get_net (l ++ r)).
  { assert (Z : forall A k (get : @add_call W P Q -> option (@validator W A)), registered [] k get [] /\ sizes ([] : @vmap W A) k []).
    { intros A k get. split; split; [constructor| |reflexivity|auto]. intros u nm f. split; [intros []|]. intros (b & a & c & E & _). now destruct b. }
    apply (G l [] no_validators Hn); apply Z. }
  clear l Hn. intros r. induction r as [|[u c] r IH]; intros l e Hn H0 H1 H2; [rewrite app_nil_r; tauto|].
  assert (Hu : ~ In u (map fst l)). { rewrite map_app in Hn. cbn [map fst] in Hn. apply NoDup_remove_2 in Hn. intros H. apply Hn, in_or_app. auto. }
  change ((u, c) :: r) with ([(u, c)] ++ r) in *. rewrite app_assoc in *. cbn [app add_all fold_left fst snd]. change (fold_left _ r ?x) with (add_all r x).
  apply IH; [exact Hn| | |]; (destruct c as [nm f|nm f|nm f]; cbn [add_validator vx_pops vx_projs vx_nets];
   [..]); try (apply registered_other; [first [exact gets_pop|exact gets_proj|exact gets_net]|tauto|tauto|cbn; discriminate]);
  (eapply registered_add; [first [exact gets_pop|exact gets_proj|exact gets_net]|exact Hu|tauto|tauto|reflexivity|]);
  unfold call_name, the_name; cbn [kind_of]; destruct nm; [reflexivity| |reflexivity| |reflexivity|]; do 2 f_equal; tauto || (destruct H0 as [_ [Hz _]], H1 as [_ [Hz1 _]], H2 as [_ [Hz2 _]]; assumption).
Qed.
(** The results of one validator: one for each population (projection), in their order; for
    a network validator, one.  All carry its name. *)
Definition results_of (u : uid) (rs : list vresult) := filter (fun r => N.eqb (vr_uid r) u) rs.
Lemma performed_filter (ps : list planned) w w' rs u : performed ps w w' rs ->
  length (results_of u rs) = length (filter (fun p => N.eqb (pl_uid p) u) ps) /\
  (forall nm, (forall p, In p ps -> pl_uid p = u -> pl_name p = nm) -> Forall (fun r => vr_name r = nm) (results_of u rs)).
Proof.
  unfold results_of. induction 1 as [|c l w w1 w' r rs R C K Pf [IH1 IH2]]; cbn [filter vr_uid]; [split; [reflexivity|intros; constructor]|].
  destruct (N.eqb (pl_uid c) u) eqn:E; cbn [length]; (split; [lia|]); intros nm Hn.
  - constructor; [cbn [vr_name]; apply Hn; [now left|now apply N.eqb_eq]|]. apply IH2. intros p Hp. apply Hn. now right.
  - apply IH2. intros p Hp. apply Hn. now right.
Qed.
Lemma flat_none {A} rd (m : @vmap W A) l u : ~ In u (map fst m) -> filter (fun p => N.eqb (pl_uid p) u) (flat_map (fun v => map (plan (W := W) rd v) l) m) = [].
Proof.
  induction m as [|v m IH]; cbn [map In flat_map]; intros H; [reflexivity|]. rewrite filter_app, IH by tauto. rewrite app_nil_r.
  induction l as [|a l IHl]; cbn [map filter]; [reflexivity|]. cbn [plan pl_uid]. destruct (N.eqb (fst v) u) eqn:E; [apply N.eqb_eq in E; tauto|]. apply IHl.
  intros Hm. specialize (IH Hm). clear -IH. induction m as [|v' m' IHm]; [reflexivity|]. cbn [flat_map map app filter plan pl_uid] in *.
  rewrite filter_app in *. cbn [filter plan pl_uid] in IH. destruct (N.eqb (fst v') u); [discriminate IH|]. apply app_eq_nil in IH as [X Y]. rewrite X. apply IHm, Y.
Qed.
Lemma nets_flat (m : @vmap W net) n : map (fun v => plan (W := W) (fun _ : net => True) v n) m = flat_map (fun v => map (plan (W := W) (fun _ : net => True) v) [n]) m.
Proof. reflexivity. Qed.
Lemma sorted_distinct {A} (m : @vmap W A) : in_order m -> NoDup (map fst m).
Proof.
  unfold in_order. generalize (map fst m). intros l. induction 1 as [|a l Hs IH Hf]; constructor; [|exact IH]. intros H. rewrite Forall_forall in Hf. apply Hf in H. lia.
Qed.
Lemma named_once {A} rd (m : @vmap W A) l u nm f : in_order m -> In (u, (nm, f)) m -> forall p, In p (flat_map (fun v => map (plan (W := W) rd v) l) m) -> pl_uid p = u -> pl_name p = nm.
Proof.
  intros Ho Hi p Hp Hu. apply in_flat_map in Hp as ([u' [nm' f']] & Hv & Hp). apply in_map_iff in Hp as (a & <- & _). cbn [plan pl_uid pl_name fst snd] in *. subst u'.
  apply sorted_distinct in Ho. clear -Ho Hi Hv. induction m as [|[k x] m IH]; [destruct Hi|]. cbn [map fst] in Ho. apply NoDup_cons_iff in Ho as [H1 H2].
  destruct Hi as [Hi|Hi], Hv as [Hv|Hv].
  - rewrite Hi in Hv. now injection Hv.
  - injection Hi as -> ->. exfalso. apply H1. apply in_map_iff. now exists (u, (nm', f')).
  - injection Hv as -> ->. exfalso. apply H1. apply in_map_iff. now exists (u, (nm, f)).
  - auto.
Qed.
Lemma only_kind {A B} (m : @vmap W A) (m' : @vmap W B) k k' g g' (l : list (uid * @add_call W P Q)) u v : NoDup (map fst l) -> gets k g -> gets k' g' -> k <> k' ->
  registered m k g l -> registered m' k' g' l -> In (u, v) m -> ~ In u (map fst m').
Proof.
  intros Hn Hg Hg' Hk [_ Hr] [_ Hr'] Hi Hi'. destruct v as [nm f]. apply in_map_iff in Hi' as ([u' [nm' f']] & E & Hi'). cbn [fst] in E. subst u'.
  apply Hr in Hi as (b & a & c & -> & Hc & _). apply Hr' in Hi' as (b' & a' & c' & E & Hc' & _).
  assert (c = c').
  { assert (H1 : In (u, c) (b' ++ (u, c') :: a')) by (rewrite <- E; apply in_or_app; cbn; auto). rewrite E in Hn. clear -H1 Hn. rewrite map_app in Hn. cbn [map fst] in Hn. apply NoDup_remove_2 in Hn.
    apply in_app_or in H1 as [H1|[H1|H1]]; [|now injection H1|]; exfalso; apply Hn; apply in_or_app; [left|right]; apply in_map_iff; now exists (u, c). }
  subst c'. apply Hk. transitivity (kind_of c); [symmetry|]; [apply Hg|apply Hg']; eauto.
Qed.
(** Which validator an added call is, by its own name, and how many elements it is run on. *)
Definition elements (n : net) (c : @add_call W P Q) : nat := match c with AddPop _ _ => length (fst n) | AddProj _ _ => length (snd n) | AddNet _ _ => 1 end.
Theorem c115_each (before after : list (uid * @add_call W P Q)) u c (n : net) (w w' : W) rs : NoDup (map fst (before ++ (u, c) :: after)) ->
  run_validators ptags qtags (add_all (before ++ (u, c) :: after) no_validators) n w = Ret (w', rs) ->
  length (results_of u rs) = elements n c /\ Forall (fun r => vr_name r = call_name before c) (results_of u rs).
Proof.
  set (l := before ++ (u, c) :: after). intros Hn Hr. apply c115_run in Hr. destruct (c115_registered l Hn) as (R0 & R1 & R2).
  destruct (performed_filter _ _ _ _ u Hr) as [HL HN]. rewrite HL. clear HL. specialize (HN (call_name before c)).
  unfold schedule in *. rewrite nets_flat in *. rewrite !filter_app, !app_length.
  assert (HN' : forall A B C (x : A) (y : B) (z : C), True) by auto. clear HN'.
  destruct c as [nm f|nm f|nm f]; cbn [elements].
  - assert (Hin : In (u, (call_name before (AddPop nm f), f)) (vx_pops (add_all l no_validators))) by (apply R0; exists before, after, (AddPop nm f); auto).
    assert (N1 := only_kind _ _ _ _ _ _ _ _ _ Hn gets_pop gets_proj ltac:(discriminate) R0 R1 Hin). assert (N2 := only_kind _ _ _ _ _ _ _ _ _ Hn gets_pop gets_net ltac:(discriminate) R0 R2 Hin).
    rewrite (flat_count _ _ _ _ (sorted_distinct _ (proj1 R0)) _ Hin), !flat_none, map_length by assumption. split; [cbn [length]; lia|]. apply HN.
    intros p Hp Hu. apply in_app_or in Hp as [Hp|Hp]; [eapply named_once; [exact (proj1 R0)|exact Hin|exact Hp|exact Hu]|].
    exfalso. apply in_app_or in Hp as [Hp|Hp]; apply in_flat_map in Hp as (v & Hv & Hp); apply in_map_iff in Hp as (a & <- & _); cbn [plan pl_uid] in Hu; [apply N1|apply N2]; rewrite <- Hu; now apply in_map.
  - assert (Hin : In (u, (call_name before (AddProj nm f), f)) (vx_projs (add_all l no_validators))) by (apply R1; exists before, after, (AddProj nm f); auto).
    assert (N1 := only_kind _ _ _ _ _ _ _ _ _ Hn gets_proj gets_pop ltac:(discriminate) R1 R0 Hin). assert (N2 := only_kind _ _ _ _ _ _ _ _ _ Hn gets_proj gets_net ltac:(discriminate) R1 R2 Hin).
    rewrite (flat_count _ _ _ _ (sorted_distinct _ (proj1 R1)) _ Hin), !flat_none, map_length by assumption. split; [cbn [length]; lia|]. apply HN.
    intros p Hp Hu. apply in_app_or in Hp as [Hp|Hp]; [|apply in_app_or in Hp as [Hp|Hp]; [eapply named_once; [exact (proj1 R1)|exact Hin|exact Hp|exact Hu]|]];
    exfalso; apply in_flat_map in Hp as (v & Hv & Hp); apply in_map_iff in Hp as (a & <- & _); cbn [plan pl_uid] in Hu; [apply N1|apply N2]; rewrite <- Hu; now apply in_map.
  - assert (Hin : In (u, (call_name before (AddNet nm f), f)) (vx_nets (add_all l no_validators))) by (apply R2; exists before, after, (AddNet nm f); auto).
    assert (N1 := only_kind _ _ _ _ _ _ _ _ _ Hn gets_net gets_pop ltac:(discriminate) R2 R0 Hin). assert (N2 := only_kind _ _ _ _ _ _ _ _ _ Hn gets_net gets_proj ltac:(discriminate) R2 R1 Hin).
    rewrite (flat_count _ _ _ _ (sorted_distinct _ (proj1 R2)) _ Hin), !flat_none, map_length by assumption. split; [cbn [length]; lia|]. apply HN.
    intros p Hp Hu. apply in_app_or in Hp as [Hp|Hp]; [|apply in_app_or in Hp as [Hp|Hp]; [|eapply named_once; [exact (proj1 R2)|exact Hin|exact Hp|exact Hu]]];
    exfalso; apply in_flat_map in Hp as (v & Hv & Hp); apply in_map_iff in Hp as (a & <- & _); cbn [plan pl_uid] in Hu; [apply N1|apply N2]; rewrite <- Hu; now apply in_map.
Qed.
(** Two validators that were given no name never have the same one. *)
Definition unnamed (c : @add_call W P Q) : Prop := match c with AddPop None _ | AddProj None _ | AddNet None _ => True | _ => False end.
Lemma decimal_inj a b : decimal a = decimal b -> a = b.
Proof.
  assert (Hz : forall n, N.to_uint n <> Decimal.Nil) by (intros [|p]; [discriminate|apply DecimalPos.Unsigned.to_uint_nonnil]).
  unfold decimal. intros H. apply (f_equal NilZero.uint_of_string) in H. rewrite !NilZero.usu in H by apply Hz.
  injection H as H. apply (f_equal N.of_uint) in H. rewrite !DecimalN.Unsigned.of_to in H. lia.
Qed.
Theorem c115_default_names (before between : list (uid * @add_call W P Q)) u c c' : unnamed c -> unnamed c' ->
  call_name before c <> call_name (before ++ (u, c) :: between) c'.
Proof.
  intros Hc Hc' E. destruct c as [[]|[]|[]]; destruct c' as [[]|[]|[]]; cbn [unnamed] in Hc, Hc'; try contradiction; unfold call_name in E; cbn [kind_of String.append] in E; try discriminate E;
  repeat (injection E as E); apply decimal_inj in E; rewrite filter_app, app_length in E; cbn [filter snd kind_of Nat.eqb length] in E; lia.
Qed.
End Proofs.
Print Assumptions c115_run.
Print Assumptions c115_throws.
Print Assumptions c115_count.
Print Assumptions c115_registered.
Print Assumptions c115_each.
Print Assumptions c115_default_names.

(** Two populations, one with a name, one projection; a validator of each kind, the last
    two without a name; the validators count the calls. *)
Definition vtags : N -> tags := fun p => if N.eqb p 1 then [(name_tag, Some (string_type, 7%N))] else [].
Definition saying {A} (z : Z) : @validator Z A := fun w _ => Ret ((w + 1)%Z, [mkIssue Info "seen" (z + w)%Z]).
Definition vcalls : list (uid * @add_call Z N N) := [(9%N, AddPop (Some "mine"%string) (saying 10)); (5%N, AddPop None (saying 20)); (3%N, AddNet None (saying 30))].
Example c115_case : NoDup (map fst vcalls) /\
  run_validators vtags vtags (add_all vcalls no_validators) ([1; 2]%N, [4]%N) 0%Z = Ret (5%Z,
    [mkVR 5 "Population validator #1" [mkIssue Info "seen" 20]; mkVR 5 "Population validator #1" [mkIssue Info "seen" 21];
     mkVR 9 "mine" [mkIssue Info "seen" 12]; mkVR 9 "mine" [mkIssue Info "seen" 13]; mkVR 3 "Network validator #0" [mkIssue Info "seen" 34]]).
Proof. split; [repeat constructor; cbn; intuition discriminate|reflexivity]. Qed.
(** "One entry per executed validator" is not what is returned: none for an empty network, two
    for two populations, with nothing that tells which of them each is about. *)
Theorem c115_one_entry_refuted :
  run_validators vtags vtags (add_all [(9%N, AddPop None (saying 10))] no_validators) ([], []) 0%Z = Ret (0%Z, []) /\
  exists a b, run_validators vtags vtags (add_all [(9%N, AddPop None (saying 10))] no_validators) ([1; 2]%N, []) 0%Z = Ret (2%Z, [mkVR 9 "Population validator #0" a; mkVR 9 "Population validator #0" b]).
Proof. split; [reflexivity|]. eexists _, _. reflexivity. Qed.
Print Assumptions c115_one_entry_refuted.
(** A population whose "name" tag is not a string makes the run throw before the first
    validator is called, though none of them reads tags. *)
Theorem c115_name_refuted : run_validators (fun _ => [(name_tag, Some (1, 7%N))]) vtags (add_all vcalls no_validators) ([1; 2]%N, [4]%N) 0%Z = Throw.
Proof. reflexivity. Qed.
Print Assumptions c115_name_refuted.
