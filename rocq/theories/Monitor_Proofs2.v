From Verif Require Import Base ListLemmas Framework_Proofs Messaging_Model Monitor_Model Monitor_Spec Monitor_Proofs.
From Coq Require Import String Ascii Permutation Sorted.
Open Scope list_scope.

(** ** The header *)
Lemma str_insert_in s l x : In x (str_insert s l) <-> x = s \/ In x l.
Proof.
  induction l as [|a l IH]; cbn [str_insert]; [cbn; intuition|]. destruct (str_cmp s a); cbn [In]; rewrite ?IH; intuition.
Qed.
Lemma str_insert_sorted s l : StronglySorted slt l -> ~ In s l -> StronglySorted slt (str_insert s l).
Proof.
  induction l as [|a l IH]; intros S N; cbn [str_insert]; [repeat constructor|]. inversion S as [|? ? S1 S2]; subst. destruct (str_cmp s a) eqn:C.
  - apply str_cmp_eq in C as ->. elim N. now left.
  - constructor; [exact S|]. constructor; [exact C|]. eapply Forall_impl; [|exact S2]. intros b Hb. exact (str_cmp_trans _ _ _ C Hb).
  - constructor; [apply IH; [exact S1|intros H; apply N; now right]|]. apply Forall_forall. intros x Hx. apply str_insert_in in Hx as [->|Hx]; [unfold slt; rewrite str_cmp_sym, C; reflexivity|]. rewrite Forall_forall in S2. auto.
Qed.
Lemma sorted_same l l' : StronglySorted slt l -> StronglySorted slt l' -> (forall x, In x l <-> In x l') -> l = l'.
Proof.
  intros S. revert l'. induction S as [|a l S IH F]; intros l' S' H.
  - destruct l' as [|b l']; [reflexivity|]. exfalso. apply (H b). now left.
  - destruct S' as [|b l' S' F']; [exfalso; apply (H a); now left|].
    rewrite Forall_forall in F, F'. assert (a = b) as ->.
    { destruct (proj1 (H a)) as [E|Ha]; [now left|congruence|]. destruct (proj2 (H b)) as [E|Hb]; [now left|congruence|].
      elim (slt_irrefl a). exact (str_cmp_trans _ _ _ (F b Hb) (F' a Ha)). }
    f_equal. apply IH; [exact S'|]. intros x. split; intros Hx.
    + destruct (proj1 (H x)) as [<-|Hx']; [now right| |exact Hx']. elim (slt_irrefl b). apply F, Hx.
    + destruct (proj2 (H x)) as [<-|Hx']; [now right| |exact Hx']. elim (slt_irrefl b). apply F', Hx.
Qed.
Lemma header_in ns x : In x (header ns) <-> In x (map snd ns).
Proof. unfold header. induction (map snd ns) as [|a l IH]; cbn [fold_right]; [tauto|]. rewrite str_insert_in, IH. cbn. intuition. Qed.
Lemma header_keys ns : NoDup (map snd ns) -> header ns = keys ns.
Proof.
  intros N. destruct (reset_facts ns) as (S & K & _). apply sorted_same; [|exact S|intros x; rewrite header_in, K; tauto].
  clear - N. unfold header. induction (map snd ns) as [|a l IH]; cbn [fold_right]; [constructor|]. inversion N as [|? ? N1 N2]; subst. apply str_insert_sorted; [auto|].
  assert (X : forall x, In x (fold_right str_insert [] l) <-> In x l) by (clear; intros x; induction l as [|b l IH]; cbn [fold_right]; [tauto|]; rewrite str_insert_in, IH; cbn; intuition).
  rewrite X. exact N1.
Qed.
Lemma aggregated_eq ns period first calls : (0 < period)%N -> exists m,
  aggregated ns period first calls = Ret (m, map (fun t => (t, map (fun n => w64 (spikes_of_calls ns n (window period first t calls))) (keys ns)))
    (filter (fun t => N.eqb (t mod period) 0) (steps first (List.length calls)))).
Proof.
  intros Hp. unfold aggregated. destruct (run_eq ns period Hp calls first [] (reset ns) []) as (m & R & _).
  - intros q [].
  - reflexivity.
  - rewrite reset_table. reflexivity.
  - exists m. rewrite R. reflexivity.
Qed.

(** ** The values of a projection *)
Lemma leading_values p l : StronglySorted (fun a b => wrs_lt b a = false) l -> Forall (fun x => (p <= w_receiver x)%N) l ->
  leading (write_values p l) = map (fun x => (w_weight x, w_step x)) (filter (fun x => N.eqb (w_receiver x) p) l).
Proof.
  revert p. induction l as [|a l IH]; intros p S F; [reflexivity|]. inversion S as [|? ? S1 S2]; subst. inversion F as [|? ? F1 F2]; subst. cbn [write_values filter].
  destruct (N.eqb_spec p (w_receiver a)) as [->|Ne].
  - rewrite N.eqb_refl. cbn [app leading map]. f_equal. apply IH; assumption.
  - destruct (N.eqb_spec (w_receiver a) p) as [E|_]; [congruence|]. cbn [app leading]. symmetry.
    rewrite filter_none; [reflexivity|]. intros x Hx. rewrite Forall_forall in S2. specialize (S2 x Hx). unfold wrs_lt in S2.
    apply N.eqb_neq. destruct (N.eqb_spec (w_receiver x) (w_receiver a)) as [E|N1]; cbn [negb] in S2; [congruence|]. apply N.ltb_ge in S2. lia.
Qed.
Lemma sorted_receivers a l : Forall (fun b => wrs_lt b a = false) l -> Forall (fun x => (w_receiver a <= w_receiver x)%N) l.
Proof.
  intros H. eapply Forall_impl; [|exact H]. intros x. unfold wrs_lt. destruct (N.eqb_spec (w_receiver x) (w_receiver a)) as [E|N1]; cbn [negb]; intros K; [lia|]. apply N.ltb_ge in K. exact K.
Qed.
(** [p] is a receiver whose "Neuron" line was written, or a number that no synapse has. *)
Lemma blocks_eq p l : StronglySorted (fun a b => wrs_lt b a = false) l -> (Forall (fun x => (p <= w_receiver x)%N) l \/ Forall (fun x => w_receiver x <> p) l) ->
  StronglySorted N.lt (map fst (read_blocks (write_values p l))) /\
  (forall n vs, In (n, vs) (read_blocks (write_values p l)) -> vs = map (fun x => (w_weight x, w_step x)) (filter (fun x => N.eqb (w_receiver x) n) l)) /\
  (forall n, In n (map fst (read_blocks (write_values p l))) <-> n <> p /\ exists x, In x l /\ w_receiver x = n).
Proof.
  revert p. induction l as [|a l IH]; intros p S D.
  - cbn. split; [constructor|]. split; [intros n vs []|]. intros n. split; [intros []|intros (_ & x & [] & _)].
  - inversion S as [|? ? S1 S2]; subst. pose proof (sorted_receivers a l S2) as G. destruct (IH (w_receiver a) S1 (or_introl G)) as (I1 & I2 & I3). cbn [write_values].
    destruct (N.eqb_spec p (w_receiver a)) as [E|Ne].
    + subst p. cbn [app read_blocks]. split; [exact I1|]. split.
      * intros n vs H. rewrite (I2 n vs H). cbn [filter]. assert (N1 : n <> w_receiver a) by (apply (I3 n), in_map_iff; exists (n, vs); auto).
        destruct (N.eqb_spec (w_receiver a) n); [congruence|reflexivity].
      * intros n. rewrite I3. split; [intros (N1 & x & Hx & E); split; [exact N1|]; exists x; split; [now right|exact E]|].
        intros (N1 & x & [<-|Hx] & E); [congruence|]. split; [exact N1|]. exists x. auto.
    + cbn [app read_blocks]. cbn [map fst]. split; [|split].
      * constructor; [exact I1|]. apply Forall_forall. intros n Hn. apply I3 in Hn as (N1 & x & Hx & <-). rewrite Forall_forall in G. specialize (G x Hx). lia.
      * intros n vs [[= <- <-]|H].
        -- cbn [leading filter]. rewrite N.eqb_refl. cbn [map]. f_equal. apply leading_values; assumption.
        -- rewrite (I2 n vs H). cbn [filter]. assert (N1 : n <> w_receiver a) by (apply (I3 n), in_map_iff; exists (n, vs); auto).
           destruct (N.eqb_spec (w_receiver a) n); [congruence|reflexivity].
      * intros n. cbn [In]. rewrite I3. split.
        -- intros [<-|(N1 & x & Hx & E)]; [split; [congruence|]; exists a; auto|]. split; [|exists x; auto]. intros ->.
           destruct D as [D|D]; inversion D as [|? ? D1 D2]; subst; rewrite Forall_forall in *; [|now apply (D2 x Hx)]. specialize (G x Hx). lia.
        -- intros (N1 & x & [<-|Hx] & E); [now left|]. destruct (N.eq_dec n (w_receiver a)) as [->|N2]; [now left|right]. split; [exact N2|]. exists x. auto.
Qed.
Lemma leading_none p l : Forall (fun x => w_receiver x <> p) l -> leading (write_values p l) = [].
Proof. intros F. destruct l as [|a l]; [reflexivity|]. inversion F as [|? ? F1 F2]; subst. cbn [write_values]. destruct (N.eqb_spec p (w_receiver a)); [congruence|]. reflexivity. Qed.
