(** What the projection properties talk about. *)
From Verif Require Import Base Projection_Model.

Section Spec.
Context {P : Type}.
Notation synapse := (synapse P).

(** The end neuron a search looks at. *)
Definition syn_end (c : search) (s : synapse) : N := match c with ByPre => sy_from s | ByPost => sy_to s end.
(** Position [i] of the list holds a synapse with that end. *)
Definition is_hit (c : search) (n : N) (l : list synapse) (i : nat) : Prop :=
  exists s, nth_error l i = Some s /\ syn_end c s = n.

(** The values a generator yields at calls i, i+1, ..., i+n-1, empty ones
    skipped. *)
Fixpoint yields (g : nat -> option synapse) (i n : nat) : list synapse :=
  match n with
  | 0 => []
  | S n' => match g i with Some s => s :: yields g (S i) n' | None => yields g (S i) n' end
  end.

(** Whether the search index is up to date, as the calls determine it: searching
    and the constructor with a generator bring it up to date, modifications
    invalidate it. *)
Definition fresh_step (fresh : bool) (o : pop P) : bool :=
  match o with
  | PFind _ _ => true
  | PAdd _ _ | PRemove _ | PRemoveIf _ | PRemovePre _ => false
  | PClear | PRemovePost _ | PAssign _ _ => fresh
  end.
(** Histories of calls and results in which the search index is never damaged:
    no removal by target removes something while the index is up to date, and no
    synapse is overwritten in place while it is. *)
Fixpoint undamaged (fresh : bool) (tr : list (pop P * pout)) : Prop :=
  match tr with
  | [] => True
  | (o, x) :: t =>
      match o with
      | PRemovePost _ => fresh = false \/ x = PCount 0
      | PAssign _ _ => fresh = false
      | _ => True
      end /\ undamaged (fresh_step fresh o) t
  end.
End Spec.
