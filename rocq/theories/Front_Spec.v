(** What the property of neurons with resource STDP talks about. *)
From Verif Require Import Base Messaging_Model.
(** Whether one of the messages forces neuron [i]: the message comes from a forcing
    kind of synapse and holds an excitatory impact on the neuron. *)
Definition forced_by (i : nat) (ms : list message) : bool :=
  existsb (fun m => match m with
                    | ImpactMsg _ _ _ _ forcing l => forcing && existsb (fun x => N.eqb (i_post x) (N.of_nat i) && match i_type x with EXCITATORY => true | _ => false end) l
                    | SpikeMsg _ _ _ => false
                    end) ms.
