(** Specification vocabulary for the element store: what a history of creation calls means. *)
From Coq Require Import Arith List Bool Permutation.
From Verif Require Import GridStoreModel.
Import ListNotations.

Section Spec.
Context {A : Type}.

(** the element that an id denotes after a history: the first creation with that id whose builder succeeded *)
Fixpoint created (h : list (event A)) (id : nat) : option (bool * A) :=
  match h with
  | [] => None
  | e :: h' => if ev_id e =? id
               then match ev_built e with Some a => Some (ev_trimmed e, a) | None => created h' id end
               else created h' id
  end.

(** selected by a filter *)
Definition selected (f : filter) (t : bool) : bool :=
  match f with FAll => true | FTrimmed => t | FUntrimmed => negb t end.

(** two stores that no look-up, listing or count can distinguish *)
Definition same_store (s s' : store A) : Prop :=
  (forall f id, get_element f s id = get_element f s' id) /\
  (forall f, get_elements f s = get_elements f s') /\
  num_active s = num_active s' /\ num_trimmed s = num_trimmed s' /\ num_untrimmed s = num_untrimmed s'.

(** same stores up to the order in which elements are listed *)
Definition same_up_to_order (s s' : store A) : Prop :=
  (forall f id, get_element f s id = get_element f s' id) /\
  (forall f, Permutation (get_elements f s) (get_elements f s')) /\
  num_active s = num_active s' /\ num_trimmed s = num_trimmed s' /\ num_untrimmed s = num_untrimmed s'.
End Spec.
