(** Properties C31 and C32 of the buffered binary writer. *)
From Coq Require Import Ascii Bool NArith Arith List Lia.
From Verif Require Import BufferModel BufferProofs.
Import ListNotations.
Local Open Scope nat_scope.

(** *** C31 *)

(** Any sequence of writes, any buffer size, any medium: if the scope of the
    writer ends normally then the file is extended by exactly the bytes of all
    writes in order.  If a write to the medium fails, the scope does not end
    normally, and the file is extended by a prefix of these bytes.  The buffer
    is never overrun. *)
Theorem C31_file_is_concatenation : forall disk e size, (size < 2 ^ 63)%N -> forall host f l, f_good f = true ->
  match scope disk host e size f l with
  | Normal f' => f_good f' = true /\ f_bytes f' = f_bytes f ++ written e l
  | Exception f' | Terminated f' =>
      f_good f' = false /\ prefix (f_bytes f) (f_bytes f') /\ prefix (f_bytes f') (f_bytes f ++ written e l)
  | BufferOverrun => False
  end.
Proof. exact scope_ok. Qed.
Print Assumptions C31_file_is_concatenation.

(** If no write fails, the file does not depend on the buffer size. *)
Theorem C31_independent_of_buffer_size : forall disk e size, (size < 2 ^ 63)%N -> forall host f l,
  (forall a b, disk a b = None) -> f_good f = true ->
  scope disk host e size f l = Normal {| f_bytes := f_bytes f ++ written e l; f_good := true |}.
Proof. exact scope_done. Qed.
Print Assumptions C31_independent_of_buffer_size.

(** At any point (for example if the program is killed) the file holds a prefix
    of what has been written. *)
Lemma prefix_at_any_point disk e size : (size < 2 ^ 63)%N -> forall host f l1 l2 w, f_good f = true ->
  do_ops disk host (new_writer f e size) l1 = Done w ->
  prefix (f_bytes (w_stream w)) (f_bytes f ++ written e (l1 ++ l2)).
Proof.
  intros S host f l1 l2 w G D. destruct (new_ok e size S f G) as [O C].
  assert (A := ops_ok disk e size S host l1 _ O). rewrite D in A. destruct A as [_ [A _]]. rewrite C in A.
  unfold written in *. rewrite map_app, concat_app. apply (prefix_trans _ (content w)).
  - unfold content. eexists. reflexivity.
  - rewrite A. exists (concat (map (op_bytes e) l2)). rewrite app_assoc. reflexivity.
Qed.
Theorem C31_prefix_at_any_point : forall disk e size, (size < 2 ^ 63)%N -> forall host f l1 l2 w, f_good f = true ->
  do_ops disk host (new_writer f e size) l1 = Done w ->
  prefix (f_bytes (w_stream w)) (f_bytes f ++ written e (l1 ++ l2)).
Proof. exact prefix_at_any_point. Qed.
Print Assumptions C31_prefix_at_any_point.

(** An example with a buffer of 5 bytes, with values smaller and larger than it;
    then a medium that is full after 6 bytes: the first failing write happens
    in a flush, so the exception is raised a second time by the destructor and
    the program is terminated. *)
Definition ok_disk : medium := fun _ _ => None.
Definition full_disk (n : nat) : medium := fun a b => if n <? length (a ++ b) then Some (n - length a) else None.
Definition ex_empty : stream := {| f_bytes := []; f_good := true |}.
Definition ex_list : list op := [Raw ["a"; "b"; "c"]%char; Value 4 16909060; Array 8 [1; 258]%N; Flush; Value 2 3].
Example C31_example :
  scope ok_disk little big 5 ex_empty ex_list =
    Normal {| f_bytes := ["a"; "b"; "c"; "001"; "002"; "003"; "004";
      "000"; "000"; "000"; "000"; "000"; "000"; "000"; "001"; "000"; "000"; "000"; "000"; "000"; "000"; "001"; "002";
      "000"; "003"]%char; f_good := true |} /\
  scope (full_disk 6) little big 5 ex_empty ex_list =
    Terminated {| f_bytes := ["a"; "b"; "c"; "001"; "002"; "003"]%char; f_good := false |} /\
  scope (full_disk 8) little big 5 ex_empty ex_list =
    Exception {| f_bytes := ["a"; "b"; "c"; "001"; "002"; "003"; "004"; "000"]%char; f_good := false |}.
Proof. repeat split; vm_compute; reflexivity. Qed.

(** *** C32 *)

Lemma value_host disk w v host host' : write_value disk host w v = write_value disk host' w v.
Proof. destruct v as [n x]. unfold write_value. rewrite !converted. reflexivity. Qed.
Lemma ops_host disk host host' l : forall w, do_ops disk host w l = do_ops disk host' w l.
Proof.
  assert (A : forall n l w, write_array disk host w n l = write_array disk host' w n l).
  { intros n. induction l0 as [|x l0 IH]; intros w; cbn [write_array]; [reflexivity|].
    rewrite (value_host disk w (n, x) host host'). destruct (write_value disk host' w (n, x)); cbn [andthen]; auto. }
  assert (O : forall w o, do_op disk host w o = do_op disk host' w o).
  { intros w [data|n x|n l0|]; cbn [do_op]; auto. apply value_host. }
  induction l as [|o l IH]; intros w; cbn [do_ops]; [reflexivity|]. rewrite O.
  destruct (do_op disk host' w o); cbn [andthen]; auto.
Qed.
(** The same use of a writer has the same effect on every host. *)
Lemma host_independent disk e size host host' f l : scope disk host e size f l = scope disk host' e size f l.
Proof. unfold scope. rewrite (ops_host disk host host'). reflexivity. Qed.
Theorem C32_host_independent : forall disk e size host host' f l,
  scope disk host e size f l = scope disk host' e size f l.
Proof. exact host_independent. Qed.
Print Assumptions C32_host_independent.

(** The bytes written for a value: byte [i] in little-endian order, counted from
    the other end in big-endian order, is the digit [i] of the value in base 256. *)
Lemma bytes_of_value e w n : length (op_bytes e (Value w n)) = w /\
  forall i, i < w ->
    nth_error (op_bytes e (Value w n)) (match e with little => i | big => w - 1 - i end) =
    Some (ascii_of_N ((n / 256 ^ N.of_nat i) mod 256)).
Proof.
  cbn [op_bytes]. split; [apply ordered_length|]. intros i H. unfold ordered, in_memory. destruct e.
  - apply bytes_le_nth, H.
  - rewrite rev_nth_error by (rewrite bytes_le_length; lia). rewrite bytes_le_length.
    replace (w - 1 - (w - 1 - i)) with i by lia. apply bytes_le_nth, H.
Qed.
Theorem C32_bytes_of_value : forall e w n, length (op_bytes e (Value w n)) = w /\
  forall i, i < w ->
    nth_error (op_bytes e (Value w n)) (match e with little => i | big => w - 1 - i end) =
    Some (ascii_of_N ((n / 256 ^ N.of_nat i) mod 256)).
Proof. exact bytes_of_value. Qed.
Print Assumptions C32_bytes_of_value.

(** Swapping reverses the bytes, so twice it is the identity. *)
Lemma swap_involution b : swap_end b = rev b /\ swap_end (swap_end b) = b.
Proof. rewrite !swap_end_rev. split; [reflexivity | apply rev_involutive]. Qed.
Theorem C32_swap_involution : forall b, swap_end b = rev b /\ swap_end (swap_end b) = b.
Proof. exact swap_involution. Qed.
Print Assumptions C32_swap_involution.

Example C32_example :
  scope ok_disk little big 3 ex_empty [Value 4 1; Value 2 515] = scope ok_disk big big 3 ex_empty [Value 4 1; Value 2 515] /\
  in_memory little 4 1 <> in_memory big 4 1 /\
  swap_end ["a"; "b"; "c"; "d"; "e"]%char = ["e"; "d"; "c"; "b"; "a"]%char.
Proof. split; [vm_compute; reflexivity|]. split; [vm_compute; discriminate | reflexivity]. Qed.
