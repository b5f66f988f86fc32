(** Model of the buffered binary writer.
    Source: queso/io/binary_buffer_writer.hpp.
    A file is a sequence of bytes; std::ofstream::write either writes all bytes
    or fails after some of them, as decided by the medium (any function); after
    a failure the stream does not write any more.  The stream's own buffering is
    not modelled. *)
From Coq Require Import Ascii Bool NArith Arith List.
Import ListNotations.
Local Open Scope N_scope.

Definition bytes := list ascii.
Definition len (b : bytes) : N := N.of_nat (length b).

(** Byte orders: EndianType, binary_buffer_writer.hpp:38. *)
Inductive endian := little | big.
Definition endian_eqb (a b : endian) : bool :=
  match a, b with little, little | big, big => true | _, _ => false end.

(** Modulo 2^64: the type of sizes. *)
Definition wrap (n : N) : N := n mod 2 ^ 64.

(** ** Memory representation *)

(** The [w] bytes of an unsigned number, least significant first. *)
Fixpoint bytes_le (w : nat) (n : N) : bytes :=
  match w with O => [] | S w' => ascii_of_N (n mod 256) :: bytes_le w' (n / 256) end.
(** The bytes of an object of [w] bytes in memory (reinterpret_cast<const char*>)
    on a host of the given byte order.  Floating point numbers are represented
    by their bit pattern and have the byte order of the integers. *)
Definition in_memory (host : endian) (w : nat) (n : N) : bytes :=
  match host with little => bytes_le w n | big => rev (bytes_le w n) end.
(** The value of an object with the given bytes in memory. *)
Fixpoint value_le (b : bytes) : N :=
  match b with [] => 0 | c :: b' => N_of_ascii c + 256 * value_le b' end.
Definition from_memory (host : endian) (b : bytes) : N :=
  match host with little => value_le b | big => value_le (rev b) end.

(** DetectEndianOnce, binary_buffer_writer.hpp:141-148; NativeEndian :152-156. *)
Definition native_endian (host : endian) : endian :=
  match nth_error (in_memory host 4 16909060) 0 with
  | Some c => if Ascii.eqb c (ascii_of_N 4) then little else big
  | None => big
  end.

(** SwapEnd, binary_buffer_writer.hpp:161-168: the loop over i < n/2 with
    std::swap(bytes[i], bytes[n-1-i]). *)
Fixpoint upd (i : nat) (c : ascii) (b : bytes) : bytes :=
  match b, i with
  | [], _ => []
  | _ :: b', O => c :: b'
  | d :: b', S i' => d :: upd i' c b'
  end.
Definition swap (i j : nat) (b : bytes) : bytes :=
  match nth_error b i, nth_error b j with
  | Some x, Some y => upd j x (upd i y b)
  | _, _ => b
  end.
Fixpoint swap_loop (n i k : nat) (b : bytes) : bytes :=
  match k with
  | O => b
  | S k' => swap_loop n (S i) k' (swap i (n - 1 - i) b)
  end.
Definition swap_end (b : bytes) : bytes := swap_loop (length b) 0 (Nat.div2 (length b)) b.

(** ** The stream *)

(** [None]: all bytes are written; [Some k]: the write fails after [k] bytes. *)
Definition medium := bytes -> bytes -> option nat.
Record stream := { f_bytes : bytes; f_good : bool }.

Definition stream_write (disk : medium) (f : stream) (data : bytes) : stream :=
  if f_good f then
    match disk (f_bytes f) data with
    | None => {| f_bytes := f_bytes f ++ data; f_good := true |}
    | Some k => {| f_bytes := f_bytes f ++ firstn k data; f_good := false |}
    end
  else f.

(** ** The writer *)

(** binary_buffer_writer.hpp:174-178.  [w_pos] is mBufferPos, the size of
    [w_buf] is mBufferSize. *)
Record writer := { w_stream : stream; w_endian : endian; w_pos : N; w_buf : bytes }.

(** Outcome of a call: normal, an exception with the state at that point, or a
    write outside of the buffer. *)
Inductive outcome := Done (w : writer) | Thrown (w : writer) | Overrun.
Definition andthen (o : outcome) (f : writer -> outcome) : outcome :=
  match o with Done w => f w | _ => o end.

(** binary_buffer_writer.hpp:48-55 *)
Definition new_writer (f : stream) (e : endian) (size : N) : writer :=
  {| w_stream := f; w_endian := e; w_pos := 0; w_buf := repeat zero (N.to_nat size) |}.

(** binary_buffer_writer.hpp:105-111 *)
Definition flush (disk : medium) (w : writer) : outcome :=
  if 0 <? w_pos w then
    let f := stream_write disk (w_stream w) (firstn (N.to_nat (w_pos w)) (w_buf w)) in       (* :107 *)
    if f_good f then Done {| w_stream := f; w_endian := w_endian w; w_pos := 0; w_buf := w_buf w |}   (* :109 *)
    else Thrown {| w_stream := f; w_endian := w_endian w; w_pos := w_pos w; w_buf := w_buf w |}       (* :108 *)
  else Done w.

(** std::memcpy to [w_buf + pos] *)
Definition memcpy (buf : bytes) (pos : N) (data : bytes) : option bytes :=
  if pos + len data <=? len buf then
    Some (firstn (N.to_nat pos) buf ++ data ++ skipn (N.to_nat pos + length data) buf)
  else None.

(** binary_buffer_writer.hpp:122-135 *)
Definition append_to_buffer (disk : medium) (w : writer) (data : bytes) : outcome :=
  let size := len data in
  let buffer_size := len (w_buf w) in
  if buffer_size <? size then                                                        (* :123 *)
    andthen (flush disk w) (fun w =>                                                 (* :124 *)
      let f := stream_write disk (w_stream w) data in                                (* :126 *)
      let w' := {| w_stream := f; w_endian := w_endian w; w_pos := w_pos w; w_buf := w_buf w |} in
      if f_good f then Done w' else Thrown w')                                       (* :127 *)
  else
    andthen (if buffer_size <? wrap (w_pos w + size) then flush disk w else Done w)  (* :130-132 *)
      (fun w =>
        match memcpy (w_buf w) (w_pos w) data with                                   (* :133 *)
        | None => Overrun
        | Some b => Done {| w_stream := w_stream w; w_endian := w_endian w; w_pos := wrap (w_pos w + size); w_buf := b |}
        end).

(** WriteRaw, binary_buffer_writer.hpp:75-77 *)
Definition write_raw (disk : medium) (w : writer) (data : bytes) : outcome := append_to_buffer disk w data.

(** WriteValue, binary_buffer_writer.hpp:82-90, for a value of [n] bytes. *)
Definition write_value (disk : medium) (host : endian) (w : writer) (v : nat * N) : outcome :=
  let '(n, x) := v in
  let temp := in_memory host n x in
  append_to_buffer disk w (if endian_eqb (native_endian host) (w_endian w) then temp else swap_end temp).

(** WriteArray, binary_buffer_writer.hpp:96-102 *)
Fixpoint write_array (disk : medium) (host : endian) (w : writer) (n : nat) (l : list N) : outcome :=
  match l with
  | [] => Done w
  | x :: l' => andthen (write_value disk host w (n, x)) (fun w => write_array disk host w n l')
  end.

(** A use of a writer: any sequence of its operations. *)
Inductive op :=
| Raw (data : bytes)
| Value (width : nat) (x : N)
| Array (width : nat) (l : list N)
| Flush.
Definition do_op (disk : medium) (host : endian) (w : writer) (o : op) : outcome :=
  match o with
  | Raw data => write_raw disk w data
  | Value n x => write_value disk host w (n, x)
  | Array n l => write_array disk host w n l
  | Flush => flush disk w
  end.
Fixpoint do_ops (disk : medium) (host : endian) (w : writer) (l : list op) : outcome :=
  match l with
  | [] => Done w
  | o :: l' => andthen (do_op disk host w o) (fun w => do_ops disk host w l')
  end.

(** The scope of a writer, from the constructor to the destructor
    (binary_buffer_writer.hpp:58-60).  The destructor is noexcept: an exception
    that leaves it terminates the program, also while another exception is
    handled. *)
Inductive final :=
| Normal (f : stream)       (* end of the scope *)
| Exception (f : stream)    (* an exception leaves the scope *)
| Terminated (f : stream)   (* std::terminate *)
| BufferOverrun.            (* undefined behaviour *)
Definition destruct_writer (disk : medium) (w : writer) (k : stream -> final) : final :=
  match flush disk w with
  | Done w' => k (w_stream w')
  | Thrown w' => Terminated (w_stream w')
  | Overrun => BufferOverrun
  end.
Definition scope (disk : medium) (host e : endian) (size : N) (f : stream) (l : list op) : final :=
  match do_ops disk host (new_writer f e size) l with
  | Done w => destruct_writer disk w Normal
  | Thrown w => destruct_writer disk w Exception
  | Overrun => BufferOverrun
  end.
