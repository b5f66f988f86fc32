(** Model of the non-negative least squares solver. Source: /repo/queso/solvers/nnls.cpp and
    /repo/external_libraries/nnls/nnls_impl.h (abbreviated nnls_impl.h below).
    Simplifications: double is R. The 1-based arrays of the code are functions on [nat]; a matrix is a function from column to
    column vector, so a[l + j * a_dim1] is [a j l]. Loops whose iterations do not depend on each other are written as one pointwise
    update, all others as folds in the order of the code. The variables iz1 and npp1 of the code are always nsetp + 1 and iz2 is n
    (nnls_impl.h:170-173, 287-289, 408-410), they are not stored. Output and the int overflow of 5 * n are dropped.
    [None] stands for every event that must not happen: an access outside of the arrays, a division by zero, the use of the
    Householder scalar [up] before it is computed for the column at hand, and an exhausted loop bound of the model. *)
From Coq Require Import Arith Reals List Bool.
Import ListNotations.
Local Open Scope R_scope.

Definition vec := nat -> R.
Definition mat := nat -> vec.
(** assignment to an array entry *)
Definition put {A : Type} (f : nat -> A) (i : nat) (v : A) : nat -> A := fun k => if Nat.eqb k i then v else f k.
(** accumulation of a sum by a loop from [lo] to [hi], e.g. nnls_impl.h:190-195. *)
Definition acc (f : nat -> R) (lo hi : nat) : R := fold_left (fun s l => s + f l) (seq lo (S hi - lo)) 0.
(** for (i = lo; i <= hi; ++i) *)
Definition loop {S : Type} (lo hi : nat) (body : nat -> S -> S) (s : S) : S := fold_left (fun s i => body i s) (seq lo (Datatypes.S hi - lo)) s.
Definition rle (x y : R) : bool := if Rle_dec x y then true else false.
Definition rlt (x y : R) : bool := if Rlt_dec x y then true else false.
Definition req (x y : R) : bool := if Req_EM_T x y then true else false.

(** the first test of h12_, nnls_impl.h:636-638. *)
Definition h12_idle (p l1 m : nat) : bool := ((p =? 0) || (l1 <=? p) || (m <? l1))%nat.
(** h12_ with mode 1 and ncv 0, nnls_impl.h:636-693: pivot [p], elements [l1..m]; new vector and, if it is computed, up. *)
Definition h12_make (p l1 m : nat) (u : vec) : vec * option R :=
  if h12_idle p l1 m then (u, None) else
  let cl := loop l1 m (fun j cl => if rle cl (Rabs (u j)) then Rabs (u j) else cl) (Rabs (u p)) in
  if rle cl 0 then (u, None) else
  let clinv := 1 / cl in
  let sm := (u p * clinv) * (u p * clinv) + acc (fun j => (u j * clinv) * (u j * clinv)) l1 m in
  let cl := cl * sqrt sm in
  let cl := if rle (u p) 0 then cl else - cl in
  (put u p cl, Some (u p - cl)).
(** h12_ with mode 2 and ncv 1, nnls_impl.h:636-642, 684-737: applies the transformation to [c]. *)
Definition h12_apply (p l1 m : nat) (u : vec) (up : option R) (c : vec) : option vec :=
  if h12_idle p l1 m then Some c else
  if rle (Rabs (u p)) 0 then Some c else
  match up with
  | None => None
  | Some up =>
      let b := up * u p in
      if rle 0 b then Some c else
      let sm := c p * up + acc (fun i => c i * u i) l1 m in
      if req sm 0 then Some c else
      let sm := sm * (1 / b) in
      Some (fun l => if (l =? p)%nat then c l + sm * up else if ((l1 <=? l) && (l <=? m))%nat then c l + sm * u l else c l)
  end.
(** d_sign, nnls_impl.h:36-41. *)
Definition d_sign (a b : R) : R := if rle 0 b then Rabs a else - Rabs a.
(** g1_, nnls_impl.h:507-565: cterm, sterm, sig. *)
Definition g1 (a b : R) : R * R * R :=
  if rlt (Rabs b) (Rabs a) then
    let xr := b / a in let yr := sqrt (xr * xr + 1) in
    let c := d_sign (1 / yr) a in (c, c * xr, Rabs a * yr)
  else if req b 0 then (0, 1, 0)
  else let xr := a / b in let yr := sqrt (xr * xr + 1) in
    let s := d_sign (1 / yr) b in (s * xr, s, Rabs b * yr).

(** variables of nnls_, nnls_impl.h:93-128: A, B, X, W, ZZ, INDEX, nsetp, iter. *)
Record st := St { s_a : mat; s_b : vec; s_x : vec; s_w : vec; s_zz : vec; s_ix : nat -> nat; s_np : nat; s_it : nat }.

Section Nnls.
Variables m n : nat.

(** every index used by the code with this state stays in the arrays: nsetp <= m, nsetp <= n, entries of INDEX in 1..n. *)
Definition in_bounds (s : st) : bool :=
  ((s_np s <=? m) && (s_np s <=? n) && forallb (fun q => (1 <=? s_ix s q) && (s_ix s q <=? n)) (seq 1 n))%nat.

(** dual vector, nnls_impl.h:187-198. *)
Definition dual (s : st) : vec :=
  loop (S (s_np s)) n (fun iz w => put w (s_ix s iz) (acc (fun l => s_a s (s_ix s iz) l * s_b s l) (S (s_np s)) m)) (s_w s).
(** search for the largest positive dual entry, nnls_impl.h:201-210: wmax and izmax. *)
Definition select (s : st) : R * nat :=
  loop (S (s_np s)) n (fun iz c => if rlt (fst c) (s_w s (s_ix s iz)) then (s_w s (s_ix s iz), iz) else c) (0, 0%nat).

(** choice of the column that enters, nnls_impl.h:200-271: the state, with the transformed column and zz, and position, column, up;
    no position if all dual entries are non-positive. *)
Fixpoint choose (fuel : nat) (s : st) : option (st * option (nat * nat * option R)) :=
  match fuel with
  | O => None
  | S fuel' =>
      let '(wmax, iz) := select s in
      if rle wmax 0 then Some (s, None) else
      let j := s_ix s iz in
      let p := S (s_np s) in
      let asave := s_a s j p in
      let '(u, up) := h12_make p (S p) m (s_a s j) in
      let unorm := sqrt (acc (fun l => u l * u l) 1 (s_np s)) in
      let d2 := unorm + Rabs (u p) * (1 / 100) in
      let reject zz := choose fuel' (St (put (s_a s) j (put u p asave)) (s_b s) (s_x s) (put (s_w s) j 0) zz (s_ix s) (s_np s) (s_it s)) in
      if rlt 0 (d2 - unorm) then
        match h12_apply p (S p) m u up (s_b s) with
        | None => None
        | Some zz =>
            if req (u p) 0 then None else
            let ztest := zz p / u p in
            if rlt 0 ztest then Some (St (put (s_a s) j u) (s_b s) (s_x s) (s_w s) zz (s_ix s) (s_np s) (s_it s), Some (iz, j, up))
            else reject zz
        end
      else reject (s_zz s)
  end.

(** application of the transformation to the columns that stay in set Z, nnls_impl.h:291-299. *)
Definition transform_rest (a : mat) (ix : nat -> nat) (j p : nat) (up : option R) : option mat :=
  loop (S p) n (fun jz a => match a with
    | None => None
    | Some a => match h12_apply p (S p) m (a j) up (a (ix jz)) with None => None | Some c => Some (put a (ix jz) c) end
    end) (Some a).
(** the column moves from set Z to set P, nnls_impl.h:278-309. *)
Definition accept (s : st) (iz j : nat) (up : option R) : option st :=
  let p := S (s_np s) in
  let ix := put (put (s_ix s) iz (s_ix s p)) p j in
  match transform_rest (s_a s) ix j p up with
  | None => None
  | Some a =>
      let a := put a j (fun l => if ((S p <=? l) && (l <=? m))%nat then 0 else a j l) in
      Some (St a (s_zz s) (s_x s) (put (s_w s) j 0) (s_zz s) ix p (s_it s))
  end.

(** solution of the triangular system, nnls_impl.h:480-494; [k]: the value of ip. The column jj of line 487 is INDEX(ip + 1). *)
Fixpoint back (a : mat) (ix : nat -> nat) (np : nat) (k : nat) (zz : vec) : option vec :=
  match k with
  | O => Some zz
  | S k' =>
      let zz := if (k =? np)%nat then zz else fun ii => if ((1 <=? ii) && (ii <=? k))%nat then zz ii - a (ix (S k)) ii * zz (S k) else zz ii in
      if req (a (ix k) k) 0 then None else back a ix np k' (put zz k (zz k / a (ix k) k))
  end.
Definition solve_triangular (s : st) : option st :=
  match back (s_a s) (s_ix s) (s_np s) (s_np s) (s_zz s) with
  | None => None
  | Some zz => Some (St (s_a s) (s_b s) (s_x s) (s_w s) zz (s_ix s) (s_np s) (s_it s))
  end.

(** alpha and jj, nnls_impl.h:337-349. *)
Definition ratio (s : st) : option (R * nat) :=
  loop 1 (s_np s) (fun ip c => match c with
    | None => None
    | Some (alpha, jj) =>
        let l := s_ix s ip in
        if rle (s_zz s ip) 0 then
          if req (s_zz s ip - s_x s l) 0 then None else
          let t := - s_x s l / (s_zz s ip - s_x s l) in
          if rlt t alpha then Some (t, ip) else Some (alpha, jj)
        else Some (alpha, jj)
    end) (Some (2, 0%nat)).
(** interpolation, nnls_impl.h:361-366. *)
Definition interpolate (s : st) (alpha : R) : vec :=
  loop 1 (s_np s) (fun ip x => put x (s_ix s ip) (x (s_ix s ip) + alpha * (s_zz s ip - x (s_ix s ip)))) (s_x s).
(** the feasible solution is taken over, nnls_impl.h:443-448. *)
Definition write_back (s : st) : vec := loop 1 (s_np s) (fun ip x => put x (s_ix s ip) (s_zz s ip)) (s_x s).

(** procedure G2 on rows j - 1 and j, nnls_impl.h:391-394 and 401-403. *)
Definition rotate (j : nat) (c s : R) (v : vec) : vec := put (put v (j - 1) (c * v (j - 1)%nat + s * v j)) j (- s * v (j - 1)%nat + c * v j).
(** one iteration of the loop over the later columns of set P, nnls_impl.h:378-405. *)
Definition shift (j : nat) (t : mat * vec * (nat -> nat)) : mat * vec * (nat -> nat) :=
  let '(a, b, ix) := t in
  let ii := ix j in
  let ix := put ix (j - 1) ii in
  let '(c, s, sig) := g1 (a ii (j - 1)%nat) (a ii j) in
  let a' := fun l => if (l =? ii)%nat then put (put (a ii) (j - 1) sig) j 0 else if ((1 <=? l) && (l <=? n))%nat then rotate j c s (a l) else a l in
  (a', rotate j c s b, ix).
(** a coefficient moves from set P to set Z, nnls_impl.h:371-411. *)
Definition remove1 (s : st) (jj : nat) : st :=
  let i := s_ix s jj in
  let '(a, b, ix) := loop (S jj) (s_np s) shift (s_a s, s_b s, s_ix s) in
  St a b (put (s_x s) i 0) (s_w s) (s_zz s) (put ix (s_np s) i) (s_np s - 1) (s_it s).
(** removal and search for further non-positive coefficients, nnls_impl.h:371-427. *)
Fixpoint remove (fuel : nat) (s : st) (jj : nat) : option st :=
  match fuel with
  | O => None
  | S fuel' =>
      if ((1 <=? jj) && (jj <=? s_np s))%nat then
        let s := remove1 s jj in
        if in_bounds s then
          match find (fun q => rle (s_x s (s_ix s q)) 0) (seq 1 (s_np s)) with
          | Some q => remove fuel' s q
          | None => Some s
          end
        else None
      else None
  end.

(** secondary loop, nnls_impl.h:321-439: the state at L330 (flag true) or at L350 because of the iteration count (flag false). *)
Fixpoint inner (fuel : nat) (s : st) : option (st * bool) :=
  match fuel with
  | O => None
  | S fuel' =>
      if in_bounds s then
        let s := St (s_a s) (s_b s) (s_x s) (s_w s) (s_zz s) (s_ix s) (s_np s) (S (s_it s)) in
        if (n * 5 <? s_it s)%nat then Some (s, false) else
        match ratio s with
        | None => None
        | Some (alpha, jj) =>
            if req alpha 2 then Some (St (s_a s) (s_b s) (write_back s) (s_w s) (s_zz s) (s_ix s) (s_np s) (s_it s), true) else
            match remove (S (s_np s)) (St (s_a s) (s_b s) (interpolate s alpha) (s_w s) (s_zz s) (s_ix s) (s_np s) (s_it s)) jj with
            | None => None
            | Some s =>
                match solve_triangular (St (s_a s) (s_b s) (s_x s) (s_w s) (s_b s) (s_ix s) (s_np s) (s_it s)) with
                | None => None
                | Some s => inner fuel' s
                end
            end
        end
      else None
  end.

(** main loop, nnls_impl.h:175-450: the state at L350 and the mode. *)
Fixpoint main (fuel : nat) (s : st) : option (st * nat) :=
  match fuel with
  | O => None
  | S fuel' =>
      if in_bounds s then
        if ((n <? S (s_np s)) || (m <=? s_np s))%nat then Some (s, 1%nat) else
        match choose (S n) (St (s_a s) (s_b s) (s_x s) (dual s) (s_zz s) (s_ix s) (s_np s) (s_it s)) with
        | None => None
        | Some (s, None) => Some (s, 1%nat)
        | Some (s, Some (iz, j, up)) =>
            match accept s iz j up with
            | None => None
            | Some s =>
                match solve_triangular s with
                | None => None
                | Some s =>
                    match inner (n * 5 + 2) s with
                    | None => None
                    | Some (s, false) => Some (s, 3%nat)
                    | Some (s, true) => main fuel' s
                    end
                end
            end
        end
      else None
  end.

(** initial values, nnls_impl.h:158-173. W and ZZ are not initialised by the code; 0 here (they are written before they are read). *)
Definition start (a : mat) (b : vec) : st := St a b (fun _ => 0) (fun _ => 0) (fun _ => 0) (fun i => i) 0 0.
(** residual norm, nnls_impl.h:457-474. *)
Definition rnorm (s : st) : R := sqrt (acc (fun i => s_b s i * s_b s i) (S (s_np s)) m).
(** nnls_, nnls_impl.h:93-475: X, RNORM (if it is computed), MODE. *)
Definition nnls_run (a : mat) (b : vec) : option (vec * option R * nat) :=
  if ((m <=? 0) || (n <=? 0))%nat then Some (fun _ => 0, None, 2%nat) else
  match main (n * 5 + 2) (start a b) with
  | None => None
  | Some (s, mode) => Some (s_x s, Some (rnorm s), mode)
  end.
End Nnls.

(** NNLS::solve, solvers/nnls.cpp:25-64: the columns of A, B; X, the returned value and the mode. The caller's vector A is the
    concatenation of the columns, each as long as B. *)
Definition solve (A : list (list R)) (b : list R) : option (list R * R * nat) :=
  let m := length b in
  let n := if (0 <? m)%nat then length A else 0%nat in
  match nnls_run m n (fun j l => nth (l - 1) (nth (j - 1) A []) 0) (fun l => nth (l - 1) b 0) with
  | None => None
  | Some (x, r, mode) =>
      let r := match r with Some r => r | None => 0 end in
      Some (map x (seq 1 n), if (mode =? 2)%nat then 10 ^ 8 else r, mode)
  end.
