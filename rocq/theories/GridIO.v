(** gridio.py *)
From Coq Require Import String List Bool PeanoNat Init.Byte Lia.
Import ListNotations.
From Verif Require Import Prelude Mat Num Fields.
Local Open Scope nat_scope.
Local Open Scope list_scope.

Section GridIO.
Context {F : Type} (N : numops F) (C : codec F).

(** np.fromfile(filename,'>f8') (gridio.py:86-91): whole 8-byte items; an incomplete
    trailing item is dropped. *)
Fixpoint fromfile (bs : list byte) : list F :=
  match bs with
  | b0 :: b1 :: b2 :: b3 :: b4 :: b5 :: b6 :: b7 :: r =>
      dec C [b0; b1; b2; b3; b4; b5; b6; b7] :: fromfile r
  | _ => []
  end.

(** ndarray.tofile of a big-endian double array (gridio.py:159-161). *)
Definition tofile (xs : list F) : list byte := flat_map (enc C) xs.

(** np.reshape(v,(r,c),order='F') (gridio.py:102-103). *)
Definition reshapeF (v : list F) (r c : nat) : res (mat F) :=
  if length v =? r * c
  then Ok (mkmat r c (fun i j => nth (j * r + i) v (nzero N)))
  else Err (ValueError "cannot reshape array").

(** np.reshape(m,r*c,order='F') (gridio.py:157). *)
Definition ravelF (m : mat F) : list F :=
  flat_map (fun j => map (fun i => mat_at m i j) (seq 0 (mrows m))) (seq 0 (mcols m)).

(** bool(x) of a numpy double: everything but the two zeros is true. *)
Definition truthy (x : F) : bool := negb (neqb N x (nzero N)).

(** gridio.py:106-110, the condition under which strict raises for one field;
    [m] is the untrimmed (ni+1)x(nj+1) array. *)
Definition padding_nonzero (f : field) (ni nj : nat) (m : mat F) : bool :=
  (negb (0 <? ni_delta f) && existsb (fun j => truthy (mat_at m ni j)) (seq 0 (mcols m)))
  || (negb (0 <? nj_delta f) && existsb (fun i => truthy (mat_at m i nj)) (seq 0 (mrows m))).

(** mgf.names.index(name) (gridio.py:99-100). *)
Fixpoint index_of (f : field) (l : list field) : nat :=
  match l with
  | [] => 0
  | g :: l' => if field_beq f g then 0 else S (index_of f l')
  end.

Definition upd (g : grid F) (f : field) (m : mat F) : grid F :=
  fun f' => if field_beq f' f then m else g f'.

(** One iteration of the loop gridio.py:97-118. *)
Definition read_field (raw : list F) (ni nj : nat) (strict : bool)
    (g : grid F) (f : field) : res (grid F) :=
  let slice_size := (ni + 1) * (nj + 1) in
  let start := slice_size * index_of f fields in
  m <- reshapeF (firstn slice_size (skipn start raw)) (ni + 1) (nj + 1) ;;
  if strict && padding_nonzero f ni nj m
  then Err (RuntimeError "trying to trim nonzero rows or columns")
  else Ok (upd g f (mtrim (ni + ni_delta f) (nj + nj_delta f) m)).

(** gridio.py:7-121 read_mitgridfile, as a function of the file's bytes. *)
Definition read_mitgrid (bs : list byte) (ni nj : nat) (strict : bool) : res (grid F) :=
  let raw := fromfile bs in
  foldM (read_field raw ni nj strict) fields (fun _ => mconst 0 0 (nzero N)).

(** numpy's rule for [a[:r,:c] = v] with v of shape (p,q): each extent equal or 1. *)
Definition bcast_ok (p r : nat) : bool := (p =? r) || (p =? 1).
Definition bidx (p i : nat) : nat := if p =? 1 then 0 else i.

(** gridio.py:151-152: the zero-padded (ni+1)x(nj+1) array for one field. *)
Definition padded (e : entry F) (ni nj : nat) (f : field) : res (mat F) :=
  let r := ni + ni_delta f in
  let c := nj + nj_delta f in
  let z := nzero N in
  match e with
  | Missing => Err KeyError
  | NoneVal =>
      Ok (mkmat (ni + 1) (nj + 1)
            (fun i j => if (i <? r) && (j <? c) then nnan N else z))
  | Arr m =>
      if bcast_ok (mrows m) r && bcast_ok (mcols m) c
      then Ok (mkmat (ni + 1) (nj + 1)
            (fun i j => if (i <? r) && (j <? c)
                        then mat_at m (bidx (mrows m) i) (bidx (mcols m) j) else z))
      else Err (ValueError "could not broadcast input array")
  end.

(** gridio.py:148-161 for the fields [fs]: the bytes that reach the file and the
    outcome.  The bytes written before an exception stay in the file. *)
Fixpoint write_fields (d : griddict F) (ni nj : nat) (fs : list field)
    : list byte * res unit :=
  match fs with
  | [] => ([], Ok tt)
  | f :: fs' =>
      match padded (d f) ni nj f with
      | Err e => ([], Err e)
      | Ok m =>
          let '(bs, o) := write_fields d ni nj fs' in
          (tofile (ravelF m) ++ bs, o)
      end
  end.

(** gridio.py:124-164 write_mitgridfile: resulting file content and outcome (the
    file is truncated by open(...,'wb') before the first field is examined). *)
Definition write_mitgrid (d : griddict F) (ni nj : nat) : list byte * res unit :=
  write_fields d ni nj fields.

End GridIO.
Arguments index_of : simpl never.
Arguments fromfile : simpl never.
