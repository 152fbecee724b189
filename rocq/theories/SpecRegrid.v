(** Specification vocabulary for regrid: where its input comes from and how the output is
    oriented, independent of rotations. *)
From Coq Require Import String Ascii List ZArith Bool PeanoNat Init.Byte.
Import ListNotations.
From Verif Require Import Prelude Num Mat Fields GridIO Regrid.
Local Open Scope nat_scope.

Section S.
Context {F : Type} (N : numops F) (C : codec F).
Variables (loadtxt : list byte -> res (option (mat F))) (fs : string -> option (list byte)).

Definition given_str (s : option string) (p : string) : Prop := s = Some p /\ p <> EmptyString.
Definition no_str (s : option string) : Prop := s = None \/ s = Some EmptyString.
Definition given_num (n : option nat) (k : nat) : Prop := n = Some k /\ k <> 0.
Definition no_num (n : option nat) : Prop := n = None \/ n = Some 0.

(** a name that os.path.splitext gives the extension .csv: it ends in ".csv" and its last
    path component has a character other than a dot before that *)
Definition csv_name (p : string) : Prop :=
  exists (dir base : list ascii) (c : ascii) (rest : list ascii),
    list_ascii_of_string p = dir ++ base ++ c :: rest ++ [".";"c";"s";"v"]%char /\
    (dir = [] \/ exists d, dir = d ++ ["/"%char]) /\
    ~ In "/"%char (base ++ c :: rest) /\ c <> "."%char.

(** The dictionary regrid works on. *)
Inductive supplies (a : regrid_args F) : griddict F -> Prop :=
| from_mitgrid p ni nj bs g :
    given_str (ra_mitgridfile a) p -> given_num (ra_ni a) ni -> given_num (ra_nj a) nj ->
    fs p = Some bs -> read_mitgrid N C bs ni nj (ra_strict a) = Ok g ->
    supplies a (fun f => Arr (g f))
| from_csv px py ni nj bx by_ x y d :
    no_str (ra_mitgridfile a) -> given_str (ra_xg_file a) px -> given_str (ra_yg_file a) py ->
    given_num (ra_ni a) ni -> given_num (ra_nj a) nj ->
    csv_name px -> csv_name py ->
    fs px = Some bx -> fs py = Some by_ ->
    loadtxt bx = Ok (Some x) -> loadtxt by_ = Ok (Some y) ->
    (forall f, d f = match f with XG => Arr x | YG => Arr y | _ => NoneVal end) ->
    supplies a d
| from_binary px py ni nj bx by_ x y d :
    no_str (ra_mitgridfile a) -> given_str (ra_xg_file a) px -> given_str (ra_yg_file a) py ->
    given_num (ra_ni a) ni -> given_num (ra_nj a) nj ->
    ~ (csv_name px /\ csv_name py) ->
    fs px = Some bx -> fs py = Some by_ ->
    reshapeF N (fromfile C bx) (ni + 1) (nj + 1) = Ok x ->
    reshapeF N (fromfile C by_) (ni + 1) (nj + 1) = Ok y ->
    (forall f, d f = match f with XG => Arr x | YG => Arr y | _ => NoneVal end) ->
    supplies a d
| from_matrices d xc :
    no_str (ra_mitgridfile a) -> no_str (ra_xg_file a) \/ no_str (ra_yg_file a) ->
    ra_matrices a = Some d -> d XC = Arr xc ->
    supplies a d.
End S.

(** ** orientation *)
(** The requested corners are found at (i1,j1) (north-west) and (i2,j2) (south-east) of the
    source.  The output has north-west at min i, max j.  Depending on the relative position,
    moving along the output's i means moving along the source's i or j, up or down. *)
Definition source_index (i1 j1 i2 j2 a b : nat) : nat * nat :=
  if i1 <? i2
  then if j2 <? j1 then (i1 + a, j2 + b)  (* upright *)
       else (i2 - b, j1 + a)
  else if j2 <? j1 then (i2 + b, j1 - a)
       else (i1 - a, j2 - b).             (* upside down *)

Definition distance (a b : nat) : nat := Nat.max a b - Nat.min a b.

(** cells selected along the output's i and j *)
Definition out_ni (i1 j1 i2 j2 : nat) : nat :=
  if Bool.eqb (i1 <? i2) (j2 <? j1) then distance i1 i2 else distance j1 j2.
Definition out_nj (i1 j1 i2 j2 : nat) : nat :=
  if Bool.eqb (i1 <? i2) (j2 <? j1) then distance j1 j2 else distance i1 i2.

(** quarter turns needed *)
Definition quarter_turns (i1 j1 i2 j2 : nat) : nat :=
  if i1 <? i2 then (if j2 <? j1 then 0 else 3) else (if j2 <? j1 then 1 else 2).
