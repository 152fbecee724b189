(** Interfaces to everything numerical that the modelled code calls. *)
From Coq Require Import List Init.Byte ZArith.
Import ListNotations.
Set Implicit Arguments.

(** IEEE / numpy scalar operations used by the code, and its numeric literals. *)
Record numops (F : Type) : Type := {
  nzero : F;                       (* np.PZERO, 0. *)
  nadd : F -> F -> F;
  nsub : F -> F -> F;
  nmul : F -> F -> F;
  ndiv : F -> F -> F;
  nltb : F -> F -> bool;           (* a <  b *)
  nleb : F -> F -> bool;           (* a <= b *)
  neqb : F -> F -> bool;           (* a == b *)
  neqz : F -> Z -> bool;           (* a == b, b an int *)
  nsqrt : F -> F;
  nsin : F -> F;                   (* np.sin *)
  ncos : F -> F;                   (* np.cos *)
  nacos : F -> F;                  (* np.arccos *)
  nmean : list F -> F;             (* ndarray.mean() of a 1-d array *)
  n360 : F;                        (* 360,   computegrid.py:200 *)
  n1e10 : F;                       (* 1.e10, util.py:68 *)
  ninf : F;                        (* np.inf, matchedges.py:72 *)
  n1em6 : F;                       (* POINTS_ARE_CLOSE_ENOUGH, config.py *)
  n10e3 : F;                       (* PLANAR_SPHER_TRANSITION, config.py *)
  n4 : F;                          (* 4., matchedges.py:69 *)
  nhalf : F;                       (* 0.5, util.py:178 *)
  n2 : F;                          (* 2, util.py:137 *)
  npi : F;                         (* np.pi *)
  nd2r : F;                        (* pi/180, the factor in np.radians *)
  nnan : F                         (* the NaN that None becomes, gridio.py:152 *)
}.

(** pyproj.Geod: [g_inv p q] is the distance returned by [geod.inv] between the
    (lon,lat) points [p] and [q]; [g_npt p q n k] is the [k]-th (0-based) of the [n]
    points returned by [geod.npts]; [g_a] is [geod.a]. *)
Record geod (F : Type) : Type := {
  g_inv : F * F -> F * F -> F;
  g_npt : F * F -> F * F -> nat -> nat -> F * F;
  g_a : F
}.

(** The '>f8' representation (mitgridfilefields.py:36-41). *)
Record codec (F : Type) : Type := {
  enc : F -> list byte;
  dec : list byte -> F
}.

(** The few algebraic facts the generic proofs use.  They are proved for binary64 in
    Float64.v (b64_laws, b64_codec_laws) and for R in RealInst.v. *)
Record numlaws (F : Type) (N : numops F) : Prop := {
  neqb_zero : neqb N (nzero N) (nzero N) = true;
  nltb_irrefl : forall x, nltb N x x = false;
  nltb_trans : forall x y z, nltb N x y = true -> nltb N y z = true -> nltb N x z = true;
  nleb_ltb : forall x y z, nltb N x y = true -> nltb N z y = false -> nleb N z x = false;
  nleb_min : forall x y z, nleb N x y = true -> nltb N x z = false -> neqb N z z = true ->
    nleb N z y = true;
  nltb_num : forall x y, nltb N x y = true -> neqb N x x = true;
  ninf_num : neqb N (ninf N) (ninf N) = true
}.

Record codeclaws (F : Type) (C : codec F) : Prop := {
  enc_len : forall x, length (enc C x) = 8;
  dec_enc : forall x, dec C (enc C x) = x;
  enc_dec : forall l, length l = 8 -> enc C (dec C l) = l
}.
