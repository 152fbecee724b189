From Coq Require Import Ascii String List Bool PeanoNat ZArith Init.Byte Lia.
Import ListNotations.
From Verif Require Import Prelude PreludeFacts Num Mat MatFacts Fields GridIO GridIOFacts GridIOProofs ComputeGrid ComputeGridFacts Refine RefineFacts MkGrid
  Util Regrid MatchEdges AddFringe Stitch Cli MdsMeta Counts CountsFacts Verbose VerboseFacts.
Local Open Scope nat_scope.
Local Open Scope list_scope.
Local Arguments Nat.mul : simpl never.

(** These items are printed one after the other. *)
Definition says {F} (o l : list (item F)) : Prop := exists a b, o = a ++ l ++ b.

Lemma says_here {F} (l b : list (item F)) : says (l ++ b) l.
Proof. now exists [], b. Qed.
Lemma says_all {F} (l : list (item F)) : says l l.
Proof. exists [], []. now rewrite app_nil_r. Qed.
Lemma says_left {F} (a b l : list (item F)) : says a l -> says (a ++ b) l.
Proof. intros (x & y & ->). exists x, (y ++ b). now rewrite <- !app_assoc. Qed.
Lemma says_right {F} (a b l : list (item F)) : says b l -> says (a ++ b) l.
Proof. intros (x & y & ->). exists (a ++ x), y. now rewrite <- !app_assoc. Qed.

Lemma obind_ok {F A B} (o : out F A) (k : A -> out F B) b : snd (obind o k) = Ok b ->
  exists a, snd o = Ok a /\ snd (k a) = Ok b /\ fst (obind o k) = fst o ++ fst (k a).
Proof. unfold obind. destruct (snd o) as [a|]; [|discriminate]. cbn [fst snd]. eauto. Qed.

(** Unpacks a successful sequence. *)
Ltac ook H := let a := fresh "x" in let Ha := fresh "Hx" in let E := fresh "Ex" in
  apply obind_ok in H; destruct H as (a & Ha & H & E);
  match type of E with _ = ?r => match goal with |- context [fst (@obind ?F ?A ?B ?o ?k)] =>
    replace (fst (@obind F A B o k)) with r by exact (eq_sym E) end end; clear E; cbv beta in H |- *.

Section Says.
Context {F : Type} (N : numops F) (C : codec F) (G : geod F).
Variable fmt : F -> text.
Notation pt := (F * F)%type.

Lemma fieldV_ok f r m : snd (fieldV (F := F) true f r) = Ok m -> fst (fieldV true f r) = shown f m.
Proof. rewrite fieldV_snd. intros ->. reflexivity. Qed.

(** Each field of the result is shown. *)
Lemma tomitgridV_shows cg iLB ilb iub iUB jLB jlb jub jUB g f :
  snd (tomitgridV N G true cg iLB ilb iub iUB jLB jlb jub jUB) = Ok g ->
  says (fst (tomitgridV N G true cg iLB ilb iub iUB jLB jlb jub jUB)) (shown f (g f)).
Proof.
  unfold tomitgridV. cbv zeta. intros H. do 17 ook H.
  repeat match goal with K : snd (fieldV true ?f ?r) = Ok ?m |- context [fst (fieldV true ?f ?r)] =>
    rewrite (fieldV_ok f r m K) end.
  cbn [snd still] in H. injection H as <-.
  cbn [fst say still]. clear.
  destruct f; repeat first [apply says_here | apply says_all | apply says_right, says_here | apply says_right, says_all
                           | apply says_left, says_here | apply says_left, says_right, says_all | apply says_right].
Qed.

Lemma finishV_shows cg p q ls lt g f : snd (finishV N G true cg p q ls lt) = Ok g ->
  says (fst (finishV N G true cg p q ls lt)) (shown f (g f)).
Proof. unfold finishV. intros H. ook H. apply says_right. now apply tomitgridV_shows. Qed.

Lemma mkgridV_shows lon1 lat1 lon2 lat2 ls lt g ni nj f :
  snd (mkgridV N G fmt true lon1 lat1 lon2 lat2 ls lt) = Ok (g, ni, nj) ->
  says (fst (mkgridV N G fmt true lon1 lat1 lon2 lat2 ls lt)) (shown f (g f)).
Proof.
  unfold mkgridV. cbv zeta. intros H. do 2 ook H. do 2 apply says_right. destruct ls, lt; try discriminate H.
  do 3 ook H. do 2 apply says_right. injection H as <- <- <-. apply says_left. now apply finishV_shows.
Qed.

Lemma regrid_fromV_shows lay o3 fuel a d r f : snd (regrid_fromV N G fmt true lay o3 fuel a d) = Ok r ->
  says (fst (regrid_fromV N G fmt true lay o3 fuel a d)) (shown f (rr_grid r f)).
Proof.
  unfold regrid_fromV. cbv zeta. intros H. do 2 ook H. do 2 apply says_right. destruct (_ || _); [discriminate|].
  do 6 ook H. do 5 apply says_right. injection H as <-. apply says_left. now apply finishV_shows.
Qed.

(** The line with the counts of the result. *)
Definition count_line (ni nj ls lt : Z) : item F :=
  line (lit "resulting grid will be " ++ int_text ni ++ lit " x " ++ int_text nj
        ++ lit " cells (lon/lat subscale = " ++ int_text ls ++ lit "/" ++ int_text lt ++ lit ")").

Lemma rot_loopV_aligned v fuel a : forall l l', snd (rot_loopV N G v fuel a l) = Ok l' -> aligned l' = true.
Proof.
  intros l l'. rewrite rot_loopV_snd. revert l. induction fuel as [|n IH]; intros l; cbn [rot_loop].
  - destruct (aligned l) eqn:E; [|discriminate]. intros K. now injection K as <-.
  - destruct (aligned l) eqn:E; [intros K; now injection K as <-|]. intros H. mok H. eauto.
Qed.

(** Located or not found. *)
Definition known (p : Z * Z) : Prop := p = (-1, -1)%Z \/ (0 <= fst p /\ 0 <= snd p)%Z.

Lemma nearest_known order lon lat xg yg p d : nearest_ord N G order lon lat xg yg = Ok (p, d) -> known p.
Proof.
  unfold nearest_ord. destruct (negb _); [discriminate|]. destruct (_ || _); [discriminate|]. intros H. injection H as H.
  assert (K : forall l st, known (fst st) -> known (fst (fold_left (nearest_step N G (lon, lat) xg yg) l st))).
  { induction l as [|(i, j) l IH]; intros ((i0, j0), d0) S; [exact S|]. cbn [fold_left]. apply IH.
    unfold nearest_step. destruct (nltb _ _ _); [|exact S]. right. cbn [fst snd]. lia. }
  specialize (K order ((-1)%Z, (-1)%Z, n1e10 N) (or_introl eq_refl)). now rewrite H in K.
Qed.

Lemma locate_known a xg yg o l : locate N G a xg yg o = Ok l -> known (lc_nw l) /\ known (lc_se l).
Proof.
  unfold locate. intros H. apply rbind_ok in H as (((i, j), d) & E1 & H). apply rbind_ok in H as (((i', j'), d') & E2 & H).
  injection H as <-. cbn [lc_nw lc_se]. split; eapply nearest_known; eauto.
Qed.

Lemma aligned_known (l : located F) : aligned l = true -> known (lc_nw l) -> known (lc_se l) ->
  (0 <= fst (lc_nw l) < fst (lc_se l) /\ 0 <= snd (lc_se l) < snd (lc_nw l))%Z.
Proof.
  unfold aligned. intros H. apply andb_true_iff in H as (H1 & H2). apply Z.ltb_lt in H1, H2.
  intros [K1|K1] [K2|K2]; rewrite ?K1, ?K2 in *; cbn [fst snd] in *; lia.
Qed.

Lemma iter_swap {A} (f : A -> A) k x : Nat.iter k f (f x) = f (Nat.iter k f x).
Proof. induction k as [|k IH]; [reflexivity|]. change (f (Nat.iter k f (f x)) = f (f (Nat.iter k f x))). now rewrite IH. Qed.

(** The messages of a turn. *)
Definition turn_lines (ll : located F * located F) : list (item F) :=
  [line (lit "performing 90 degree XG, YG rotation..."); line (lit "...start: " ++ located_text (fst ll));
   line (lit "...end:   " ++ located_text (snd ll))].

Lemma rot_loopV_says fuel a : forall l l', known (lc_nw l) -> known (lc_se l) ->
  snd (rot_loopV N G true fuel a l) = Ok l' ->
  known (lc_nw l') /\ known (lc_se l') /\
  exists turns, fst (rot_loopV N G true fuel a l) = flat_map turn_lines turns /\
    lc_xg l' = Nat.iter (length turns) rot90 (lc_xg l) /\ lc_yg l' = Nat.iter (length turns) rot90 (lc_yg l).
Proof.
  induction fuel as [|n IH]; intros l l' K1 K2; cbn [rot_loopV]; destruct (aligned l) eqn:A; try discriminate.
  1, 2: (intros H; injection H as <-; split; [exact K1|]; split; [exact K2|]; exists []; repeat split).
  intros H. ook H. ook H. cbn [snd say] in Hx. cbn [snd still] in Hx0. pose proof (locate_known _ _ _ _ _ Hx0) as (K3 & K4).
  unfold locate in Hx0. apply rbind_ok in Hx0 as (((i, j), d) & _ & Hx0). apply rbind_ok in Hx0 as (((i', j'), d') & _ & Hx0).
  injection Hx0 as <-. apply obind_ok in H as (x1 & Hx1 & H & E). rewrite E.
  destruct (IH _ _ K3 K4 H) as (K5 & K6 & turns & Et & Ex & Ey). split; [exact K5|]. split; [exact K6|].
  eexists ((l, _) :: turns). rewrite Et. cbn [fst say still app flat_map turn_lines snd]. split; [reflexivity|].
  cbn [length]. rewrite Ex, Ey. cbn [lc_xg lc_yg]. split; apply iter_swap.
Qed.

(** What regrid prints when it succeeds: first the turns, then the three lines on the grids. *)
Lemma regrid_fromV_says lay o3 fuel a d r : snd (regrid_fromV N G fmt true lay o3 fuel a d) = Ok r ->
  exists xg yg turns n m rest, d XG = Arr xg /\ d YG = Arr yg /\
    rr_dict r XG = Arr (Nat.iter (length turns) rot90 xg) /\ rr_dict r YG = Arr (Nat.iter (length turns) rot90 yg) /\
    rr_ni r = Z.to_nat (ra_lon_subscale a) * n /\ rr_nj r = Z.to_nat (ra_lat_subscale a) * m /\
    (0 <= ra_lon_subscale a /\ 0 <= ra_lat_subscale a)%Z /\
    fst (regrid_fromV N G fmt true lay o3 fuel a d) = flat_map turn_lines turns ++
      [line (lit "remeshing " ++ int_text (Z.of_nat n) ++ lit " x " ++ int_text (Z.of_nat m) ++ lit " cell grid based on");
       line (lit "located corner points " ++ corners_text fmt (ra_lon1 a) (ra_lat1 a) (ra_lon2 a) (ra_lat2 a));
       count_line (Z.of_nat (rr_ni r)) (Z.of_nat (rr_nj r)) (ra_lon_subscale a) (ra_lat_subscale a)] ++ rest.
Proof.
  unfold regrid_fromV. cbv zeta. intros H. do 2 ook H. cbn [snd still] in Hx, Hx0.
  assert (D : d XG = Arr (fst x) /\ d YG = Arr (snd x)).
  { unfold xg_yg in Hx. destruct (d XG), (d YG); try discriminate. injection Hx as <-. auto. }
  destruct D as (D1 & D2).
  pose proof (locate_known _ _ _ _ _ Hx0) as (K3 & K4).
  assert (E0 : lc_xg x0 = fst x /\ lc_yg x0 = snd x).
  { unfold locate in Hx0. apply rbind_ok in Hx0 as (((i, j), d1) & _ & Hx0). apply rbind_ok in Hx0 as (((i', j'), d') & _ & Hx0).
    injection Hx0 as <-. auto. }
  destruct E0 as (E1 & E2).
  destruct (_ || _); [discriminate|].
  do 6 ook H. injection H as <-.
  pose proof (rot_loopV_aligned _ _ _ _ _ Hx1) as A.
  destruct (rot_loopV_says _ _ _ _ K3 K4 Hx1) as (K5 & K6 & turns & Et & Ex & Ey). rewrite E1 in Ex. rewrite E2 in Ey.
  pose proof (aligned_known _ A K5 K6) as (I & J).
  cbn [snd still] in Hx3. apply alloc_ok in Hx3 as (R1 & R2).
  set (n := Z.to_nat (Z.max (fst (lc_nw x1)) (fst (lc_se x1))) - Z.to_nat (Z.min (fst (lc_nw x1)) (fst (lc_se x1)))) in *.
  set (m := Z.to_nat (Z.max (snd (lc_nw x1)) (snd (lc_se x1))) - Z.to_nat (Z.min (snd (lc_nw x1)) (snd (lc_se x1)))) in *.
  assert (Hn : Z.abs (fst (lc_nw x1) - fst (lc_se x1)) = Z.of_nat n) by lia.
  assert (Hm : Z.abs (snd (lc_nw x1) - snd (lc_se x1)) = Z.of_nat m) by lia.
  assert (L1 : (0 <= ra_lon_subscale a)%Z) by nia. assert (L2 : (0 <= ra_lat_subscale a)%Z) by nia.
  exists (fst x), (snd x), turns, n, m. eexists. split; [exact D1|]. split; [exact D2|].
  cbn [rr_dict rr_ni rr_nj].
  split; [unfold setd; cbn [field_beq]; now rewrite Ex|]. split; [unfold setd; cbn [field_beq]; now rewrite Ey|].
  split; [reflexivity|]. split; [reflexivity|]. split; [auto|].
  rewrite Et. cbn [fst still say app]. rewrite <- ?app_assoc. unfold remesh_text, count_line. rewrite Hn, Hm.
  replace (Z.of_nat n * ra_lon_subscale a)%Z with (Z.of_nat (Z.to_nat (ra_lon_subscale a) * n)) by nia.
  replace (Z.of_nat m * ra_lat_subscale a)%Z with (Z.of_nat (Z.to_nat (ra_lat_subscale a) * m)) by nia.
  cbn [app]. reflexivity.
Qed.

(** ** Reading *)
Lemma read_fieldV_ok raw ni nj strict g f g' : snd (read_fieldV N true raw ni nj strict g f) = Ok g' ->
  fst (read_fieldV N true raw ni nj strict g f) =
    [Text (lit "formatting " ++ padr " " 3 (field_name f) ++ lit " (" ++ int_text (ni + Z.of_nat (ni_delta f))
             ++ lit "x" ++ int_text (nj + Z.of_nat (nj_delta f)) ++ lit ")... "); Text (lit " done." ++ newline)].
Proof. rewrite read_fieldV_snd. unfold read_fieldV, still, obind. cbn [snd]. intros ->. reflexivity. Qed.

Lemma ofold_ok {S X} (body : S -> X -> out F S) (m : X -> list (item F)) l : forall s s',
  (forall s x s', snd (body s x) = Ok s' -> fst (body s x) = m x) ->
  snd (ofold body l s) = Ok s' -> fst (ofold body l s) = flat_map m l.
Proof.
  induction l as [|x l IH]; intros s s' Hm H; [reflexivity|]. cbn [ofold flat_map] in *. ook H.
  rewrite (Hm _ _ _ Hx). f_equal. eapply IH; eauto.
Qed.

Lemma read_tileV_says fs p ni nj strict g : snd (read_tileV N C true fs p ni nj strict) = Ok g ->
  fst (read_tileV N C true fs p ni nj strict) =
    Text (lit "reading " ++ int_text (16 * ((ni + 1) * (nj + 1))) ++ lit " doubles from " ++ path_text p ++ lit "... ")
    :: Text (lit " done." ++ newline)
    :: flat_map (fun f => [Text (lit "formatting " ++ padr " " 3 (field_name f) ++ lit " (" ++ int_text (ni + Z.of_nat (ni_delta f))
             ++ lit "x" ++ int_text (nj + Z.of_nat (nj_delta f)) ++ lit ")... "); Text (lit " done." ++ newline)]) fields.
Proof.
  unfold read_tileV. intros H. do 3 ook H. cbn [fst say still app]. do 2 f_equal.
  eapply ofold_ok; [|exact H]. intros s f s' E. now apply read_fieldV_ok in E.
Qed.

(** ** The last message *)
Definition done_line : item F := line (lit "...done.").
Definition not_done {A} (o : out F A) : Prop := Forall (fun i => i <> done_line) (fst o).

Lemma nd_obind {A B} (o : out F A) (k : A -> out F B) : not_done o -> (forall a, not_done (k a)) -> not_done (obind o k).
Proof. unfold not_done, obind. intros H K. destruct (snd o); cbn [fst]; [|exact H]. apply Forall_app. auto. Qed.
Lemma nd_still {A} (r : res A) : not_done (still r).
Proof. constructor. Qed.
Lemma nd_say v l : Forall (fun i => i <> done_line) l -> not_done (say v l).
Proof. unfold not_done, say. destruct v; [auto|constructor]. Qed.
Lemma nd_ofold {S X} (body : S -> X -> out F S) l : (forall s x, not_done (body s x)) -> forall s, not_done (ofold body l s).
Proof. intros H. induction l as [|x l IH]; intros s; [constructor|]. cbn [ofold]. apply nd_obind; auto. Qed.

Ltac other := let K := fresh in intros K; (discriminate K || (apply (f_equal (fun i => match i with Text t => t | _ => [] end)) in K; discriminate K)).
Ltac nd := repeat match goal with
  | |- not_done (still _) => apply nd_still
  | |- not_done (say _ _) => apply nd_say
  | |- not_done (obind _ _) => apply nd_obind; [|intros ?]
  | |- Forall _ (_ :: _) => constructor; [other|]
  | |- Forall _ [] => constructor
  end.

Section V.
Variable v : bool.
Lemma read_tileV_nd fs p ni nj strict : not_done (read_tileV N C v fs p ni nj strict).
Proof. unfold read_tileV. nd. apply nd_ofold. intros. unfold read_fieldV. nd. Qed.
Lemma fillV_nd cg ilb iub jlb jub ls lt : not_done (fillV N G v cg ilb iub jlb jub ls lt).
Proof. unfold fillV, both. nd. Qed.
Lemma finishV_nd cg p q ls lt : not_done (finishV N G v cg p q ls lt).
Proof.
  unfold finishV. apply nd_obind; [apply fillV_nd|]. intros g. unfold tomitgridV, edgesV, areasV, fieldV, shown. cbn [app]. nd.
Qed.
Lemma mkgridV_nd lon1 lat1 lon2 lat2 ls lt : not_done (mkgridV N G fmt v lon1 lat1 lon2 lat2 ls lt).
Proof.
  unfold mkgridV. nd.
  - destruct lon1, lat1, lon2, lat2; try (destruct v; apply nd_still). nd.
  - destruct ls, lt; nd; apply finishV_nd.
Qed.
Lemma rot_loopV_nd fuel a : forall l, not_done (rot_loopV N G v fuel a l).
Proof. induction fuel as [|n IH]; intros l; cbn [rot_loopV]; destruct (aligned l); nd. apply IH. Qed.
Lemma regrid_fromV_nd lay o3 fuel a d : not_done (regrid_fromV N G fmt v lay o3 fuel a d).
Proof.
  unfold regrid_fromV, remesh_text, both. cbn [app]. nd. destruct (_ || _); nd; [apply rot_loopV_nd|apply finishV_nd].
Qed.
Lemma addfringeV_nd fs t : not_done (addfringeV N C G v fs t).
Proof.
  unfold addfringeV, fringeV, matchedgesV, fill_stripV. nd; try apply read_tileV_nd; try apply finishV_nd.
  - unfold match_text, edge_name. constructor; [|constructor]. destruct (fst _ =? eW); [other|].
    destruct (fst _ =? eE); [other|]. destruct (fst _ =? eS); other.
  - destruct (_ || _); apply fillV_nd.
Qed.
Lemma stitchV_nd fs t : not_done (stitchV N C G v fs t).
Proof.
  unfold stitchV. apply nd_obind; [apply addfringeV_nd|]. intros ((ea, eb), a). nd. apply read_tileV_nd.
Qed.
Lemma computeV_nd lay o3 loadtxt fuel fs c : not_done (computeV N C G fmt v lay o3 loadtxt fuel fs c).
Proof.
  destruct c; cbn [computeV]; nd.
  - unfold sourceV. destruct (str_arg _); nd. destruct (_ && _); nd. apply read_tileV_nd.
  - apply regrid_fromV_nd.
  - apply addfringeV_nd.
  - destruct a0 as ((ea, eb), g). nd.
  - apply stitchV_nd.
  - destruct a0 as ((g, ni), nj). nd.
Qed.
End V.

Lemma writing_not_done b p ni nj : line (writing_text b p ni nj) <> done_line.
Proof. unfold writing_text. destruct b; other. Qed.

(** ** The size of the file *)
Lemma paddedZ_size e ni nj f m : paddedZ N e ni nj f = Ok m ->
  (0 <= ni + 1 /\ 0 <= nj + 1)%Z /\ mrows m = Z.to_nat (ni + 1) /\ mcols m = Z.to_nat (nj + 1).
Proof.
  unfold paddedZ. destruct (Z.ltb_spec (ni + 1) 0), (Z.ltb_spec (nj + 1) 0); try discriminate. cbn [orb].
  destruct e as [| |x]; try discriminate.
  - intros H1. injection H1 as <-. auto.
  - destruct (_ && _); [|discriminate]. intros H1. injection H1 as <-. auto.
Qed.

Lemma write_mitgridZ_size (CL : codeclaws C) d ni nj bs : write_mitgridZ N C d ni nj = (bs, Ok tt) ->
  Z.of_nat (length bs) = (128 * (ni + 1) * (nj + 1))%Z.
Proof.
  unfold write_mitgridZ.
  assert (K : forall l bs, write_fieldsZ N C d ni nj l = (bs, Ok tt) ->
     Z.of_nat (length bs) = (8 * (ni + 1) * (nj + 1) * Z.of_nat (length l))%Z).
  { induction l as [|f l IH]; intros b; cbn [write_fieldsZ].
    - intros H. injection H as <-. cbn [length]. lia.
    - destruct (paddedZ N (d f) ni nj f) as [m|] eqn:E; [|discriminate]. destruct (write_fieldsZ N C d ni nj l) as (b', o) eqn:W.
      intros H. injection H as <- ->. specialize (IH b' eq_refl). apply paddedZ_size in E as (P & R & Q).
      rewrite app_length, (tofile_length C CL). rewrite ravelF_length.
      rewrite R, Q. cbn [length]. nia. }
  intros H. apply K in H. rewrite H. cbn [length fields]. lia.
Qed.
End Says.
