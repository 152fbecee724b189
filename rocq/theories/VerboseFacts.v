From Coq Require Import Ascii String List Bool PeanoNat ZArith Init.Byte Lia.
Import ListNotations.
From Verif Require Import Prelude PreludeFacts Num Mat MatFacts Fields GridIO ComputeGrid ComputeGridFacts Refine RefineFacts MkGrid Regrid
  MatchEdges AddFringe Stitch Cli MdsMeta Counts Verbose.
Local Open Scope nat_scope.
Local Open Scope list_scope.
Local Arguments Nat.mul : simpl never.

Section Facts.
Context {F : Type} (N : numops F) (C : codec F) (G : geod F).
Variable fmt : F -> text.
Notation pt := (F * F)%type.

Lemma snd_obind {A B} (o : out F A) (k : A -> out F B) : snd (obind o k) = rbind (snd o) (fun a => snd (k a)).
Proof. unfold obind. now destruct (snd o). Qed.
Lemma snd_still {A} (r : res A) : snd (still (F := F) r) = r.
Proof. reflexivity. Qed.
Lemma snd_say v l : snd (say (F := F) v l) = Ok tt.
Proof. reflexivity. Qed.
Lemma snd_ofold {S X} (body : S -> X -> out F S) l : forall s,
  snd (ofold body l s) = foldM (fun s x => snd (body s x)) l s.
Proof.
  induction l as [|x l IH]; intros s; [reflexivity|]. cbn [ofold foldM]. rewrite snd_obind.
  destruct (snd (body s x)); [apply IH|reflexivity].
Qed.
Lemma foldM_ext {S X} (f g : S -> X -> res S) l : (forall s x, f s x = g s x) -> forall s, foldM f l s = foldM g l s.
Proof. intros E. induction l as [|x l IH]; intros s; [reflexivity|]. cbn [foldM]. rewrite E. destruct (g s x); [apply IH|reflexivity]. Qed.

Ltac step := repeat (progress (rewrite ?snd_obind, ?snd_still, ?snd_say; cbn [rbind])).

Section V.
Variable v : bool.

Lemma read_fieldV_snd raw ni nj strict g f :
  snd (read_fieldV N v raw ni nj strict g f) = read_fieldZ N raw ni nj strict g f.
Proof. unfold read_fieldV. step. now destruct (read_fieldZ _ _ _ _ _ _ _). Qed.

Lemma read_tileV_snd fs p ni nj strict :
  snd (read_tileV N C v fs p ni nj strict) = read_tileZ N C fs p ni nj strict.
Proof.
  unfold read_tileV, read_tileZ, read_bytes. step. destruct (fs p) as [bs|]; [|reflexivity]. cbn [rbind]. step.
  rewrite snd_ofold. unfold read_mitgridZ. apply foldM_ext. intros. apply read_fieldV_snd.
Qed.

Lemma fillV_snd cg ilb iub jlb jub ls lt :
  snd (fillV N G v cg ilb iub jlb jub ls lt) = fill N G cg ilb iub jlb jub ls lt.
Proof.
  unfold fillV, fill, fill_ord. step. destruct (nditer _ _ _ _ _ cg) as [g1|]; [|reflexivity]. cbn [rbind]. step.
  destruct (nditer _ _ _ _ _ g1); reflexivity.
Qed.

Lemma fieldV_snd f r : snd (fieldV (F := F) v f r) = r.
Proof. unfold fieldV. step. now destruct r. Qed.

Lemma tomitgridV_snd cg iLB ilb iub iUB jLB jlb jub jUB :
  snd (tomitgridV N G v cg iLB ilb iub iUB jLB jlb jub jUB) = tomitgrid N G cg iLB ilb iub iUB jLB jlb jub jUB.
Proof.
  unfold tomitgridV, tomitgrid, edgesV. step.
  destruct (edges _ _ _ _ _ _ _) as [(ex, ey)|]; [|reflexivity]. cbn [rbind fst snd]. step. unfold areasV. step.
  destruct (areas _ _ _ _ _) as [ar|]; [|reflexivity]. cbn [rbind]. step.
  destruct (mset_block _ _ _ _ _ _) as [ca|]; [|reflexivity]. cbn [rbind].
  repeat (rewrite snd_obind, ?fieldV_snd, ?snd_say, ?snd_still; cbn [rbind fst snd];
          try match goal with |- rbind ?r _ = rbind ?r _ => destruct r; [cbn [rbind]|reflexivity] end).
  reflexivity.
Qed.

Lemma finishV_snd cg p q ls lt : snd (finishV N G v cg p q ls lt) = finish N G cg p q ls lt.
Proof.
  unfold finishV, finish. rewrite snd_obind, fillV_snd. destruct (fill _ _ _ _ _ _ _ _ _); [|reflexivity].
  cbn [rbind]. apply tomitgridV_snd.
Qed.

Lemma fill_zero_step cg ilb iub jlb jub ls lt : ls = 0 \/ lt = 0 ->
  fill N G cg ilb iub jlb jub ls lt = Err (ValueError "slice step cannot be zero").
Proof.
  intros H. unfold fill, fill_ord, nditer.
  assert (E : (negb (2 * ls =? 0) && negb (2 * lt =? 0))%bool = false)
    by (destruct H as [-> | ->]; cbn; now rewrite ?andb_false_r).
  now rewrite E.
Qed.

Lemma alloc_cg rows cols ls lt : cg_check rows cols ls lt =
  (_ <- alloc_check rows cols ;;
   if ((ls =? 0) || (lt =? 0))%Z then Err (ValueError "slice step cannot be zero") else Ok tt).
Proof.
  unfold cg_check, alloc_check. destruct (_ || _); [reflexivity|]. destruct (_ || _); reflexivity.
Qed.

Lemma alloc_ok rows cols u : alloc_check rows cols = Ok u -> (2 <= rows /\ 2 <= cols)%Z.
Proof.
  unfold alloc_check.
  destruct (Z.ltb_spec rows 0), (Z.ltb_spec cols 0), (Z.ltb_spec rows 2), (Z.ltb_spec cols 2); cbn [orb];
    try discriminate; intros; lia.
Qed.

Lemma mk_corners_any lon1 lat1 lon2 lat2 iub jub : 1 <= iub -> 1 <= jub ->
  exists cg, mk_corners N lon1 lat1 lon2 lat2 iub jub = Ok cg.
Proof.
  intros A B. unfold mk_corners.
  repeat match goal with
  | |- context [mset ?m ?i ?j ?x] =>
      let E := fresh in destruct (mset_ok m i j x) as (? & E & ? & ?);
      [cbn [mrows mcols mconst] in *; lia..|]; rewrite E; cbn [rbind]
  end; eauto.
Qed.

(** The result of mkgrid does not depend on the flag if the coordinates are given. *)
Lemma mkgridV_snd lon1 lat1 lon2 lat2 ls lt : v = false \/ ~ In None [lon1; lat1; lon2; lat2] ->
  snd (mkgridV N G fmt v lon1 lat1 lon2 lat2 ls lt) =
  match ls, lt with
  | Some ls, Some lt => mkgrid N G (as_double N lon1) (as_double N lat1) (as_double N lon2) (as_double N lat2) ls lt
  | _, _ => Err TypeError
  end.
Proof.
  intros H. unfold mkgridV. step.
  match goal with |- rbind (snd ?m) _ = _ => assert (E : snd m = Ok tt) end.
  { destruct lon1, lat1, lon2, lat2; try reflexivity;
      (destruct H as [-> |K]; [reflexivity|destruct K; cbn; now auto 10]). }
  rewrite E. cbn [rbind]. destruct ls as [lss|], lt as [lts|]; try reflexivity. step.
  unfold mkgrid. rewrite alloc_cg. destruct (alloc_check _ _) as [u|] eqn:A; [|reflexivity]. apply alloc_ok in A as (A1 & A2).
  cbn [rbind]. step.
  destruct ((lss =? 0) || (lts =? 0))%Z eqn:Z0; cbn [rbind].
  - destruct (mk_corners_any (as_double N lon1) (as_double N lat1) (as_double N lon2) (as_double N lat2)
      (1 + 2 * Z.to_nat lss) (1 + 2 * Z.to_nat lts)) as (cg & ->); try lia. cbn [rbind]. step.
    rewrite finishV_snd. unfold finish. rewrite fill_zero_step; [reflexivity|].
    apply orb_true_iff in Z0 as [Z0|Z0]; apply Z.eqb_eq in Z0; subst; auto.
  - destruct (mk_corners _ _ _ _ _ _ _) as [cg|]; [|reflexivity]. cbn [rbind]. step. rewrite finishV_snd.
    now destruct (finish _ _ _ _ _ _ _).
Qed.

Lemma mkgridV_none lon1 lat1 lon2 lat2 ls lt : v = true -> In None [lon1; lat1; lon2; lat2] ->
  mkgridV N G fmt v lon1 lat1 lon2 lat2 ls lt =
  ([line (lit "creating simple " ++ count_text ls ++ lit " x " ++ count_text lt ++ lit " rectangular grid between the extents")],
   Err TypeError).
Proof.
  intros -> H. unfold mkgridV.
  destruct lon1, lat1, lon2, lat2; try reflexivity.
  cbn in H. intuition discriminate.
Qed.

Lemma rot_loopV_snd fuel a : forall l, snd (rot_loopV N G v fuel a l) = rot_loop N G fuel a l.
Proof.
  induction fuel as [|n IH]; intros l; cbn [rot_loopV rot_loop]; destruct (aligned l); try reflexivity. step.
  destruct (locate _ _ _ _ _ _) as [l'|]; [|reflexivity]. cbn [rbind]. step. apply IH.
Qed.

Lemma scatter_any (o3 : nat -> nat -> list (nat * nat)) r c ls lt (val : nat -> nat -> pt) cg : order_ok o3 ->
  (forall a b, a < r -> b < c -> 1 + 2 * ls * a < mrows cg /\ 1 + 2 * lt * b < mcols cg) ->
  exists cg', scatter o3 r c ls lt val cg = Ok cg'.
Proof.
  intros Ho H. unfold scatter.
  destruct (foldM_inv (fun g ab => mset g (1 + 2 * ls * fst ab) (1 + 2 * lt * snd ab) (val (fst ab) (snd ab)))
    (fun _ g => mrows g = mrows cg /\ mcols g = mcols cg) (o3 r c) cg) as (s & E & _); [auto| |eauto].
  intros dn x rest s El (Er & Ec). assert (I : In x (o3 r c)) by (rewrite El; apply in_elt).
  destruct x as (a, b). apply (order_in o3) in I; auto. destruct (H a b) as (H1 & H2); try tauto. cbn [fst snd].
  destruct (mset_ok s (1 + 2 * ls * a) (1 + 2 * lt * b) (val a b)) as (s' & E & Hr & Hc & _); try lia.
  exists s'. split; [exact E|]. split; congruence.
Qed.

Variables lay o3 : nat -> nat -> list (nat * nat).
Hypothesis Ho3 : order_ok o3.

Lemma regrid_fromV_snd fuel a d :
  snd (regrid_fromV N G fmt v lay o3 fuel a d) = regrid_from N G lay o3 fuel a d.
Proof.
  unfold regrid_fromV, regrid_from. step. destruct (xg_yg d) as [(xg, yg)|]; [|reflexivity]. cbn [rbind fst snd]. step.
  destruct (locate _ _ _ _ _ _) as [l0|]; [|reflexivity]. cbn [rbind]. destruct (_ || _); [reflexivity|]. step.
  rewrite rot_loopV_snd. destruct (rot_loop _ _ _ _ _) as [l|]; [|reflexivity]. cbn [rbind]. step.
  rewrite alloc_cg.
  set (n := Z.to_nat (Z.max (fst (lc_nw l)) (fst (lc_se l))) - Z.to_nat (Z.min (fst (lc_nw l)) (fst (lc_se l)))).
  set (m := Z.to_nat (Z.max (snd (lc_nw l)) (snd (lc_se l))) - Z.to_nat (Z.min (snd (lc_nw l)) (snd (lc_se l)))).
  set (val := fun i j => (mat_at (lc_xg l) _ _, mat_at (lc_yg l) _ _)).
  destruct (alloc_check _ _) as [u|] eqn:A; [|reflexivity]. cbn [rbind]. step.
  destruct ((ra_lon_subscale a =? 0) || (ra_lat_subscale a =? 0))%Z eqn:Z0; cbn [rbind].
  - edestruct (scatter_any o3 (n + 1) (m + 1) (Z.to_nat (ra_lon_subscale a)) (Z.to_nat (ra_lat_subscale a)) val) as (cg & E);
      [exact Ho3| |rewrite E].
    { cbn [mrows mcols mconst]. intros; split; nia. }
    cbn [rbind]. step. rewrite finishV_snd. unfold finish. rewrite fill_zero_step; [reflexivity|].
    apply orb_true_iff in Z0 as [Z0|Z0]; apply Z.eqb_eq in Z0; rewrite Z0; auto.
  - destruct (scatter _ _ _ _ _ _ _) as [cg|]; [|reflexivity]. cbn [rbind]. step. rewrite finishV_snd.
    now destruct (finish _ _ _ _ _ _ _).
Qed.

Lemma matchedgesV_snd a b : snd (matchedgesV N G v a b) = matchedges N G a b.
Proof.
  unfold matchedgesV, matchedges. step. destruct (corner4 a) as [ca|]; [|reflexivity]. cbn [rbind]. step.
  destruct (corner4 b) as [cb|]; [|reflexivity]. cbn [rbind]. step.
  destruct (decide4 _ _ _ _) as [(ea, eb)|]; [|reflexivity]. cbn [rbind fst snd]. step.
  destruct (MatchEdges.strip _ _ _ _ _) as [g|]; [|reflexivity]. cbn [rbind]. step.
  unfold fill_stripV, fill_strip. destruct (_ || _); rewrite fillV_snd; destruct (fill _ _ _ _ _ _ _ _ _); reflexivity.
Qed.

Lemma fringeV_snd a b : snd (fringeV N G v a b) = fringe N G a b.
Proof.
  unfold fringeV, fringe. rewrite snd_obind, matchedgesV_snd. destruct (matchedges _ _ _ _) as [m|]; [|reflexivity].
  cbn [rbind]. step. destruct (fringe_cg _ _ _) as [cg|]; [|reflexivity]. cbn [rbind]. rewrite snd_obind, finishV_snd.
  destruct (finish _ _ _ _ _ _ _) as [new|]; [|reflexivity]. cbn [rbind]. step. now destruct (foldM _ _ _).
Qed.

Lemma addfringeV_snd fs t : snd (addfringeV N C G v fs t) = addfringeZ N C G fs t.
Proof.
  unfold addfringeV, addfringeZ. rewrite snd_obind, read_tileV_snd. destruct (read_tileZ _ _ _ _ _ _ _); [|reflexivity].
  cbn [rbind]. rewrite snd_obind, read_tileV_snd. destruct (read_tileZ _ _ _ _ _ _ _); [|reflexivity].
  cbn [rbind]. apply fringeV_snd.
Qed.

Lemma stitchV_snd fs t : snd (stitchV N C G v fs t) = stitchZ N C G fs t.
Proof.
  unfold stitchV, stitchZ. rewrite snd_obind, addfringeV_snd. destruct (addfringeZ _ _ _ _ _) as [((ea, eb), a)|]; [|reflexivity].
  cbn [rbind]. rewrite snd_obind, read_tileV_snd. now destruct (read_tileZ _ _ _ _ _ _ _).
Qed.

Variable loadtxt : list byte -> res (option (mat F)).

Lemma sourceV_snd fs mg xg yg ni nj strict :
  snd (sourceV N C v loadtxt fs mg xg yg ni nj strict) = sourceZ N C loadtxt fs mg xg yg ni nj strict.
Proof.
  unfold sourceV, sourceZ. destruct (str_arg mg) as [p|]; [|reflexivity]. destruct (_ && _); [|reflexivity].
  rewrite snd_obind, read_tileV_snd. unfold read_tileZ, read_bytes. destruct (fs p); [|reflexivity]. cbn [rbind].
  now destruct (read_mitgridZ _ _ _ _ _ _).
Qed.

Variable fuel : nat.

Lemma computeV_snd fs c :
  snd (computeV N C G fmt v lay o3 loadtxt fuel fs c) = computeZ N C G loadtxt lay o3 fuel fs c.
Proof.
  destruct c; cbn [computeV computeZ].
  - rewrite snd_obind, sourceV_snd. destruct (sourceZ _ _ _ _ _ _ _ _ _ _) as [d|]; [|reflexivity]. cbn [rbind].
    rewrite snd_obind, regrid_fromV_snd. now destruct (regrid_from _ _ _ _ _ _ _).
  - step. rewrite addfringeV_snd. destruct (addfringeZ _ _ _ _ _) as [((ea, eb), a)|]; reflexivity.
  - step. rewrite stitchV_snd. destruct (stitchZ _ _ _ _ _) as [((ea, eb), a)|]; reflexivity.
Qed.

Lemma runV_snd w fs c :
  snd (runV N C G fmt v lay o3 loadtxt fuel w fs c) = runZ N C G loadtxt lay o3 fuel w fs c.
Proof.
  unfold runV, runZ. rewrite computeV_snd. destruct (computeZ _ _ _ _ _ _ _ _ _) as [((g, ni), nj)|]; [|reflexivity].
  cbn [snd]. unfold write_outV. destruct (w _); [|reflexivity]. now destruct (write_mitgridZ _ _ _ _ _).
Qed.
End V.

(** ** Nothing is printed without -v *)

Definition silent {A} (o : out F A) : Prop := fst o = [].

Lemma silent_obind {A B} (o : out F A) (k : A -> out F B) : silent o -> (forall a, silent (k a)) -> silent (obind o k).
Proof. unfold silent, obind. intros H K. destruct (snd o); cbn [fst]; rewrite H; [apply K|reflexivity]. Qed.
Lemma silent_still {A} (r : res A) : silent (still r).
Proof. reflexivity. Qed.
Lemma silent_say l : silent (say false l).
Proof. reflexivity. Qed.
Lemma silent_ofold {S X} (body : S -> X -> out F S) l : (forall s x, silent (body s x)) -> forall s, silent (ofold body l s).
Proof. intros H. induction l as [|x l IH]; intros s; [reflexivity|]. cbn [ofold]. apply silent_obind; auto. Qed.

Ltac sil := repeat match goal with
  | |- silent (still _) => apply silent_still
  | |- silent (say _ _) => apply silent_say
  | |- silent (obind _ _) => apply silent_obind; [|intros ?]
  end.

Lemma read_tileV_silent fs p ni nj strict : silent (read_tileV N C false fs p ni nj strict).
Proof. unfold read_tileV. sil. apply silent_ofold. intros. unfold read_fieldV. sil. Qed.
Lemma fillV_silent cg ilb iub jlb jub ls lt : silent (fillV N G false cg ilb iub jlb jub ls lt).
Proof. unfold fillV. sil. Qed.
Lemma finishV_silent cg p q ls lt : silent (finishV N G false cg p q ls lt).
Proof.
  unfold finishV. apply silent_obind; [apply fillV_silent|]. intros g. unfold tomitgridV, edgesV, areasV, fieldV. sil.
Qed.
Lemma mkgridV_silent lon1 lat1 lon2 lat2 ls lt : silent (mkgridV N G fmt false lon1 lat1 lon2 lat2 ls lt).
Proof.
  unfold mkgridV. sil.
  - destruct lon1, lat1, lon2, lat2; sil.
  - destruct ls, lt; sil; apply finishV_silent.
Qed.
Lemma rot_loopV_silent fuel a : forall l, silent (rot_loopV N G false fuel a l).
Proof. induction fuel as [|n IH]; intros l; cbn [rot_loopV]; destruct (aligned l); sil. apply IH. Qed.
Lemma regrid_fromV_silent lay o3 fuel a d : silent (regrid_fromV N G fmt false lay o3 fuel a d).
Proof. unfold regrid_fromV. sil. destruct (_ || _); sil; [apply rot_loopV_silent|apply finishV_silent]. Qed.
Lemma addfringeV_silent fs t : silent (addfringeV N C G false fs t).
Proof.
  unfold addfringeV, fringeV, matchedgesV, fill_stripV. sil; try apply read_tileV_silent; try apply finishV_silent.
  destruct (_ || _); apply fillV_silent.
Qed.
Lemma stitchV_silent fs t : silent (stitchV N C G false fs t).
Proof.
  unfold stitchV. apply silent_obind; [apply addfringeV_silent|]. intros ((ea, eb), a). sil. apply read_tileV_silent.
Qed.
Lemma computeV_silent lay o3 loadtxt fuel fs c : silent (computeV N C G fmt false lay o3 loadtxt fuel fs c).
Proof.
  destruct c; cbn [computeV]; sil.
  - unfold sourceV. destruct (str_arg _); sil. destruct (_ && _); sil. apply read_tileV_silent.
  - apply regrid_fromV_silent.
  - apply addfringeV_silent.
  - destruct a0 as ((ea, eb), g). sil.
  - apply stitchV_silent.
  - destruct a0 as ((g, ni), nj). sil.
Qed.
Lemma write_outV_silent b w fs p g ni nj : fst (write_outV N C false b w fs p g ni nj) = [].
Proof. unfold write_outV. cbn [fst app]. now destruct (snd _). Qed.
Lemma runV_silent lay o3 loadtxt fuel w fs c : fst (runV N C G fmt false lay o3 loadtxt fuel w fs c) = [].
Proof.
  unfold runV. pose proof (computeV_silent lay o3 loadtxt fuel fs c) as S. unfold silent in S.
  destruct (snd _) as [((g, ni), nj)|]; cbn [fst]; rewrite S; [apply write_outV_silent|reflexivity].
Qed.
Lemma run_mkgridV_silent w fs lon1 lat1 lon2 lat2 ls lt o :
  fst (run_mkgridV N C G fmt false w fs lon1 lat1 lon2 lat2 ls lt o) = [].
Proof.
  unfold run_mkgridV. pose proof (mkgridV_silent lon1 lat1 lon2 lat2 ls lt) as S. unfold silent in S.
  destruct (snd _) as [((g, ni), nj)|], o as [p|]; cbn [fst]; rewrite S; try reflexivity. apply write_outV_silent.
Qed.
End Facts.
