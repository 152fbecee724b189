(** rdmds with astype against rdmds without. *)
From Coq Require Import Ascii String List Bool PeanoNat ZArith Init.Byte FunctionalExtensionality Lia.
Import ListNotations.
From Verif Require Import Prelude Num MdsMeta Mds RdMds RdMdsAs.
Set Implicit Arguments.
Local Open Scope nat_scope.
Local Open Scope list_scope.

Definition rmap {A B} (f : A -> B) (r : res A) : res B := match r with Ok x => Ok (f x) | Err e => Err e end.

(** The precision of the files read (Double if none are). *)
Definition final_prec {F} (N : numops F) C8 C4 float_of fs fname it mf (o : rdopts F) : prec :=
  match itr_list fs fname it, typeprefix mf with
  | Ok itrs, Some od =>
      match foldD (iter_body N C8 C4 float_of fname (adds it) o od (length itrs)) (combine (seq 0 (length itrs)) itrs)
              (fs, mk_rdacc None [] []) with
      | (_, Ok (_, acc)) => match a_state acc with Some s => s_prec s | None => Double end
      | _ => Double
      end
  | _, _ => Double
  end.

Section AsFacts.
Context {F : Type} (N : numops F).
Variables (C8 C4 : codec F).
Variable float_of : text -> option F.
Variable ty : astype.
Hypothesis Hzero : forall p, cast C4 ty p (nzero N) = nzero N.

Lemma reshape_map c l sh : c (nzero N) = nzero N ->
  reshape N (map c l) sh = rmap (ndmap c) (reshape N l sh).
Proof.
  intros Z. unfold reshape. rewrite map_length. destruct (_ =? _); [|reflexivity]. cbn. f_equal. unfold ndmap. cbn.
  f_equal. extensionality idx. rewrite <- Z at 1. now rewrite map_nth.
Qed.

Lemma ravel_ndmap (c : F -> F) a : ravel (ndmap c a) = map c (ravel a).
Proof. unfold ravel, ndmap. cbn. now rewrite map_map. Qed.

Lemma assign_ndmap (c : F -> F) arr w v :
  assign (ndmap c arr) w (ndmap c v) = rmap (ndmap c) (assign arr w v).
Proof.
  unfold assign, broadcast. cbn [shape ndmap]. destruct (fits _ _); [|reflexivity]. cbn. f_equal. unfold ndmap. cbn.
  f_equal. extensionality idx. now destruct (v_place w idx).
Qed.

Definition smap (st : rdstate (F:=F)) : rdstate (F:=F) :=
  mk_rdstate (ndmap (cast C4 ty (s_prec st)) (s_arr st)) (s_prec st) (s_recshape st) (s_nrec st) (s_recs st)
    (s_region st) (s_meta st).

Lemma read_records_map o st od bs w ov recs : forall irec arr,
  read_records_as N C8 C4 ty o (smap st) od bs w ov irec recs (ndmap (cast C4 ty (s_prec st)) arr)
  = rmap (ndmap (cast C4 ty (s_prec st))) (read_records N C8 C4 o st od bs w ov irec recs arr).
Proof.
  induction recs as [|z r IH]; intros irec arr; cbn [read_records_as read_records]; [reflexivity|].
  cbn [s_prec s_recshape s_nrec smap].
  destruct (ov_any ov).
  - destruct (read_record _ _ _ _ _ _ _ _ _) as [rec|e]; [|reflexivity]. cbn [rbind].
    destruct (select _ _) as [v|e]; [|reflexivity]. cbn [rbind].
    destruct (subview _ _) as [sub|e]; [|reflexivity]. cbn [rbind].
    rewrite assign_ndmap. destruct (assign _ _ _) as [a'|e]; [|reflexivity]. cbn [rmap rbind]. apply IH.
  - destruct (_ <? 0)%Z; [reflexivity | apply IH].
Qed.

Definition dmap {A B} (f : A -> B) (x : directory * res A) : directory * res B := (fst x, rmap f (snd x)).

Lemma read_data_map fs o od st df w ov :
  read_data_as N C8 C4 ty fs o od (smap st) df w ov
  = dmap (ndmap (cast C4 ty (s_prec st))) (read_data N C8 C4 fs o od st df w ov).
Proof.
  unfold read_data_as, read_data. cbn [s_prec s_recshape s_nrec s_arr s_recs smap].
  destruct (_ || _).
  - destruct (ov_any ov); [|reflexivity].
    destruct (if o_memmap o then _ else _) as [fs' r]. unfold dmap. cbn [fst snd]. f_equal.
    destruct r as [t|e]; [|reflexivity]. cbn [rbind].
    destruct (select _ _) as [v|e]; [|reflexivity]. cbn [rbind]. apply assign_ndmap.
  - unfold dmap. cbn [fst snd]. f_equal. destruct (dget fs df); [|reflexivity]. apply read_records_map.
Qed.

Definition tmap (s : directory * option (rdstate (F:=F)) * option (filemeta (F:=F))) :=
  let '(fs, st, fm) := s in (fs, option_map smap st, fm).

Lemma read_tile_map o od nits iit s mf :
  read_tile_as N C8 C4 float_of ty o od nits iit (tmap s) mf
  = dmap tmap (read_tile_full N C8 C4 float_of o od nits iit s mf).
Proof.
  destruct s as [[fs st] fm0]. unfold tmap, read_tile_as, read_tile_full.
  destruct (dget fs mf) as [bs|]; [|reflexivity].
  destruct (readmeta_full float_of (byte_text bs)) as [fm|e]; [|reflexivity]. cbn [rbind].
  assert (E : match option_map smap st with
              | None => init_as C4 ty o nits (fm_tile fm)
              | Some s => if meta_eqb N (tm_meta (fm_tile fm)) (s_meta s) then Ok s
                          else Err (ValueError "Meta files not compatible") end
            = rmap smap (match st with
              | None => init_full o nits (fm_tile fm)
              | Some s => if meta_eqb N (tm_meta (fm_tile fm)) (s_meta s) then Ok s
                          else Err (ValueError "Meta files not compatible") end)).
  { destruct st as [s|]; cbn [option_map s_meta smap].
    - destruct (meta_eqb _ _ _); reflexivity.
    - unfold init_as. destruct (init_full o nits (fm_tile fm)); reflexivity. }
  rewrite E. clear E.
  destruct (match st with None => _ | Some _ => _ end) as [st1|e]; [|reflexivity]. cbn [rmap rbind].
  cbn [s_region s_arr smap ndmap shape].
  destruct (match o_region o with None => _ | Some _ => _ end) as [ov|e]; [|reflexivity]. cbn [rbind].
  destruct (match fm_map fm with None => _ | Some _ => _ end) as [w|e]; [|reflexivity]. cbn [rbind].
  rewrite read_data_map. destruct (read_data _ _ _ _ _ _ _ _ _ _) as [fs' r]. unfold dmap. cbn [fst snd].
  destruct r; reflexivity.
Qed.

Definition pmap (s : directory * (option (rdstate (F:=F)) * option (filemeta (F:=F)))) :=
  let '(fs, (st, fm)) := s in (fs, (option_map smap st, fm)).

Lemma tiles_map o od nits iit s mf :
  tiles_body_as N C8 C4 float_of ty o od nits iit (pmap s) mf
  = dmap pmap (tiles_body N C8 C4 float_of o od nits iit s mf).
Proof.
  destruct s as [fs [st fm]]. unfold pmap, tiles_body_as, tiles_body.
  pose proof (read_tile_map o od nits iit (fs, st, fm) mf) as H. cbn [tmap] in H. rewrite H. clear H.
  destruct (read_tile_full _ _ _ _ _ _ _ _ _ _) as [fs' [[[fs2 st'] fm']|e]]; reflexivity.
Qed.

Lemma foldD_map {S T X} (f : directory * S -> directory * T) b b' (l : list X) :
  (forall s, fst (f s) = fst s) -> (forall s x, b' (f s) x = dmap f (b s x)) ->
  forall s, foldD b' l (f s) = dmap f (foldD b l s).
Proof.
  intros Hf H. induction l as [|x r IH]; intros s; cbn [foldD].
  - unfold dmap. cbn. now rewrite Hf.
  - rewrite H. destruct (b s x) as [fs [s'|e]]; cbn; [apply IH | reflexivity].
Qed.

Definition amap (s : directory * rdacc (F:=F)) :=
  let '(fs, a) := s in (fs, mk_rdacc (option_map smap (a_state a)) (a_steps a) (a_intervals a)).

Lemma iter_map fname ad o od nits s ii :
  iter_body_as N C8 C4 float_of ty fname ad o od nits (amap s) ii
  = dmap amap (iter_body N C8 C4 float_of fname ad o od nits s ii).
Proof.
  destruct s as [fs acc]. unfold amap, iter_body_as, iter_body.
  destruct (metafiles_of _ _) as [mfs|e]; [|reflexivity]. cbn [a_state a_steps a_intervals].
  change (fs, (option_map smap (a_state acc), None (A:=filemeta (F:=F))))
    with (pmap (fs, (a_state acc, None (A:=filemeta (F:=F))))).
  rewrite foldD_map with (f := pmap) (b := tiles_body N C8 C4 float_of o od nits (fst ii)).
  - destruct (foldD _ _ _) as [fs' [[fs2 [st fm]]|e]]; reflexivity.
  - now intros [? [? ?]].
  - intros. apply tiles_map.
Qed.

Lemma drop_dims_map o il st :
  drop_dims N o il (s_arr (smap st)) = rmap (ndmap (cast C4 ty (s_prec st))) (drop_dims N o il (s_arr st)).
Proof.
  unfold drop_dims. cbn [s_arr smap]. rewrite ravel_ndmap. cbn [shape ndmap]. now apply reshape_map.
Qed.

Lemma meta_result_map acc :
  meta_result (mk_rdacc (option_map smap (a_state acc)) (a_steps acc) (a_intervals acc)) = meta_result acc.
Proof. destruct acc as [[s|] st iv]; reflexivity. Qed.

(** The call with a type, in terms of the call without. *)
Lemma rdmds_as_map fs fname it mf o :
  rdmds_as N C8 C4 float_of ty fs fname it mf o
  = dmap (fun r => let '(arr, its, meta) := r in
            (ndmap (cast C4 ty (final_prec N C8 C4 float_of fs fname it mf o)) arr, its, meta))
      (rdmds_full N C8 C4 float_of fs fname it mf o).
Proof.
  unfold rdmds_as, rdmds_full, final_prec.
  destruct (itr_list fs fname it) as [itrs|e]; [|reflexivity].
  destruct (typeprefix mf) as [od|]; [|reflexivity].
  change (fs, mk_rdacc (F:=F) None [] []) with (amap (fs, mk_rdacc (F:=F) None [] [])) at 1.
  rewrite foldD_map with (f := amap) (b := iter_body N C8 C4 float_of fname (adds it) o od (length itrs)).
  - destruct (foldD _ _ _) as [fs' [[fs2 acc]|e]]; [|reflexivity].
    unfold dmap. cbn [fst snd rmap amap]. rewrite meta_result_map. cbn [a_state].
    destruct (a_state acc) as [s|]; cbn [option_map].
    + rewrite drop_dims_map. destruct (drop_dims _ _ _ _); reflexivity.
    + cbn [rbind]. unfold ndmap. cbn. now rewrite Hzero.
  - now intros [? ?].
  - intros. apply iter_map.
Qed.

End AsFacts.

(** ** Numbers of a kind: if the fill value and the numbers of the files are, all elements are. *)
Section Kind.
Context {F : Type} (N : numops F).
Variables (C8 C4 : codec F).
Variable float_of : text -> option F.
Variable P : prec -> F -> Prop.
Hypothesis Pzero : forall p, P p (nzero N).
Hypothesis Pdec : forall p l, P p (dec (codec_of C8 C4 p) l).

Definition all_el p (a : nd F) : Prop := forall idx, P p (at_ a idx).
Definition ok_res {A} (Q : A -> Prop) (r : res A) : Prop := match r with Ok x => Q x | Err _ => True end.

Lemma items_kind k p od : forall bs, Forall (P p) (items C8 C4 k p od bs).
Proof.
  induction k as [|k IH]; intros bs; cbn [items]; constructor; [|apply IH]. unfold dec_item. destruct od; apply Pdec.
Qed.
Lemma reshape_kind p l sh : Forall (P p) l -> ok_res (all_el p) (reshape N l sh).
Proof.
  intros H. unfold reshape. destruct (_ =? _); [|exact I]. cbn. intros idx. cbn.
  destruct (nth_in_or_default (offset sh idx) l (nzero N)) as [I|E].
  - now apply (proj1 (Forall_forall _ _) H).
  - rewrite E. apply Pzero.
Qed.
Lemma select_kind p a sel v : all_el p a -> select a sel = Ok v -> all_el p v.
Proof.
  intros H. unfold select. destruct (axes _ _); [|discriminate]. cbn [rbind]. intros [= <-] idx. cbn. apply H.
Qed.
Lemma assign_kind p arr w v arr' : all_el p arr -> all_el p v -> assign arr w v = Ok arr' -> all_el p arr'.
Proof.
  intros A V. unfold assign, broadcast. destruct (fits _ _); [|discriminate]. cbn [rbind]. intros [= <-] idx. cbn.
  destruct (v_place w idx); [apply V | apply A].
Qed.

Lemma read_record_kind bs p od rs n z : ok_res (all_el p) (read_record N C8 C4 bs p od rs n z).
Proof.
  unfold read_record. destruct (_ <? 0)%Z; [exact I|]. apply reshape_kind, items_kind.
Qed.

Lemma read_records_kind o st od bs w ov recs : forall irec arr, all_el (s_prec st) arr ->
  ok_res (all_el (s_prec st)) (read_records N C8 C4 o st od bs w ov irec recs arr).
Proof.
  induction recs as [|z r IH]; intros irec arr A; cbn [read_records]; [exact A|]. destruct (ov_any ov).
  - pose proof (read_record_kind bs (s_prec st) od (s_recshape st) (s_nrec st) z) as R.
    destruct (read_record _ _ _ _ _ _ _ _ _) as [rec|e]; [|exact I]. cbn [rbind ok_res] in *.
    destruct (select _ _) as [v|e] eqn:S; [|exact I]. cbn [rbind].
    destruct (subview _ _) as [sub|e]; [|exact I]. cbn [rbind].
    destruct (assign _ _ _) as [a'|e] eqn:G; [|exact I]. cbn [rbind]. apply IH.
    eapply assign_kind; [exact A | eapply select_kind; eassumption | exact G].
  - destruct (_ <? 0)%Z; [exact I | now apply IH].
Qed.

Lemma read_data_kind fs o od st df w ov : all_el (s_prec st) (s_arr st) ->
  ok_res (all_el (s_prec st)) (snd (read_data N C8 C4 fs o od st df w ov)).
Proof.
  intros A. unfold read_data. destruct (_ || _).
  - destruct (ov_any ov); [|exact A].
    assert (R : ok_res (all_el (s_prec st)) (snd (if o_memmap o
        then memmap N C8 C4 fs df (s_prec st) od (s_nrec st :: s_recshape st)
        else (fs, match dget fs df with
                  | None => Err OSError
                  | Some bs => reshape N (fromfile_as C8 C4 (s_prec st) od bs) (s_nrec st :: s_recshape st)
                  end)))).
    { destruct (o_memmap o).
      - unfold memmap. destruct (dget fs df); [|exact I]. destruct (_ =? 0); [exact I|]. cbn [snd].
        apply reshape_kind, items_kind.
      - cbn [snd]. destruct (dget fs df); [|exact I]. apply reshape_kind, items_kind. }
    destruct (if o_memmap o then _ else _) as [fs' r]. cbn [snd] in *.
    destruct r as [t|e]; [|exact I]. cbn [rbind ok_res] in *.
    destruct (select _ _) as [v|e] eqn:S; [|exact I]. cbn [rbind].
    destruct (assign _ _ _) as [a'|e] eqn:G; [|exact I]. cbn.
    eapply assign_kind; [exact A | eapply select_kind; eassumption | exact G].
  - cbn [snd]. destruct (dget fs df); [|exact I]. now apply read_records_kind.
Qed.

Definition st_kind (st : option (rdstate (F:=F))) : Prop :=
  match st with Some s => all_el (s_prec s) (s_arr s) | None => True end.

Lemma init_kind o nits tm s : (forall p, P p (o_fill o)) -> init_full o nits tm = Ok s -> all_el (s_prec s) (s_arr s).
Proof.
  intros HF. unfold init_full.
  repeat match goal with
         | |- rbind ?x _ = Ok _ -> _ => destruct x; [|discriminate]; cbn [rbind]
         | |- (if ?x then _ else _) = Ok _ -> _ => destruct x; [discriminate|]
         end.
  intros H. injection H as <-. intros idx. cbn. apply HF.
Qed.

Lemma read_tile_kind o od nits iit fs st fm mf : (forall p, P p (o_fill o)) -> st_kind st ->
  ok_res (fun r => st_kind (snd (fst r))) (snd (read_tile_full N C8 C4 float_of o od nits iit (fs, st, fm) mf)).
Proof.
  intros HF A. unfold read_tile_full. destruct (dget fs mf) as [bs|]; [|exact I].
  destruct (readmeta_full float_of (byte_text bs)) as [f|e]; [|exact I]. cbn [rbind].
  destruct (match st with None => _ | Some _ => _ end) as [st1|e] eqn:E; [|exact I]. cbn [rbind].
  assert (A1 : all_el (s_prec st1) (s_arr st1)).
  { destruct st as [s|].
    - destruct (meta_eqb _ _ _); [|discriminate]. now injection E as <-.
    - eapply init_kind; eassumption. }
  destruct (match o_region o with None => _ | Some _ => _ end) as [ov|e]; [|exact I]. cbn [rbind].
  destruct (match fm_map f with None => _ | Some _ => _ end) as [w|e]; [|exact I]. cbn [rbind].
  pose proof (read_data_kind fs o od st1 (firstn (length mf - 4) mf ++ lit "data") w ov A1) as R.
  destruct (read_data _ _ _ _ _ _ _ _ _ _) as [fs' r]. cbn [snd] in *. destruct r as [a|e]; [exact R | exact I].
Qed.

Lemma foldD_kind {S X} (Q : S -> Prop) (b : directory * S -> X -> directory * res (directory * S)) l :
  (forall s x, Q (snd s) -> ok_res (fun r => Q (snd r)) (snd (b s x))) ->
  forall s, Q (snd s) -> ok_res (fun r => Q (snd r)) (snd (foldD b l s)).
Proof.
  intros H. induction l as [|x r IH]; intros s A; cbn [foldD]; [exact A|].
  specialize (H s x A). destruct (b s x) as [fs [s'|e]]; [now apply IH | exact I].
Qed.

Lemma iter_kind fname ad o od nits s ii : (forall p, P p (o_fill o)) -> st_kind (a_state (snd s)) ->
  ok_res (fun r => st_kind (a_state (snd r))) (snd (iter_body N C8 C4 float_of fname ad o od nits s ii)).
Proof.
  intros HF A. destruct s as [fs acc]. unfold iter_body.
  destruct (metafiles_of _ _) as [mfs|e]; [|exact I].
  pose proof (@foldD_kind _ _ (fun s => st_kind (fst s)) (tiles_body N C8 C4 float_of o od nits (fst ii)) mfs) as K.
  specialize (fun H => K H (fs, (a_state acc, None)) A).
  destruct (foldD _ _ _) as [fs' [[fs2 [st fm]]|e]]; [|exact I]. cbn [snd ok_res a_state fst] in *. apply K.
  intros [d [st0 fm0]] x B. cbn [snd fst] in B. unfold tiles_body.
  pose proof (read_tile_kind o od nits (fst ii) d st0 fm0 x HF B) as R.
  destruct (read_tile_full _ _ _ _ _ _ _ _ _ _) as [d' [[[d2 st'] fm']|e]]; exact R.
Qed.

(** The final state, whose precision all elements are of. *)
Lemma rdmds_kind fs fname it mf o : (forall p, P p (o_fill o)) ->
  ok_res (fun r => all_el (final_prec N C8 C4 float_of fs fname it mf o) (fst (fst r))) (snd (rdmds_full N C8 C4 float_of fs fname it mf o)).
Proof.
  intros HF. unfold rdmds_full, final_prec. destruct (itr_list fs fname it) as [itrs|e]; [|exact I].
  destruct (typeprefix mf) as [od|]; [|exact I].
  pose proof (@foldD_kind _ _ (fun a => st_kind (a_state a)) (iter_body N C8 C4 float_of fname (adds it) o od (length itrs))
    (combine (seq 0 (length itrs)) itrs)) as K.
  specialize (fun H => K H (fs, mk_rdacc None [] []) I).
  destruct (foldD _ _ _) as [fs' [[fs2 acc]|e]]; [|exact I]. cbn [snd ok_res] in *.
  assert (A : st_kind (a_state acc)) by (apply K; intros; now apply iter_kind).
  destruct (a_state acc) as [s|].
  - cbn [st_kind] in A. unfold drop_dims.
    match goal with |- context [reshape N (ravel (s_arr s)) ?sh] =>
      pose proof (@reshape_kind (s_prec s) (ravel (s_arr s)) sh) as R;
      destruct (reshape N (ravel (s_arr s)) sh) as [b|e]; [|exact I]
    end.
    cbn. apply R. apply Forall_forall. unfold ravel. intros x I. apply in_map_iff in I.
    destruct I as (idx & <- & _). apply A.
  - cbn. intros idx. apply Pzero.
Qed.

End Kind.
