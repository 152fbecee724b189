From Coq Require Import String Ascii List ZArith Bool PeanoNat Lia Init.Byte.
Import ListNotations.
From Verif Require Import Prelude PreludeFacts Num Mat Fields GridIO Regrid SpecRegrid.
Local Open Scope nat_scope.

(** ** os.path.splitext *)
Lemma last_index_from_app c l1 l2 k f :
  last_index_from c (l1 ++ l2) k f = last_index_from c l2 (k + length l1) (last_index_from c l1 k f).
Proof.
  revert k f. induction l1 as [|x l1 IH]; intros k f; cbn [app last_index_from length].
  - rewrite Nat.add_0_r. reflexivity.
  - rewrite IH. f_equal. lia.
Qed.
Lemma last_index_from_none c l k f : ~ In c l -> last_index_from c l k f = f.
Proof.
  revert k f. induction l as [|x l IH]; intros k f Hn; cbn [last_index_from]; auto.
  rewrite IH by (intros H; apply Hn; right; auto).
  destruct (Ascii.eqb_spec x c); auto. exfalso. apply Hn. left. auto.
Qed.
Lemma last_index_at c pre post : ~ In c post -> last_index c (pre ++ c :: post) = Some (length pre).
Proof.
  intros Hn. unfold last_index. rewrite last_index_from_app. cbn [last_index_from].
  rewrite last_index_from_none by auto. rewrite Ascii.eqb_refl. reflexivity.
Qed.
Lemma last_split (c : ascii) l : (~ In c l) \/ exists pre post, l = pre ++ c :: post /\ ~ In c post.
Proof.
  induction l as [|x l IH]; [left; auto|].
  destruct IH as [IH|(pre & post & -> & Hn)].
  - destruct (Ascii.eqb_spec x c) as [->|Hne].
    + right. exists [], l. auto.
    + left. intros [H|H]; auto.
  - right. exists (x :: pre), post. auto.
Qed.

Lemma string_of_list_inj l l' : string_of_list_ascii l = string_of_list_ascii l' -> l = l'.
Proof.
  intros H. rewrite <- (list_ascii_of_string_of_list_ascii l), <- (list_ascii_of_string_of_list_ascii l'), H.
  reflexivity.
Qed.

Lemma existsb_nondot l :
  existsb (fun c => negb (Ascii.eqb c "."%char)) l = true <-> exists c, In c l /\ c <> "."%char.
Proof.
  rewrite existsb_exists. split; intros (c & Hi & Hc); exists c; split; auto.
  - apply negb_true_iff in Hc. apply Ascii.eqb_neq. auto.
  - apply negb_true_iff. apply Ascii.eqb_neq. auto.
Qed.

Lemma ext_csv p : ext p = ".csv"%string <-> csv_name p.
Proof.
  unfold ext, csv_name. set (l := list_ascii_of_string p).
  split.
  - destruct (last_split "."%char l) as [Hno|(pre & post & El & Hpost)].
    { replace (last_index "."%char l) with (@None nat); [discriminate|]. symmetry. unfold last_index. apply last_index_from_none. auto. }
    assert (E1 : last_index "."%char l = Some (length pre)) by (rewrite El; apply last_index_at; auto).
    rewrite E1. clear E1.
    assert (Hdir : exists dir mid, l = dir ++ mid /\ ~ In "/"%char mid /\
      (dir = [] \/ exists d, dir = d ++ ["/"%char]) /\
      match last_index "/"%char l with Some k => S k | None => 0 end = length dir).
    { destruct (last_split "/"%char l) as [Hs|(d & m & Es & Hm)].
      - exists [], l. unfold last_index. rewrite last_index_from_none by auto. auto.
      - exists (d ++ ["/"%char]), m. rewrite Es. rewrite (last_index_at "/"%char d m Hm).
        rewrite <- app_assoc, app_length. cbn [length app]. split; auto. split; auto. split; [eauto|lia]. }
    destruct Hdir as (dir & mid & Ed & Hm & Hdir & ->).
    destruct (Nat.leb_spec (length dir) (length pre)) as [Hle|]; [|discriminate].
    assert (Esk : skipn (length pre) l = "."%char :: post).
    { rewrite El, skipn_app, skipn_all, Nat.sub_diag. reflexivity. }
    destruct (existsb _ _) eqn:Ex; cbn [andb]; [|discriminate]. intros Hcsv.
    rewrite Esk in Hcsv. change ".csv"%string with (string_of_list_ascii [".";"c";"s";"v"]%char) in Hcsv.
    apply string_of_list_inj in Hcsv. rewrite Hcsv in El.
    assert (Emid : exists m1, pre = dir ++ m1 /\ mid = m1 ++ [".";"c";"s";"v"]%char).
    { exists (skipn (length dir) pre).
      assert (E1 : dir = firstn (length dir) pre).
      { transitivity (firstn (length dir) l).
        - rewrite Ed, firstn_app, Nat.sub_diag, firstn_all. cbn. rewrite app_nil_r. reflexivity.
        - rewrite El, firstn_app. replace (length dir - length pre) with 0 by lia. cbn. rewrite app_nil_r. reflexivity. }
      assert (E2 : pre = dir ++ skipn (length dir) pre) by (rewrite E1 at 1; rewrite E1 at 1; rewrite <- E1; rewrite firstn_skipn; auto).
      split; auto. rewrite Ed in El. rewrite E2 in El. rewrite <- app_assoc in El. apply app_inv_head in El. auto. }
    destruct Emid as (m1 & Ep & Em).
    replace (firstn (length pre - length dir) (skipn (length dir) l)) with m1 in Ex.
    2:{ rewrite Ed, Em, Ep, skipn_app, skipn_all, Nat.sub_diag, app_length. cbn [skipn app].
        replace (length dir + length m1 - length dir) with (length m1) by lia.
        rewrite firstn_app, firstn_all, Nat.sub_diag. cbn. rewrite app_nil_r. reflexivity. }
    apply existsb_nondot in Ex. destruct Ex as (c & Hc & Hnd). apply in_split in Hc.
    destruct Hc as (base & rest & Em1).
    exists dir, base, c, rest. split; [rewrite Ed, Em, Em1, <- app_assoc; reflexivity|].
    split; auto. split; auto. rewrite <- Em1. intros Hin. apply Hm. rewrite Em. apply in_or_app. auto.
  - intros (dir & base & c & rest & El & Hdir & Hns & Hnd).
    assert (E1 : last_index "."%char l = Some (length (dir ++ base ++ c :: rest))).
    { rewrite El. replace (dir ++ base ++ c :: rest ++ [".";"c";"s";"v"]%char)
        with ((dir ++ base ++ c :: rest) ++ "."%char :: ["c";"s";"v"]%char)
        by (rewrite <- !app_assoc; reflexivity).
      apply last_index_at. intros [H|[H|[H|[]]]]; discriminate. }
    rewrite E1.
    assert (E2 : match last_index "/"%char l with Some k => S k | None => 0 end = length dir).
    { assert (Htail : ~ In "/"%char (base ++ c :: rest ++ [".";"c";"s";"v"]%char)).
      { replace (base ++ c :: rest ++ [".";"c";"s";"v"]%char)
          with ((base ++ c :: rest) ++ [".";"c";"s";"v"]%char) by (rewrite <- !app_assoc; reflexivity).
        intros Hin. apply in_app_or in Hin. destruct Hin as [Hin|Hin]; auto.
        destruct Hin as [H|[H|[H|[H|[]]]]]; discriminate. }
      destruct Hdir as [->|(d & ->)].
      - rewrite El. cbn [app]. unfold last_index. rewrite last_index_from_none by auto. reflexivity.
      - rewrite El. rewrite <- app_assoc. cbn [app]. rewrite last_index_at by auto.
        rewrite app_length. cbn. lia. }
    rewrite E2.
    replace (length dir <=? length (dir ++ base ++ c :: rest)) with true
      by (symmetry; apply Nat.leb_le; rewrite app_length; lia).
    assert (E3 : firstn (length (dir ++ base ++ c :: rest) - length dir) (skipn (length dir) l) = base ++ c :: rest).
    { rewrite El, skipn_app, skipn_all, Nat.sub_diag. cbn [skipn app].
      rewrite app_length. replace (length dir + length (base ++ c :: rest) - length dir) with (length (base ++ c :: rest)) by lia.
      replace (base ++ c :: rest ++ [".";"c";"s";"v"]%char)
          with ((base ++ c :: rest) ++ [".";"c";"s";"v"]%char) by (rewrite <- !app_assoc; reflexivity).
      rewrite firstn_app, firstn_all, Nat.sub_diag. cbn [firstn]. rewrite app_nil_r. reflexivity. }
    rewrite E3. replace (existsb _ (base ++ c :: rest)) with true.
    2:{ symmetry. apply existsb_nondot. exists c. split; auto. apply in_or_app. right. left. auto. }
    cbn [andb].
    replace l with ((dir ++ base ++ c :: rest) ++ [".";"c";"s";"v"]%char)
      by (rewrite El, <- !app_assoc; reflexivity).
    rewrite skipn_app, skipn_all, Nat.sub_diag. reflexivity.
Qed.

(** ** the source *)
Section S.
Context {F : Type} (N : numops F) (C : codec F).
Variables (loadtxt : list byte -> res (option (mat F))) (fs : string -> option (list byte)).
Notation source := (source N C loadtxt fs).
Notation supplies := (supplies N C loadtxt fs).

Lemma str_arg_some s p : str_arg s = Some p <-> given_str s p.
Proof.
  unfold given_str. destruct s as [[|c t]|]; cbn [str_arg]; split; intros H; try discriminate.
  - destruct H as [H Hn]. inversion H. subst. congruence.
  - inversion H. split; [auto|discriminate].
  - destruct H. congruence.
  - destruct H. congruence.
Qed.
Lemma str_arg_none s : str_arg s = None <-> no_str s.
Proof.
  unfold no_str. destruct s as [[|c t]|]; cbn [str_arg]; split; intros H; auto; try discriminate.
  destruct H; discriminate.
Qed.
Lemma num_arg_some s p : num_arg s = Some p <-> given_num s p.
Proof.
  unfold given_num. destruct s as [[|c]|]; cbn [num_arg]; split; intros H; try discriminate.
  - destruct H as [H Hn]. inversion H. subst. congruence.
  - inversion H. split; [auto|discriminate].
  - destruct H. congruence.
  - destruct H. congruence.
Qed.
Lemma num_arg_none s : num_arg s = None <-> no_num s.
Proof.
  unfold no_num. destruct s as [[|c]|]; cbn [num_arg]; split; intros H; auto; try discriminate.
  destruct H; discriminate.
Qed.

Lemma csv_test px py : (String.eqb (ext px) ".csv" && String.eqb (ext py) ".csv")%bool = true <->
  csv_name px /\ csv_name py.
Proof. rewrite andb_true_iff, !String.eqb_eq, !ext_csv. reflexivity. Qed.

Lemma source_sound a d : source a = Ok d -> supplies a d.
Proof.
  unfold Regrid.source.
  destruct (str_arg (ra_mitgridfile a)) as [p|] eqn:Ep.
  - apply str_arg_some in Ep.
    destruct (num_arg (ra_ni a)) as [ni|] eqn:Ei; [|discriminate].
    destruct (num_arg (ra_nj a)) as [nj|] eqn:Ej; [|discriminate].
    apply num_arg_some in Ei, Ej. unfold read_bytes. destruct (fs p) as [bs|] eqn:Ef; [|discriminate].
    cbn [rbind]. destruct (read_mitgrid N C bs ni nj (ra_strict a)) as [g|] eqn:Er; [|discriminate].
    cbn [rbind]. intros E. inversion E. subst d. eapply from_mitgrid; eauto.
  - apply str_arg_none in Ep.
    assert (Hmat : no_str (ra_xg_file a) \/ no_str (ra_yg_file a) ->
      match ra_matrices a with
      | Some d => if dict_empty d then Err (ValueError "Either mitgridfile, xg_file/yg_file pair, or mitgrid_matrices must be provided.")
           else match d XC with Missing => Err KeyError | NoneVal => Err AttributeError | Arr _ => Ok d end
      | None => Err (ValueError "Either mitgridfile, xg_file/yg_file pair, or mitgrid_matrices must be provided.")
      end = Ok d -> supplies a d).
    { intros Hn E. destruct (ra_matrices a) as [d'|] eqn:Em; [|discriminate].
      destruct (dict_empty d'); [discriminate|]. destruct (d' XC) as [| |xc] eqn:Ex; try discriminate.
      inversion E. subst d'. eapply from_matrices; eauto. }
    destruct (str_arg (ra_xg_file a)) as [px|] eqn:Ex.
    2:{ apply Hmat. left. apply str_arg_none. auto. }
    destruct (str_arg (ra_yg_file a)) as [py|] eqn:Ey.
    2:{ apply Hmat. right. apply str_arg_none. auto. }
    apply str_arg_some in Ex, Ey.
    destruct (num_arg (ra_ni a)) as [ni|] eqn:Ei; [|discriminate].
    destruct (num_arg (ra_nj a)) as [nj|] eqn:Ej; [|discriminate].
    apply num_arg_some in Ei, Ej. unfold read_pair, read_bytes.
    destruct (String.eqb (ext px) ".csv" && String.eqb (ext py) ".csv")%bool eqn:Ec.
    + apply csv_test in Ec. destruct Ec.
      destruct (fs px) as [bx|] eqn:Fx; [|discriminate]. cbn [rbind].
      destruct (loadtxt bx) as [ox|] eqn:Lx; [|discriminate]. cbn [rbind].
      destruct (fs py) as [by_|] eqn:Fy; [|discriminate]. cbn [rbind].
      destruct (loadtxt by_) as [oy|] eqn:Ly; [|discriminate]. cbn [rbind].
      destruct ox as [x|]; [|discriminate]. destruct oy as [y|]; [|discriminate].
      intros E. inversion E. eapply from_csv; eauto. intros []; reflexivity.
    + assert (Hnc : ~ (csv_name px /\ csv_name py)) by (rewrite <- csv_test; congruence).
      destruct (fs px) as [bx|] eqn:Fx; [|discriminate]. cbn [rbind].
      destruct (reshapeF N (fromfile C bx) (ni + 1) (nj + 1)) as [x|] eqn:Lx; [|discriminate]. cbn [rbind].
      destruct (fs py) as [by_|] eqn:Fy; [|discriminate]. cbn [rbind].
      destruct (reshapeF N (fromfile C by_) (ni + 1) (nj + 1)) as [y|] eqn:Ly; [|discriminate]. cbn [rbind].
      intros E. inversion E. eapply from_binary; eauto. intros []; reflexivity.
Qed.

Lemma source_complete a d : supplies a d -> exists d', source a = Ok d' /\ forall f, d' f = d f.
Proof.
  unfold Regrid.source.
  intros [p ni nj bs g H1 H2 H3 H4 H5|px py ni nj bx by_ x y d0 H1 H2 H3 H4 H5 H6 H7 H8 H9 H10 H11 H12
         |px py ni nj bx by_ x y d0 H1 H2 H3 H4 H5 H6 H8 H9 H10 H11 H12|d0 xc H1 H2 H3 H4].
  - apply str_arg_some in H1. apply num_arg_some in H2, H3. rewrite H1, H2, H3.
    unfold read_bytes. rewrite H4. cbn [rbind]. rewrite H5. cbn [rbind]. eexists. split; reflexivity.
  - apply str_arg_none in H1. apply str_arg_some in H2, H3. apply num_arg_some in H4, H5.
    rewrite H1, H2, H3, H4, H5. unfold read_pair, read_bytes.
    rewrite (proj2 (csv_test px py)) by auto. rewrite H8, H9. cbn [rbind]. rewrite H10. cbn [rbind].
    rewrite H11. cbn [rbind]. eexists. split; [reflexivity|]. intros f. rewrite H12. destruct f; reflexivity.
  - apply str_arg_none in H1. apply str_arg_some in H2, H3. apply num_arg_some in H4, H5.
    rewrite H1, H2, H3, H4, H5. unfold read_pair, read_bytes.
    destruct (String.eqb (ext px) ".csv" && String.eqb (ext py) ".csv")%bool eqn:Ec.
    { exfalso. apply H6. apply csv_test. auto. }
    rewrite H8, H9. cbn [rbind]. rewrite H10. cbn [rbind].
    rewrite H11. cbn [rbind]. eexists. split; [reflexivity|]. intros f. rewrite H12. destruct f; reflexivity.
  - apply str_arg_none in H1. rewrite H1.
    assert (E : dict_empty d0 = false).
    { unfold dict_empty. cbn [fields forallb]. rewrite H4. reflexivity. }
    destruct H2 as [H2|H2]; apply str_arg_none in H2; rewrite H2.
    + rewrite H3, E, H4. eauto.
    + destruct (str_arg (ra_xg_file a)); rewrite H3, E, H4; eauto.
Qed.
End S.
