(** Property C99: text files of coordinates. *)
From Coq Require Import Ascii String List Bool PeanoNat ZArith Lia Init.Byte.
Import ListNotations.
From Flocq Require Import IEEE754.Binary IEEE754.Bits.
From Verif Require Import Prelude PreludeFacts Mat MdsMeta Mds MdsFacts Float64 PyFloat SpecNumber NumberFacts MetaFacts LoadTxt
  Num Fields SpecGrid Util SpecRegrid Regrid SourceFacts Samples PropUtil PropMkGrid PropRegrid PropPair.
Local Open Scope nat_scope.
Local Open Scope list_scope.

(** ** Specification *)

(** A line of a file: its cells, and a comment or none. *)
Record csv_line := Line { cells : list text; comment : option text }.

Fixpoint with_commas (l : list text) : text :=
  match l with
  | [] => []
  | [t] => t
  | t :: r => t ++ [","%char] ++ with_commas r
  end.

Definition line_text (l : csv_line) : text :=
  with_commas (cells l) ++ match comment l with Some t => "#"%char :: t | None => [] end.

Definition lf : ascii := "010"%char.
Definition cr : ascii := "013"%char.

(** No cell has a comma, a hash sign or an end of line in it, and no comment an end of line. *)
Definition proper (l : csv_line) : Prop :=
  Forall (fun t => ~ In ","%char t /\ ~ In "#"%char t /\ ~ In lf t /\ ~ In cr t) (cells l) /\ cells l <> [[]] /\
  match comment l with Some t => ~ In lf t /\ ~ In cr t | None => True end.

Definition ends_line (e : text) : Prop := e = [lf] \/ e = [cr] \/ e = [cr; lf].

(** The text of a file: lines with their ends, and what follows the last end. *)
Definition csv_text (ls : list (csv_line * text)) (last : csv_line) : text :=
  concat (map (fun le => line_text (fst le) ++ snd le) ls) ++ line_text last.
Definition proper_file (ls : list (csv_line * text)) (last : csv_line) : Prop :=
  Forall (fun le => proper (fst le) /\ ends_line (snd le)) ls /\ proper last.

(** The lines with cells. *)
Definition table (ls : list (csv_line * text)) (last : csv_line) : list (list text) :=
  filter (fun c => match c with [] => false | _ => true end) (map cells (map fst ls ++ [last])).

(** The table holds these numbers, equally many in each row. *)
Definition holds_numbers (rows : list (list text)) (vals : list (list binary64)) (c : nat) : Prop :=
  Forall2 (Forall2 (float_text_by plain_run)) rows vals /\ Forall (fun r => length r = c) rows.

(** ** Proofs *)
Lemma pieces_one sep t : Forall (fun c => sep c = false) t -> pieces sep t = [t].
Proof. induction 1 as [|c t H _ IH]; [reflexivity|]. cbn [pieces]. rewrite H, IH. reflexivity. Qed.

Lemma pieces_sep sep t s r : Forall (fun c => sep c = false) t -> sep s = true -> pieces sep (t ++ s :: r) = t :: pieces sep r.
Proof.
  intros H Hs. induction H as [|c t H _ IH]; cbn [app pieces]; [rewrite Hs; reflexivity|]. rewrite H, IH. reflexivity.
Qed.

Lemma in_false {A} (f : A -> bool) l : (forall c, In c l -> f c = false) -> Forall (fun c => f c = false) l.
Proof. intros H. apply Forall_forall. exact H. Qed.

Lemma clean_commas t : ~ In ","%char t -> Forall (fun c => is_comma c = false) t.
Proof. intros H. apply in_false. intros c Hc. unfold is_comma. apply Ascii.eqb_neq. intros ->. auto. Qed.
Lemma clean_newlines t : ~ In lf t -> ~ In cr t -> Forall (fun c => is_newline c = false) t.
Proof.
  intros H1 H2. apply in_false. intros c Hc. unfold is_newline. apply orb_false_iff.
  split; apply Ascii.eqb_neq; intros ->; auto.
Qed.

Lemma commas_pieces l : l <> [] -> Forall (fun t => ~ In ","%char t) l -> pieces is_comma (with_commas l) = l.
Proof.
  intros Hne H. induction H as [|t r H HR IH]; [congruence|]. destruct r as [|u r].
  - cbn [with_commas]. apply pieces_one, clean_commas, H.
  - change (with_commas (t :: u :: r)) with (t ++ ","%char :: with_commas (u :: r)).
    rewrite pieces_sep by (auto using clean_commas). rewrite IH by discriminate. reflexivity.
Qed.

Lemma commas_in l c : In c (with_commas l) -> c = ","%char \/ exists t, In t l /\ In c t.
Proof.
  induction l as [|t r IH]; [intros []|]. destruct r as [|u r].
  - cbn [with_commas]. intros H. right. exists t. split; [now left|exact H].
  - change (with_commas (t :: u :: r)) with (t ++ ","%char :: with_commas (u :: r)). intros H.
    apply in_app_or in H. destruct H as [H|[<-|H]]; [right; exists t; split; [now left|exact H]|now left|].
    destruct (IH H) as [->|(x & Hx & Hc)]; [now left|]. right. exists x. split; [now right|exact Hc].
Qed.

Lemma cut_none t : ~ In "#"%char t -> cut_comment t = t.
Proof.
  induction t as [|c t IH]; intros H; [reflexivity|]. cbn [cut_comment].
  destruct (Ascii.eqb_spec c "#") as [->|N]; [exfalso; apply H; now left|]. rewrite IH; [reflexivity|]. intros K. apply H. now right.
Qed.
Lemma cut_at t r : ~ In "#"%char t -> cut_comment (t ++ "#"%char :: r) = t.
Proof.
  induction t as [|c t IH]; intros H; [reflexivity|]. cbn [app cut_comment].
  destruct (Ascii.eqb_spec c "#") as [->|N]; [exfalso; apply H; now left|]. rewrite IH; [reflexivity|]. intros K. apply H. now right.
Qed.

Lemma proper_cut l : proper l -> cut_comment (line_text l) = with_commas (cells l).
Proof.
  intros (H & _ & _). unfold line_text.
  assert (N : ~ In "#"%char (with_commas (cells l))).
  { intros K. apply commas_in in K. destruct K as [K|(t & Ht & Hc)]; [discriminate K|].
    rewrite Forall_forall in H. destruct (H t Ht) as (_ & K & _). auto. }
  destruct (comment l); [apply cut_at, N|rewrite app_nil_r; apply cut_none, N].
Qed.

Lemma proper_line l : proper l -> Forall (fun c => is_newline c = false) (line_text l).
Proof.
  intros (H & _ & C). rewrite Forall_forall in H. unfold line_text. apply Forall_app. split.
  - apply clean_newlines; intros K; apply commas_in in K; destruct K as [K|(t & Ht & Hc)]; try discriminate K;
      destruct (H t Ht) as (_ & _ & ? & ?); auto.
  - destruct (comment l) as [t|]; [|constructor]. constructor; [reflexivity|]. destruct C. apply clean_newlines; auto.
Qed.

Lemma file_lines ls last : proper_file ls last ->
  filter nonempty (map cut_comment (pieces is_newline (csv_text ls last))) =
  filter nonempty (map (fun l => with_commas (cells l)) (map fst ls ++ [last])).
Proof.
  intros (H & HL). unfold csv_text. induction H as [|[l e] ls (Hl & He) _ IH].
  - cbn [map concat app]. rewrite pieces_one by (apply proper_line, HL). cbn [map]. rewrite proper_cut by exact HL. reflexivity.
  - cbn [map concat fst snd app] in *. rewrite <- !app_assoc.
    assert (S : forall r, filter nonempty (map cut_comment (pieces is_newline (line_text l ++ e ++ r))) =
                  filter nonempty (with_commas (cells l) :: map cut_comment (pieces is_newline r))).
    { intros r. destruct He as [->|[->| ->]]; cbn [app].
      - rewrite pieces_sep by (auto using proper_line). cbn [map]. rewrite proper_cut by exact Hl. reflexivity.
      - rewrite pieces_sep by (auto using proper_line). cbn [map]. rewrite proper_cut by exact Hl. reflexivity.
      - rewrite pieces_sep by (auto using proper_line). change (lf :: r) with ([] ++ lf :: r).
        rewrite pieces_sep by (auto using proper_line). cbn [map cut_comment]. rewrite proper_cut by exact Hl. reflexivity. }
    rewrite S. cbn [filter]. rewrite IH. reflexivity.
Qed.

Lemma commas_nil l : with_commas l = [] -> l = [] \/ l = [[]].
Proof.
  destruct l as [|t [|u r]]; [now left|cbn; intros ->; now right|].
  change (with_commas (t :: u :: r)) with (t ++ ","%char :: with_commas (u :: r)). intros H. destruct t; discriminate H.
Qed.

Lemma file_table ls last : proper_file ls last ->
  filter nonempty (map (fun l => with_commas (cells l)) (map fst ls ++ [last])) = map with_commas (table ls last) /\
  Forall (fun r => pieces is_comma (with_commas r) = r /\ r <> []) (table ls last).
Proof.
  intros (H & HL). unfold table.
  assert (P : Forall proper (map fst ls ++ [last])).
  { apply Forall_app. split; [|constructor; [exact HL|constructor]]. apply Forall_map. eapply Forall_impl; [|exact H]. cbn. tauto. }
  clear H HL. induction P as [|l r (H1 & H2 & _) _ (IH1 & IH2)]; [split; constructor|]. cbn [map filter].
  destruct (cells l) as [|t c] eqn:E; [exact (conj IH1 IH2)|].
  assert (N : nonempty (with_commas (t :: c)) = true).
  { destruct (with_commas (t :: c)) eqn:W; [|reflexivity]. apply commas_nil in W. destruct W; congruence. }
  rewrite N. cbn [map]. split; [f_equal; exact IH1|]. constructor; [|exact IH2]. split; [|discriminate].
  apply commas_pieces; [discriminate|]. eapply Forall_impl; [|exact H1]. cbn. tauto.
Qed.

Lemma float_cell_iff t x : float_cell t = Ok x <-> float_text_by plain_run t x.
Proof.
  rewrite <- plain_float_iff. unfold float_cell. destruct (py_float t); split; intros H; try discriminate H; injection H as ->; reflexivity.
Qed.

Lemma read_line_iff n r v : pieces is_comma (with_commas r) = r ->
  (read_line n (with_commas r) = Ok v <-> length r = n /\ Forall2 (float_text_by plain_run) r v).
Proof.
  intros P. unfold read_line. rewrite P. destruct (Nat.eqb_spec (length r) n) as [E|E].
  - rewrite (mapM_iff float_cell _ float_cell_iff). tauto.
  - split; [discriminate|tauto].
Qed.

Lemma lines_iff n rows v : Forall (fun r => pieces is_comma (with_commas r) = r /\ r <> []) rows ->
  (mapM (read_line n) (map with_commas rows) = Ok v <-> holds_numbers rows v n).
Proof.
  unfold holds_numbers. intros H. revert v. induction H as [|r rows (P & _) _ IH]; intros v.
  - cbn. split; [intros E; injection E as <-; split; constructor|intros (F & _); inversion F; reflexivity].
  - cbn [map mapM]. split.
    + intros E. destruct (read_line n (with_commas r)) as [w|] eqn:E1; cbn [rbind] in E; [|discriminate E].
      destruct (mapM _ _) as [ws|] eqn:E2; cbn [rbind] in E; [|discriminate E]. injection E as <-.
      apply read_line_iff in E1; [|exact P]. destruct (proj1 (IH ws) eq_refl). destruct E1. split; constructor; auto.
    + intros (F & L). inversion F as [|? w ? ws F1 F2]; subst. inversion L; subst.
      rewrite (proj2 (read_line_iff _ r w P)) by auto. cbn [rbind]. rewrite (proj2 (IH ws)) by auto. reflexivity.
Qed.

Lemma read_lines_err n l e : mapM (read_line n) l = Err e -> exists msg, e = ValueError msg.
Proof.
  revert e. induction l as [|x l IH]; intros e; cbn [mapM]; [discriminate|].
  destruct (read_line n x) as [y|e'] eqn:E; cbn [rbind].
  - destruct (mapM _ l) as [ys|e'] eqn:E'; cbn [rbind]; [discriminate|]. intros [= <-]. now apply IH.
  - intros [= <-]. unfold read_line in E. destruct (_ =? n); [|injection E as <-; eauto].
    revert E. generalize (pieces is_comma x). intros cs. revert e'. induction cs as [|c cs IHc]; intros e'; cbn [mapM]; [discriminate|].
    unfold float_cell at 1. destruct (py_float c); cbn [rbind]; [|intros [= <-]; eauto].
    destruct (mapM float_cell cs); cbn [rbind]; [discriminate|]. intros [= <-]. now apply IHc.
Qed.

Lemma forall2_length {A B} (P : A -> B -> Prop) l v : Forall2 P l v -> length l = length v.
Proof. induction 1; cbn; auto. Qed.

(** Equally many numbers on every line that has cells: the array with one row for each such line, unless it has at
    most one row or column. *)
Theorem C99_csv_read : forall ls last vals c, proper_file ls last -> holds_numbers (table ls last) vals c ->
  exists a, loadtxt64 (text_bytes (csv_text ls last)) = Ok a /\
    match a with
    | Some m => 2 <= length vals /\ 2 <= c /\ mat_is m (length vals) c (fun i j => nth j (nth i vals []) b64_zero)
    | None => length vals <= 1 \/ c <= 1
    end.
Proof.
  intros ls last vals c P H. destruct (file_table ls last P) as (T & W).
  unfold loadtxt64. rewrite byte_text_bytes, file_lines, T by exact P.
  destruct (table ls last) as [|r rows] eqn:E.
  - exists None. split; [reflexivity|]. destruct H as (F & _). inversion F. cbn. lia.
  - cbn [map]. inversion W as [|? ? (PR & NR) _]; subst. rewrite PR.
    assert (C : length r = c) by (destruct H as (_ & L); inversion L; auto). rewrite C.
    change (with_commas r :: map with_commas rows) with (map with_commas (r :: rows)).
    rewrite (proj2 (lines_iff c (r :: rows) vals W) H). cbn [rbind].
    eexists. split; [reflexivity|].
    assert (1 <= length vals) by (destruct H as (F & _); apply forall2_length in F; cbn in F; lia).
    assert (1 <= c) by (destruct r; [congruence|cbn in C; lia]).
    destruct (Nat.eqb_spec (length vals) 1) as [|N1]; [cbn [orb]; lia|].
    destruct (Nat.eqb_spec c 1) as [|N2]; cbn [orb]; [lia|].
    split; [lia|]. split; [lia|]. repeat split.
Qed.

(** Any other file is refused. *)
Theorem C99_csv_refused : forall ls last, proper_file ls last ->
  (forall vals c, ~ holds_numbers (table ls last) vals c) ->
  exists msg, loadtxt64 (text_bytes (csv_text ls last)) = Err (ValueError msg).
Proof.
  intros ls last P H. destruct (file_table ls last P) as (T & W).
  unfold loadtxt64. rewrite byte_text_bytes, file_lines, T by exact P.
  destruct (table ls last) as [|r rows] eqn:E; [exfalso; apply (H [] 0); split; constructor|].
  cbn [map]. inversion W as [|? ? (PR & NR) _]; subst. rewrite PR.
  change (with_commas r :: map with_commas rows) with (map with_commas (r :: rows)).
  destruct (mapM _ _) as [vals|e] eqn:M; cbn [rbind].
  - exfalso. apply lines_iff in M; [|exact W]. exact (H _ _ M).
  - destruct (read_lines_err _ _ _ M) as (msg & ->). eauto.
Qed.

Lemma split_first (f : ascii -> bool) t : Forall (fun c => f c = false) t \/
  exists a s r, t = a ++ s :: r /\ Forall (fun c => f c = false) a /\ f s = true.
Proof.
  induction t as [|c t [IH|(a & s & r & -> & IH & S)]]; [left; constructor| |].
  - destruct (f c) eqn:E; [right; exists [], c, t; repeat split; auto|left; constructor; auto].
  - destruct (f c) eqn:E; [right; exists [], c, (a ++ s :: r); repeat split; auto|].
    right. exists (c :: a), s, r. repeat split; auto.
Qed.

Lemma pieces_ne sep t : pieces sep t <> [].
Proof. induction t as [|c t IH]; cbn; [discriminate|]. destruct (sep c); [discriminate|]. destruct (pieces sep t); discriminate. Qed.

Lemma pieces_commas t : with_commas (pieces is_comma t) = t.
Proof.
  induction t as [|c t IH]; [reflexivity|]. cbn [pieces]. destruct (is_comma c) eqn:E.
  - apply Ascii.eqb_eq in E. subst c. destruct (pieces is_comma t) eqn:P; [now apply pieces_ne in P|].
    cbn [with_commas]. cbn [app]. rewrite <- IH. reflexivity.
  - destruct (pieces is_comma t) as [|x xs] eqn:P; [now apply pieces_ne in P|].
    rewrite <- IH. destruct xs; reflexivity.
Qed.

Lemma pieces_in sep t x c : In x (pieces sep t) -> In c x -> In c t /\ sep c = false.
Proof.
  revert x. induction t as [|d t IH]; intros x; cbn [pieces].
  - intros [<-|[]] [].
  - destruct (sep d) eqn:E.
    + intros [<-|H] Hc; [destruct Hc|]. destruct (IH _ H Hc). split; [now right|assumption].
    + destruct (pieces sep t) as [|y ys] eqn:P; [now apply pieces_ne in P|].
      intros [<-|H] Hc.
      * destruct Hc as [<-|Hc]; [split; [now left|exact E]|]. destruct (IH y (or_introl eq_refl) Hc). split; [now right|assumption].
      * destruct (IH x (or_intror H) Hc). split; [now right|assumption].
Qed.

Lemma line_of t : Forall (fun c => is_newline c = false) t -> exists l, proper l /\ t = line_text l.
Proof.
  intros H. rewrite Forall_forall in H.
  assert (NL : forall b, (forall c, In c b -> In c t) -> ~ In lf b /\ ~ In cr b).
  { intros b Hb. split; intros K; apply Hb, H in K; discriminate K. }
  assert (B : forall b, (forall c, In c b -> In c t) -> ~ In "#"%char b -> exists cs, with_commas cs = b /\ cs <> [[]] /\
     Forall (fun x => ~ In ","%char x /\ ~ In "#"%char x /\ ~ In lf x /\ ~ In cr x) cs).
  { intros b Hb Hh. destruct b as [|c0 b0]; [exists []; repeat split; [discriminate|constructor]|].
    set (b := c0 :: b0) in *. exists (pieces is_comma b). split; [apply pieces_commas|]. split.
    - intros E. assert (W := pieces_commas b). rewrite E in W. discriminate W.
    - apply Forall_forall. intros x Hx. destruct (NL b Hb) as (N1 & N2).
      assert (K : forall c, In c x -> In c b /\ is_comma c = false) by (intros c; apply pieces_in, Hx).
      repeat split; intros Hc; destruct (K _ Hc) as (K1 & K2); auto; discriminate K2. }
  destruct (split_first (fun c => Ascii.eqb c "#") t) as [S|(a & s & r & E & S & Q)].
  - rewrite Forall_forall in S. destruct (B t (fun c Hc => Hc)) as (cs & E & N & F).
    { intros K. apply S in K. discriminate K. }
    exists (Line cs None). split; [split; [exact F|split; [exact N|exact I]]|]. unfold line_text. cbn. now rewrite app_nil_r.
  - apply Ascii.eqb_eq in Q. subst s. rewrite Forall_forall in S. destruct (B a) as (cs & E' & N & F).
    { intros c Hc. subst t. apply in_or_app. now left. }
    { intros K. apply S in K. discriminate K. }
    exists (Line cs (Some r)). split.
    + split; [exact F|]. split; [exact N|]. apply NL. intros c Hc. subst t. apply in_or_app. right. now right.
    + unfold line_text. cbn. now rewrite E'.
Qed.

Lemma text_bytes_byte bs : text_bytes (byte_text bs) = bs.
Proof.
  unfold byte_text, text_bytes. rewrite map_map. rewrite <- (map_id bs) at 2. apply map_ext. apply byte_of_ascii_of_byte.
Qed.

(** Every file is made of such lines, so the two theorems say what becomes of each. *)
Theorem C99_every_file : forall bs, exists ls last, proper_file ls last /\ bs = text_bytes (csv_text ls last).
Proof.
  intros bs.
  enough (H : forall n t, length t <= n -> exists ls last, proper_file ls last /\ t = csv_text ls last).
  { destruct (H _ (byte_text bs) (le_n _)) as (ls & last & P & E). exists ls, last. split; [exact P|]. rewrite <- E. symmetry. apply text_bytes_byte. }
  clear bs. induction n as [|n IH]; intros t Ht.
  - destruct t; [|cbn in Ht; lia]. exists [], (Line [] None). split; [|reflexivity].
    split; [constructor|]. repeat split; [constructor|discriminate].
  - destruct (split_first is_newline t) as [S|(a & s & r & E & S & Q)].
    + destruct (line_of t S) as (l & P & E). exists [], l. split; [split; [constructor|exact P]|exact E].
    + destruct (line_of a S) as (l & P & E'). destruct (IH r) as (ls & last & (P1 & P2) & E2).
      { subst t. rewrite app_length in Ht. cbn in Ht. lia. }
      exists ((l, [s]) :: ls), last. split.
      * split; [|exact P2]. constructor; [|exact P1]. split; [exact P|]. cbn. unfold is_newline in Q. apply orb_true_iff in Q.
        destruct Q as [Q|Q]; apply Ascii.eqb_eq in Q; subst s; [now left|right; now left].
      * subst t a r. unfold csv_text. cbn [map concat fst snd]. now rewrite <- !app_assoc.
Qed.

(** ** regrid *)

(** A pair of such files with two or more rows and columns is used like the two arrays, whatever counts are given. *)
Theorem C99_regrid_csv : forall L G fs lay o3 fuel a px py ni nj lx ex ly ey vx cx vy cy,
  pair_given a px py ni nj -> csv_name px -> csv_name py ->
  fs px = Some (text_bytes (csv_text lx ex)) -> fs py = Some (text_bytes (csv_text ly ey)) ->
  proper_file lx ex -> proper_file ly ey -> holds_numbers (table lx ex) vx cx -> holds_numbers (table ly ey) vy cy ->
  2 <= length vx -> 2 <= cx -> 2 <= length vy -> 2 <= cy ->
  exists x y, mat_is x (length vx) cx (fun i j => nth j (nth i vx []) b64_zero) /\
    mat_is y (length vy) cy (fun i j => nth j (nth i vy []) b64_zero) /\
    forall xc, same_outcome (regrid64 L G loadtxt64 fs lay o3 fuel a) (regrid64 L G loadtxt64 fs lay o3 fuel (from_memory a x y xc)).
Proof.
  intros L G fs lay o3 fuel a px py ni nj lx ex ly ey vx cx vy cy P Nx Ny Fx Fy PX PY HX HY R1 C1 R2 C2.
  destruct (C99_csv_read lx ex vx cx PX HX) as ([x|] & Ex & Mx); [|lia].
  destruct (C99_csv_read ly ey vy cy PY HY) as ([y|] & Ey & My); [|lia].
  exists x, y. split; [apply Mx|]. split; [apply My|]. intros xc.
  exact (C69_csv_pair L G loadtxt64 fs lay o3 fuel a px py ni nj _ _ x y xc P Nx Ny Fx Fy Ex Ey).
Qed.

(** Any other pair is refused. *)
Definition two_dimensional (ls : list (csv_line * text)) (last : csv_line) : Prop :=
  exists vals c, holds_numbers (table ls last) vals c /\ 2 <= length vals /\ 2 <= c.

Lemma bad_file ls last : proper_file ls last -> ~ two_dimensional ls last ->
  (exists msg, loadtxt64 (text_bytes (csv_text ls last)) = Err (ValueError msg)) \/ loadtxt64 (text_bytes (csv_text ls last)) = Ok None.
Proof.
  intros P N. destruct (loadtxt64 (text_bytes (csv_text ls last))) as [[m|]|e] eqn:E; [|now right|].
  - exfalso. unfold loadtxt64 in E. destruct (file_table ls last P) as (T & W).
    rewrite byte_text_bytes, file_lines, T in E by exact P. unfold two_dimensional in N.
    destruct (table ls last) as [|r rows] eqn:Et; [discriminate E|]. cbn [map] in E.
    inversion W as [|? ? (PR & NR) _]; subst. rewrite PR in E.
    change (with_commas r :: map with_commas rows) with (map with_commas (r :: rows)) in E.
    destruct (mapM _ _) as [vals|] eqn:M in E; [|discriminate E]. cbn [rbind] in E. apply lines_iff in M; [|exact W].
    destruct (Nat.eqb_spec (length vals) 1); [discriminate E|]. destruct (Nat.eqb_spec (length r) 1); [discriminate E|].
    apply N. exists vals, (length r). split; [exact M|]. destruct M as (M & _). apply forall2_length in M. cbn in M.
    destruct r; [congruence|]. cbn in *. lia.
  - left. unfold loadtxt64 in E. destruct (filter _ _); [discriminate E|]. destruct (mapM _ _) eqn:M in E; [discriminate E|].
    cbn [rbind] in E. injection E as ->. destruct (read_lines_err _ _ _ M) as (msg & ->). eauto.
Qed.

Theorem C99_regrid_refuses : forall L G fs lay o3 fuel a px py ni nj lx ex ly ey,
  pair_given a px py ni nj -> csv_name px -> csv_name py ->
  fs px = Some (text_bytes (csv_text lx ex)) -> fs py = Some (text_bytes (csv_text ly ey)) ->
  proper_file lx ex -> proper_file ly ey -> ~ (two_dimensional lx ex /\ two_dimensional ly ey) ->
  exists msg, regrid64 L G loadtxt64 fs lay o3 fuel a = Err (ValueError msg).
Proof.
  intros L G fs lay o3 fuel a px py ni nj lx ex ly ey P Nx Ny Fx Fy PX PY N.
  destruct (pair_args _ _ _ _ _ P) as (A1 & A2 & A3 & A4 & A5).
  unfold regrid64, regrid, regrid_from, source. rewrite A1, A2, A3, A4, A5. unfold read_pair.
  rewrite (proj2 (csv_test px py) (conj Nx Ny)). unfold read_bytes. rewrite Fx, Fy. cbn [rbind].
  set (tx := text_bytes (csv_text lx ex)) in *. set (ty := text_bytes (csv_text ly ey)) in *.
  assert (D : forall ls last m, proper_file ls last -> loadtxt64 (text_bytes (csv_text ls last)) = Ok (Some m) -> ~ ~ two_dimensional ls last).
  { intros ls last m Pf E K. destruct (bad_file ls last Pf K) as [(msg & B)|B]; congruence. }
  assert (V : forall ls last e, proper_file ls last -> loadtxt64 (text_bytes (csv_text ls last)) = Err e -> exists msg, e = ValueError msg).
  { intros ls last e Pf E. destruct (bad_file ls last Pf) as [(msg & B)|B]; [|rewrite E in B; injection B as ->; eauto|congruence].
    intros (vals & c & H & _ & _). destruct (C99_csv_read ls last vals c Pf H) as (a0 & B & _). congruence. }
  destruct (loadtxt64 tx) as [[x|]|e] eqn:Ex; cbn [rbind].
  - destruct (loadtxt64 ty) as [[y|]|e] eqn:Ey; cbn [rbind]; [|eauto|destruct (V _ _ _ PY Ey) as (msg & ->); eauto].
    exfalso. apply (D _ _ _ PX Ex). intros T1. apply (D _ _ _ PY Ey). intros T2. auto.
  - destruct (loadtxt64 ty) as [[y|]|e] eqn:Ey; cbn [rbind]; [eauto|eauto|destruct (V _ _ _ PY Ey) as (msg & ->); eauto].
  - destruct (V _ _ _ PX Ex) as (msg & ->). eauto.
Qed.

(** ** Examples *)
Definition ex_lines : list (csv_line * text) :=
  [(Line [lit "10"; lit " 20.5"] None, [lf]); (Line [] (Some (lit "a comment, with a comma")), [cr; lf]); (Line [] None, [lf]);
   (Line [lit "-1e1"; lit "inf "] (Some (lit " c")), [cr])].
Definition ex_last : csv_line := Line [lit "3"; lit ".5"] None.
Definition mbits (r : res (option (mat binary64))) : option (nat * nat * list Z) :=
  match r with
  | Ok (Some m) => Some (mrows m, mcols m, map (fun ij => bits_of_b64 (mat_at m (fst ij) (snd ij))) (list_prod (seq 0 (mrows m)) (seq 0 (mcols m))))
  | _ => None
  end.

Lemma ex_proper : proper_file ex_lines ex_last.
Proof.
  assert (D : forall c t, has c t = false -> ~ In c t).
  { intros c t H K. unfold has in H. assert (existsb (Ascii.eqb c) t = true); [|congruence]. apply existsb_exists. exists c. split; [exact K|apply Ascii.eqb_refl]. }
  unfold proper_file, ex_lines, ex_last.
  repeat match goal with
  | |- Forall _ (_ :: _) => apply Forall_cons
  | |- Forall _ [] => apply Forall_nil
  | |- _ /\ _ => split
  | |- proper _ => unfold proper; cbn [cells comment]
  | |- proper _ /\ _ => unfold proper; cbn [fst snd cells comment]
  | |- ends_line _ => first [left; reflexivity|right; left; reflexivity|right; right; reflexivity]
  | |- ~ In _ _ => apply D; reflexivity
  | |- _ <> _ => discriminate
  | |- True => exact I
  | |- _ => progress cbn [fst snd cells comment]
  end.
Qed.

Example C99_case :
  proper_file ex_lines ex_last /\ (exists vals, holds_numbers (table ex_lines ex_last) vals 2 /\ length vals = 3) /\
  mbits (loadtxt64 (text_bytes (csv_text ex_lines ex_last))) =
    Some (3, 2, map bits_of_b64 [ex_int 10; b64_of_bits 0x4034800000000000; ex_int (-10); B754_infinity 53 1024 false; ex_int 3; b64_of_bits 0x3fe0000000000000]).
Proof.
  split; [exact ex_proper|]. split; [|vm_compute; reflexivity].
  destruct (loadtxt64 (text_bytes (csv_text ex_lines ex_last))) as [a|e] eqn:E.
  - unfold loadtxt64 in E. destruct (file_table _ _ ex_proper) as (T & W).
    rewrite byte_text_bytes, file_lines, T in E by exact ex_proper.
    change (table ex_lines ex_last) with [[lit "10"; lit " 20.5"]; [lit "-1e1"; lit "inf "]; [lit "3"; lit ".5"]] in *.
    cbn [map] in E. destruct (mapM _ _) as [vals|] eqn:M in E; [|discriminate E].
    exists vals. apply (lines_iff 2 [[lit "10"; lit " 20.5"]; [lit "-1e1"; lit "inf "]; [lit "3"; lit ".5"]]) in M; [|exact W].
    split; [exact M|]. destruct M as (M & _). apply forall2_length in M. cbn in M. lia.
  - exfalso. assert (mbits (loadtxt64 (text_bytes (csv_text ex_lines ex_last))) <> None) by (vm_compute; discriminate). rewrite E in H. apply H. reflexivity.
Qed.

(** A ragged file, a word instead of a number, and a single row. *)
Example C99_refused_case :
  loadtxt64 (text_bytes (lit "1,2" ++ [lf] ++ lit "3")) = Err (ValueError "Wrong number of columns") /\
  loadtxt64 (text_bytes (lit "1,2" ++ [lf] ++ lit "3,x")) = Err (ValueError "could not convert string to float") /\
  loadtxt64 (text_bytes (lit "1,2,3" ++ [lf])) = Ok None.
Proof. vm_compute. auto. Qed.
