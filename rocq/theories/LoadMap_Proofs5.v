(** C60: tables that say the same, and the whole of loading. *)
From Coq Require Import NArith Permutation ZifyBool ZifyN ZifyNat Lia Lqa.
From Verif Require Import Prelude QLemmas BitFlags_Model BitFlags_Spec BitFlags_Proofs Streams_Model Streams_Spec Selectors_Model Selectors_Proofs LinkRef_Model LinkRef_Spec LinkRef_Proofs
  Db_Model Db_Spec Db_Proofs Db_ProofsLocal Db_ProofsRun Reader_Model Reader_Spec Reader_Proofs Reader_Proofs3
  Mapper_Model Mapper_Spec Mapper_Proofs Mapper_Proofs2 Mapper_Proofs3 Mapper_Proofs4
  Elements_Model EdgeText_Model MapCli_Model MapCli_Spec MapCli_Proofs5 LoadMap_Model LoadMap_Spec LoadMap_Proofs LoadMap_Proofs2 LoadMap_Proofs3 LoadMap_Proofs4.
Local Open Scope nat_scope.

(** *** A form that depends on the labels only *)

Definition row3 := (Z * (list N * list Z))%type.
Definition key_of (gran : list bool -> option Q) (s : db) (n : list N) : option Q :=
  match find_structure gran s n with Some g => g | None => Some (-1)%Q end.
Definition row_step (s : db) (g : Z) (limit : nat) (allow : bool) (lv : list N) (st : list hit * old_counter) (e : row3) : list hit * old_counter :=
  let all := snd (snd e) in
  let ids := firstn (limit + 1) all in
  if limit <? length ids then (fst st, oc_over (length ids + length (skipn (limit + 1) all)) (snd st))
  else if 1 <? length ids then
    if allow then
      old_insert s g lv (fst e) ids (fst st, oc_add 0 (length (filter (is_overlap lv (fst st)) ids)) 0 0 (snd st))
    else
      let kept := filter (fun i => negb (is_overlap lv (fst st) i)) ids in
      old_insert s g lv (fst e) kept (fst st, oc_add 0 0 (length ids - length kept) 0 (snd st))
  else old_insert s g lv (fst e) ids st.
Definition at3 (n : list N) (es : list row3) : list row3 := filter (fun e => bytes_eqb (fst (snd e)) n) es.
Definition level_step gran (s : db) (g : Z) (limit : nat) (allow : bool) (es : list row3) (st : list hit * old_counter) (n : list N) : list hit * old_counter :=
  match find_structure gran s n with
  | None => (fst st, oc_add (length (at3 n es)) 0 0 0 (snd st))
  | Some _ => fold_left (row_step s g limit allow n) (at3 n es) st
  end.
Definition canon gran (s : db) (limit : nat) (allow : bool) (es : list row3) : res (list hit * old_counter) :=
  let ns := distinct bytes_eqb (map (fun e => fst (snd e)) es) in
  do g <- get_default_weight_group s;
  if (1 <? length ns) && existsb (fun n => match key_of gran s n with None => true | Some _ => false end) ns then Err TypeError
  else let st := fold_left (level_step gran s g limit allow es) (sort_pairs (fun n => match key_of gran s n with Some q => q | None => 0%Q end) ns) ([], old_zero) in
       Ok (refresh_hits (fst st), snd st).
Definition abstract (s : db) (columns : list text) (e : Z * list text) : row3 := (fst e, (NL s columns (snd e), old_candidates s columns (snd e))).

Lemma distinct_map {A B} (ea : A -> A -> bool) (eb : B -> B -> bool) (Ha : forall x y, ea x y = true <-> x = y) (h : A -> B) l :
  (forall x y, In x l -> In y l -> eb (h x) (h y) = ea x y) -> distinct eb (map h l) = map h (distinct ea l).
Proof.
  induction l as [|a l IH]; intros H; [reflexivity|]. cbn [map distinct]. f_equal.
  rewrite IH by (intros x y Hx Hy; apply H; now right). rewrite filter_map_. f_equal. apply filter_ext_in. intros y Hy.
  rewrite H; [reflexivity|now left|]. right. apply (proj1 (in_distinct ea Ha y l)). exact Hy.
Qed.
Lemma insert_pair_map {A B} (h : A -> B) (key : B -> Q) x l : insert_pair key (h x) (map h l) = map h (insert_pair (fun a => key (h a)) x l).
Proof. induction l as [|y l IH]; [reflexivity|]. cbn [map insert_pair]. destruct (Qle_bool _ _); [reflexivity|]. now rewrite IH. Qed.
Lemma sort_pairs_map {A B} (h : A -> B) (key : B -> Q) l : sort_pairs key (map h l) = map h (sort_pairs (fun a => key (h a)) l).
Proof. induction l as [|x l IH]; [reflexivity|]. unfold sort_pairs in *. cbn [map fold_right]. now rewrite IH, insert_pair_map. Qed.
Lemma insert_pair_ext {A} (k k' : A -> Q) x l : (forall a, k a = k' a) -> insert_pair k x l = insert_pair k' x l.
Proof. intros H. induction l as [|y l IH]; [reflexivity|]. cbn. rewrite !H, IH. reflexivity. Qed.
Lemma sort_pairs_ext {A} (k k' : A -> Q) l : (forall a, k a = k' a) -> sort_pairs k l = sort_pairs k' l.
Proof. intros H. induction l as [|x l IH]; [reflexivity|]. unfold sort_pairs in *. cbn. rewrite IH. now apply insert_pair_ext. Qed.
Lemma existsb_map_ {A B} (p : B -> bool) (h : A -> B) l : existsb p (map h l) = existsb (fun a => p (h a)) l.
Proof. induction l as [|x l IH]; [reflexivity|]. cbn. now rewrite IH. Qed.
Lemma existsb_ext_ {A} (p q : A -> bool) l : (forall a, p a = q a) -> existsb p l = existsb q l.
Proof. intros H. induction l as [|x l IH]; [reflexivity|]. cbn. now rewrite H, IH. Qed.
Lemma fold_left_in {A B} (f f' : A -> B -> A) l : (forall a b, In b l -> f a b = f' a b) -> forall a, fold_left f l a = fold_left f' l a.
Proof.
  induction l as [|x l IH]; intros H a; [reflexivity|]. cbn [fold_left]. rewrite H by now left. apply IH. intros b y Hy. apply H. now right.
Qed.

Section Canon.
Context (gran : list bool -> option Q) (s : db) (limit : nat) (allow : bool) (columns : list text) (es : list (Z * list text)).
Context (U : usable s columns es).
Let node (lv : list N) := node_level columns (d_labels s) lv.
Lemma node_eqb x y : In x (map (fun e : Z * list text => old_level (snd e)) es) -> In y (map (fun e : Z * list text => old_level (snd e)) es) ->
  bytes_eqb (node x) (node y) = bytes_eqb x y.
Proof.
  intros Hx Hy. apply in_map_iff in Hx as (e & <- & He). apply in_map_iff in Hy as (e' & <- & He').
  destruct (bytes_eqb (old_level (snd e)) (old_level (snd e'))) eqn:E.
  - apply bytes_eqb_iff in E. apply bytes_eqb_iff. now rewrite E.
  - destruct (bytes_eqb (node _) _) eqn:E2; [|reflexivity]. apply bytes_eqb_iff in E2. apply (level_inj s columns es U e e' He He') in E2.
    apply bytes_eqb_iff in E2. congruence.
Qed.
Lemma match_canon : old_match_records gran s limit allow columns es = canon gran s limit allow (map (abstract s columns) es).
Proof.
  unfold old_match_records, canon. rewrite map_map. cbn [abstract fst snd].
  set (levels := distinct bytes_eqb (map (fun e => old_level (snd e)) es)).
  replace (distinct bytes_eqb (map (fun x => NL s columns (snd x)) es)) with (map node levels).
  2:{ unfold levels. rewrite <- (distinct_map bytes_eqb bytes_eqb bytes_eqb_iff node _ node_eqb), map_map. reflexivity. }
  destruct (get_default_weight_group s) as [g|]; cbn [bind]; [|reflexivity].
  unfold get_level_pairs. rewrite !map_length, !existsb_map_.
  assert (K : forall lv, pair_key gran s (level_pair gran s columns lv) = key_of gran s (node lv)).
  { intros lv. unfold pair_key, level_pair, key_of. cbn [snd]. fold (node lv). destruct (find_structure gran s (node lv)) eqn:F; [now rewrite F|reflexivity]. }
  rewrite (existsb_ext_ (fun a => match pair_key gran s (level_pair gran s columns a) with None => true | Some _ => false end)
    (fun a => match key_of gran s (node a) with None => true | Some _ => false end)) by (intros lv; now rewrite K).
  match goal with |- context [if ?c then _ else _] => destruct c end; cbn [bind]; [reflexivity|].
  rewrite !sort_pairs_map. rewrite (sort_pairs_ext _ (fun a => match key_of gran s (node a) with Some q => q | None => 0%Q end)) by (intros lv; now rewrite K).
  set (L := sort_pairs (fun a => match key_of gran s (node a) with Some q => q | None => 0%Q end) levels).
  assert (HL : forall lv, In lv L -> In lv (map (fun e => old_level (snd e)) es)).
  { intros lv Hl. apply (proj1 (in_distinct bytes_eqb bytes_eqb_iff lv _)). eapply Permutation_in; [apply Permutation_sym, sort_pairs_perm|exact Hl]. }
  clearbody L. assert (G : forall st, fold_left (old_match_level s g limit allow columns es) (map (level_pair gran s columns) L) st =
    fold_left (level_step gran s g limit allow (map (abstract s columns) es)) (map node L) st).
  { induction L as [|lv L IH]; intros st; [reflexivity|]. cbn [map fold_left]. rewrite IH by (intros x Hx; apply HL; now right). f_equal.
    assert (At : at3 (node lv) (map (abstract s columns) es) = map (abstract s columns) (old_at lv es)).
    { unfold at3, old_at. rewrite filter_map_. f_equal. apply filter_ext_in. intros e He. cbn [abstract fst snd]. apply node_eqb; [|apply HL; now left].
      apply in_map_iff. eauto. }
    unfold old_match_level, level_step, level_pair. cbn [snd fst]. fold (node lv). rewrite At. destruct (find_structure gran s (node lv)).
    - clear At. revert st. induction (old_at lv es) as [|e w IHw]; intros st; [reflexivity|]. cbn [map fold_left]. apply IHw.
    - now rewrite map_length. }
  now rewrite G.
Qed.
End Canon.

Lemma same_level s columns columns' (e e' : Z * list text) : (forall c v, filled columns (snd e) c v <-> filled columns' (snd e') c v) ->
  NL s columns (snd e) = NL s columns' (snd e').
Proof.
  intros H. change (level_of (nbits s columns (snd e)) = level_of (nbits s columns' (snd e'))). apply level_eq. intros n.
  pose proof (nbit s columns (snd e) n) as A. pose proof (nbit s columns' (snd e') n) as B.
  assert (AB : bit_at (nbits s columns (snd e)) n = true <-> bit_at (nbits s columns' (snd e')) n = true).
  { rewrite A, B. split; intros (c & v & Hc & Hf); exists c, v; (split; [exact Hc|now apply H]). }
  destruct (bit_at _ n), (bit_at _ n); auto; [symmetry|]; now apply AB.
Qed.
Lemma same_candidates s columns columns' es es' (U : usable s columns es) (U' : usable s columns' es') (e e' : Z * list text) :
  (forall c v, filled columns (snd e) c v <-> filled columns' (snd e') c v) ->
  old_candidates s columns (snd e) = old_candidates s columns' (snd e').
Proof.
  intros H. unfold old_candidates. f_equal. apply filter_ext. intros r.
  destruct (forallb _ (criteria_of columns (snd e))) eqn:E1, (forallb _ (criteria_of columns' (snd e'))) eqn:E2; auto; exfalso.
  - assert (X : forallb (old_criterion (d_labels s) r) (criteria_of columns' (snd e')) = true); [|congruence].
    apply forallb_forall. intros (c & v) Hc. rewrite forallb_forall in E1. apply E1. apply (in_criteria s columns es U). apply H. now apply (in_criteria s columns' es' U').
  - assert (X : forallb (old_criterion (d_labels s) r) (criteria_of columns (snd e)) = true); [|congruence].
    apply forallb_forall. intros (c & v) Hc. rewrite forallb_forall in E2. apply E2. apply (in_criteria s columns' es' U'). apply H. now apply (in_criteria s columns es U).
Qed.
Lemma same_matches gran s limit allow columns columns' es es' : usable s columns es -> usable s columns' es' -> same_rows columns columns' es es' ->
  old_match_records gran s limit allow columns es = old_match_records gran s limit allow columns' es'.
Proof.
  intros U U' SR. rewrite (match_canon gran s limit allow columns es U), (match_canon gran s limit allow columns' es' U'). f_equal.
  pose proof (same_candidates s columns columns' es es' U U') as C. clear U U'.
  induction SR as [|e e' l l' [E H] SR IH]; [reflexivity|]. cbn [map]. rewrite IH. f_equal. unfold abstract. now rewrite E, (same_level s columns columns' e e' H), (C e e' H).
Qed.

(** *** Labels in unknown columns *)

Definition from_rows (s : db) (columns : list text) (es : list (Z * list text)) (l : list hit) : Prop :=
  forall h, In h l -> exists loc, In (h_run h, loc) es /\ In (h_index h) (old_candidates s columns loc).
Lemma firstn_In {A} n (l : list A) x : In x (firstn n l) -> In x l.
Proof. intros H. rewrite <- (firstn_skipn n l). apply in_or_app. now left. Qed.
Lemma insert_from s columns es g lv run loc ids st : In (run, loc) es -> incl ids (old_candidates s columns loc) -> from_rows s columns es (fst st) ->
  from_rows s columns es (fst (old_insert s g lv run ids st)).
Proof.
  intros He Hi Hs. rewrite old_insert_fst. intros h Hh. apply in_app_or in Hh as [Hh|Hh]; [now apply Hs|]. unfold nh_old in Hh.
  destruct (_ && _) in Hh; [destruct Hh|]. apply in_map_iff in Hh as (i & <- & Hi'). exists loc. cbn. split; [exact He|now apply Hi].
Qed.
Lemma match_from s columns es gran limit allow l c : old_match_records gran s limit allow columns es = Ok (l, c) -> from_rows s columns es l.
Proof.
  intros HM. unfold old_match_records in HM. destruct (get_default_weight_group s) as [g|]; [|discriminate]. cbn [bind] in HM.
  destruct (get_level_pairs _ _ _ _) as [pairs|]; [|discriminate]. cbn [bind] in HM.
  assert (G : from_rows s columns es (fst (fold_left (old_match_level s g limit allow columns es) pairs ([], old_zero)))).
  { clear HM. assert (G0 : from_rows s columns es (fst (@nil hit, old_zero))) by (intros h []). revert G0. generalize (@nil hit, old_zero).
    induction pairs as [|p pairs IH]; intros st G0; [exact G0|]. cbn [fold_left]. apply IH. clear IH. unfold old_match_level. destruct (snd p) as [lv|]; [|exact G0].
    assert (Hin : forall e, In e (old_at (fst p) es) -> In e es) by (intros e He; unfold old_at in He; now apply filter_In in He).
    revert st G0. induction (old_at (fst p) es) as [|e w IHw]; intros st G0; [exact G0|]. cbn [fold_left]. apply IHw; [intros e' He'; apply Hin; now right|]. clear IHw.
    assert (He : In (fst e, snd e) es) by (destruct e; apply Hin; now left).
    unfold old_match_row. destruct (_ <? _); [exact G0|]. destruct (1 <? _).
    - destruct allow; apply (insert_from s columns es g lv (fst e) (snd e)); auto; intros i Hi; [now apply firstn_In in Hi|]. apply filter_In in Hi as [Hi _]. now apply firstn_In in Hi.
    - apply (insert_from s columns es g lv (fst e) (snd e)); auto. intros i Hi. now apply firstn_In in Hi. }
  injection HM as <- _. intros h Hh. unfold refresh_hits in Hh. apply in_map_iff in Hh as (h0 & <- & H0). cbn. now apply G.
Qed.
Lemma criteria_nodup columns loc : NoDup columns -> criteria_of columns loc = filter (fun kv => negb (is_empty (snd kv))) (combine columns loc).
Proof.
  intros ND. unfold criteria_of. rewrite criteria_fold; [reflexivity|]. cbn [app].
  apply nodup_map_filter. now apply combine_fst_nodup.
Qed.
Lemma label_of_none k cols : ~ In k cols -> forall labels, label_of k cols labels = None.
Proof.
  induction cols as [|c cols IH]; intros H [|w labels]; cbn [label_of]; try reflexivity.
  destruct (text_eqb c k) eqn:E; [apply text_eqb_iff in E; exfalso; apply H; now left|]. apply IH. intros Hi. apply H. now right.
Qed.
Lemma unknown_row s columns es gran limit allow l c run loc col v : NoDup columns -> NoDup (map fst es) ->
  old_match_records gran s limit allow columns es = Ok (l, c) -> In (run, loc) es ->
  filled columns loc col v -> ~ In col (d_labels s) -> col <> txt "index_id" -> v <> col -> of_run run l = [].
Proof.
  intros NC NR HM He (n & Hn & Hv & Nv) Nk Ni Nc. apply match_from in HM.
  destruct (of_run run l) as [|h t] eqn:E; [reflexivity|]. exfalso.
  assert (Hh : In h (of_run run l)) by (rewrite E; now left). apply in_run in Hh as [Hh Hr].
  destruct (HM h Hh) as (loc' & He' & Hc). rewrite Hr in He'.
  assert (loc' = loc) as ->.
  { assert (X : (run, loc') = (run, loc)); [|congruence]. eapply (nodup_map_inj fst); eauto. }
  unfold old_candidates in Hc. apply in_map_iff in Hc as (r & _ & Hf). apply filter_In in Hf as [_ Hf]. rewrite forallb_forall in Hf.
  assert (Hin : In (col, v) (criteria_of columns loc)).
  { rewrite criteria_nodup by exact NC. apply filter_In. split; [|destruct v; [congruence|reflexivity]].
    clear - Hn Hv. revert columns loc Hn Hv. induction n as [|n IH]; intros [|a columns] [|b loc] Hn Hv; cbn in *; try discriminate.
    - left. congruence.
    - right. eauto. }
  apply Hf in Hin. unfold old_criterion in Hin. cbn [fst snd] in Hin.
  destruct (text_eqb col (txt "index_id")) eqn:E1; [apply text_eqb_iff in E1; contradiction|].
  unfold criterion_holds in Hin. cbn [fst snd] in Hin. rewrite label_of_none in Hin by exact Nk. apply text_eqb_iff in Hin. congruence.
Qed.
