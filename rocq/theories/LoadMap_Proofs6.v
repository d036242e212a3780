(** C60: the whole of loading. *)
From Coq Require Import NArith Permutation ZifyBool ZifyN ZifyNat Lia Lqa.
From Verif Require Import Prelude QLemmas BitFlags_Model BitFlags_Spec BitFlags_Proofs Streams_Model Streams_Spec Streams_Proofs3 Selectors_Model Selectors_Proofs LinkRef_Model LinkRef_Spec LinkRef_Proofs
  Db_Model Db_Spec Db_Proofs Db_ProofsLocal Db_ProofsRun Reader_Model Reader_Spec Reader_Proofs Reader_Proofs3
  Mapper_Model Mapper_Spec Mapper_Proofs Mapper_Proofs2 Mapper_Proofs3 Mapper_Proofs4
  Elements_Model EdgeText_Model MapCli_Model MapCli_Spec MapCli_Proofs5 LoadMap_Model LoadMap_Spec LoadMap_Proofs LoadMap_Proofs2 LoadMap_Proofs3 LoadMap_Proofs4 LoadMap_Proofs5.
Local Open Scope nat_scope.

(** *** Facts about the matches of a side *)

Section Hits.
Context (gran : list bool -> option Q) (s : db) (limit : nat) (allow : bool) (columns : list text) (es : list (Z * list text)).
Context (U : usable s columns es) (W : index_wf s) (WW : weights_wf s).
Context (l : list hit) (c : old_counter) (HM : old_match_records gran s limit allow columns es = Ok (l, c)).
Lemma hit_matched h : In h l -> matched (h_run h) l = true /\ In h (of_run (h_run h) l).
Proof.
  intros H. split; [unfold matched; apply existsb_exists; exists h; split; [exact H|lia]|]. apply in_run. auto.
Qed.
Lemma hit_prop h : In h l -> h_prop h <> None /\ (0 <= part h)%Q.
Proof.
  intros H. destruct (hit_matched h H) as [Hm Hr]. destruct (old_shares gran s limit allow columns es U l c HM (h_run h) WW Hm) as [K _].
  destruct (K h Hr) as (p & E & [P _] & _). unfold part. rewrite E. split; [discriminate|exact P].
Qed.
Lemma hit_level h : In h l -> level_there s (h_level h).
Proof.
  intros H. destruct (hit_row gran s limit allow columns es U l c HM h H) as (loc & b & _ & (B1 & B2 & _) & E). exists b. auto.
Qed.
Lemma hit_index h : In h l -> has_index s (h_index h).
Proof.
  intros H. destruct (match_from s columns es gran limit allow l c HM h H) as (loc & _ & Hc). unfold old_candidates in Hc.
  apply in_map_iff in Hc as (r & <- & Hr). apply filter_In in Hr as [Hr _]. exists r. auto.
Qed.
End Hits.

Lemma graded_match gran s limit allow columns es : usable s columns es -> graded gran s columns es ->
  exists l c, old_match_records gran s limit allow columns es = Ok (l, c).
Proof.
  intros U ((g & D & x & Hx & Ex) & G). unfold old_match_records, get_default_weight_group. rewrite D.
  replace (existsb (fun g0 => (g_id g0 =? g)%Z) (d_groups s)) with true by (symmetry; apply existsb_exists; exists x; split; [exact Hx|lia]).
  cbn [bind]. unfold get_level_pairs.
  replace (existsb _ _) with false; [rewrite andb_false_r; cbn [bind]; eauto|]. symmetry.
  destruct (existsb _ _) eqn:E; [|reflexivity]. exfalso. apply existsb_exists in E as (p & Hp & E).
  apply in_pairs in Hp as (e & He & ->). destruct (pair_cases gran s columns e) as [(b & Hb)|Hn].
  - destruct (pair_some gran s columns es U e b Hb) as [P1 P2]. rewrite P1, P2 in E. specialize (G e b He Hb). destruct (gran b); [discriminate|congruence].
  - rewrite (pair_none gran s columns e Hn) in E. discriminate.
Qed.

Lemma carried_get rows l1 l2 a b : ~ (a = 0 /\ b = 0)%Z ->
  carried (get_mappings rows l1 l2) a b = carried (iter_mappings (src_of rows) l1 l2) a b.
Proof.
  intros N. unfold carried. rewrite get_iter. f_equal. f_equal. rewrite filter_andb. apply filter_ext. intros (((x & y) & lv) & q). cbn.
  unfold some_key. cbn. lia.
Qed.
Lemma both_ways rows l1 l2 a b : ~ (a = 0 /\ b = 0)%Z ->
  (carried (get_mappings rows l1 l2) a b == carried (get_mappings rows l2 l1) b a)%Q.
Proof. intros N. rewrite !carried_get by tauto. apply old_directions. Qed.

(** *** Loading *)

Section Whole.
Context (a : load_args) (x1 x2 : lspace) (d : Streams_Model.data) (columns : option (list Streams_Model.cell)) (header : list text) (cells : list (list Streams_Model.cell)).
Context (HT : is_table d columns header cells) (Reg : regular header cells).
Lemma build_iff rr lr : build_old a x1 x2 d columns = Ok (rr, lr) <->
  exists c1 c2 rows l1 l2, table_is a x1 x2 header cells c1 c2 rows /\ matched_sides a x1 x2 c1 c2 rows l1 l2 /\
    rr = to_rows (get_mappings rows l1 l2) /\ lr = to_rows (get_mappings rows l2 l1).
Proof.
  unfold build_old. unfold is_table in HT. rewrite HT. cbn [bind]. rewrite (proj2 (text_cells _ _) eq_refl). cbn [bind].
  pose proof (read_table_iff a x1 x2 header cells) as RT. unfold read_table in RT.
  destruct (normalize_domains (chain (map RSeq cells) Stop) header (la_link a) (l_domain x1) (l_domain x2)) as [[s cs]|e]; cbn [bind] in *.
  2:{ split; [discriminate|]. intros (c1 & c2 & rows & l1 & l2 & T & _). apply RT in T; [discriminate|exact Reg]. }
  destruct (old_mapper (la_link a) s cs) as [[[c1 c2] rows]|e]; cbn [bind] in *.
  2:{ split; [discriminate|]. intros (c1 & c2 & rows & l1 & l2 & T & _). apply RT in T; [discriminate|exact Reg]. }
  split.
  - intros H. apply bind_ok in H as ([l1 q1] & E1 & H). apply bind_ok in H as ([l2 q2] & E2 & H). injection H as <- <-.
    exists c1, c2, rows, l1, l2. split; [apply RT; [exact Reg|reflexivity]|]. split; [|auto]. split; eauto.
  - intros (c1' & c2' & rows' & l1 & l2 & T & ((q1 & E1) & (q2 & E2)) & -> & ->). apply RT in T; [|exact Reg]. injection T as <- <- <-.
    unfold left_rows in E1. unfold right_rows in E2. rewrite E1. cbn [bind]. rewrite E2. reflexivity.
Qed.
Let R := load_mapping a x1 x2 d columns.
Lemma refused_table : (forall c1 c2 rows l1 l2, table_is a x1 x2 header cells c1 c2 rows -> ~ matched_sides a x1 x2 c1 c2 rows l1 l2) ->
  ld_exit R <> None /\ ld_left R = l_db x1 /\ ld_right R = l_db x2.
Proof.
  intros H. unfold R, load_mapping. destruct (build_old a x1 x2 d columns) as [[rr lr]|e] eqn:E.
  - exfalso. apply build_iff in E as (c1 & c2 & rows & l1 & l2 & T & M & _). exact (H _ _ _ _ _ T M).
  - cbn. split; [discriminate|auto].
Qed.
Lemma one_side : (~ to_the_right a -> ld_right R = l_db x2) /\ (~ to_the_left a -> ld_left R = l_db x1).
Proof.
  rewrite <- right_iff, <- left_iff. unfold R, load_mapping. destruct (build_old a x1 x2 d columns) as [[rr lr]|e]; [|cbn; auto].
  destruct (within (txt "->") (la_direction a)), (within (txt "<-") (la_direction a)).
  - split; congruence.
  - destruct (load_link a x1 x2 rr) as [s2 [e|]]; cbn; split; congruence.
  - destruct (load_link a x2 x1 lr) as [s2 [e|]]; cbn; split; congruence.
  - cbn. auto.
Qed.
Lemma calls : exists ops1 ops2, ld_left R = run ops1 (l_db x1) /\ ld_right R = run ops2 (l_db x2) /\
  Forall honest ops1 /\ Forall honest ops2 /\ one_session ops1 /\ one_session ops2.
Proof.
  unfold R, load_mapping. assert (Nil : Forall honest [] /\ one_session []) by (split; constructor).
  destruct (build_old a x1 x2 d columns) as [[rr lr]|e]; [|exists [], []; cbn; tauto].
  destruct (load_link_calls a x1 x2 rr) as (o2 & E2 & P2 & Q2). destruct (load_link_calls a x2 x1 lr) as (o1 & E1 & P1 & Q1).
  destruct (within (txt "->") (la_direction a)).
  - destruct (load_link a x1 x2 rr) as [s2 [e|]]; cbn [fst] in E2; [exists [], o2; cbn; tauto|].
    destruct (within (txt "<-") (la_direction a)).
    + destruct (load_link a x2 x1 lr) as [s1' [e|]]; cbn [fst] in E1; exists o1, o2; cbn; tauto.
    + exists [], o2; cbn; tauto.
  - destruct (within (txt "<-") (la_direction a)).
    + destruct (load_link a x2 x1 lr) as [s1' [e|]]; cbn [fst] in E1; exists o1, []; cbn; tauto.
    + exists [], []; cbn; tauto.
Qed.
(** What is left behind when it fails: the links that were added, and all of the first direction. *)
Lemma failed_parts e : ld_exit R = Some e ->
  ld_left R = l_db x1 /\ ld_right R = l_db x2 \/
  exists rr lr, build_old a x1 x2 d columns = Ok (rr, lr) /\
    (to_the_right a /\ load_link a x1 x2 rr = (ld_right R, Some e) /\ ld_left R = l_db x1 \/
     to_the_left a /\ load_link a x2 x1 lr = (ld_left R, Some e) /\
       (to_the_right a -> load_link a x1 x2 rr = (ld_right R, None)) /\ (~ to_the_right a -> ld_right R = l_db x2)).
Proof.
  unfold R, load_mapping. destruct (build_old a x1 x2 d columns) as [[rr lr]|e'] eqn:B; [|cbn; auto].
  intros H. right. exists rr, lr. split; [reflexivity|]. rewrite <- right_iff, <- left_iff. revert H.
  destruct (within (txt "->") (la_direction a)).
  - destruct (load_link a x1 x2 rr) as [s2 [e2|]]; [cbn; intros H; left; inversion H; auto|].
    destruct (within (txt "<-") (la_direction a)); [|discriminate]. destruct (load_link a x2 x1 lr) as [s1' e1]; cbn. intros ->. right. repeat split; auto. congruence.
  - destruct (within (txt "<-") (la_direction a)); [|discriminate]. destruct (load_link a x2 x1 lr) as [s1' e1]; cbn. intros ->. right. repeat split; auto. congruence.
Qed.

Context (ops1 ops2 : list op) (HO1 : l_db x1 = run ops1 fresh) (HO2 : l_db x2 = run ops2 fresh) (H1 : one_session ops1) (H2 : one_session ops2).
Context (HN : la_link a <> []) (I1 : sp_id (l_space x1) <> []) (I2 : sp_id (l_space x2) <> []).

Lemma gets_link_ext from new new' s s' k : (forall o i lv q, new o i lv q <-> new' o i lv q) -> gets_link a from new s s' k -> gets_link a from new' s s' k.
Proof. intros E [A1 A2 A3 A4 A5 A6 A7 A8]. split; auto. intros. rewrite A6. apply E. Qed.

Lemma whole : ld_exit R = None -> exists c1 c2 rows l1 l2, table_is a x1 x2 header cells c1 c2 rows /\ matched_sides a x1 x2 c1 c2 rows l1 l2 /\
  (usable (l_db x1) c1 (left_rows rows) -> usable (l_db x2) c2 (right_rows rows) ->
    (to_the_right a -> exists k, gets_link a x1 (built rows l1 l2) (l_db x2) (ld_right R) k) /\
    (to_the_left a -> exists k, gets_link a x2 (built rows l2 l1) (l_db x1) (ld_left R) k)).
Proof.
  unfold R, load_mapping. destruct (build_old a x1 x2 d columns) as [[rr lr]|e] eqn:B; [|discriminate].
  apply build_iff in B as (c1 & c2 & rows & l1 & l2 & T & M & -> & ->). intros HE. exists c1, c2, rows, l1, l2. split; [exact T|]. split; [exact M|].
  intros U1 U2. destruct M as [(q1 & M1) (q2 & M2)]. pose proof (run_inv ops1) as V1. pose proof (run_inv ops2) as V2. rewrite <- HO1 in V1. rewrite <- HO2 in V2.
  pose proof (fun h Hh => proj1 (hit_prop _ _ _ _ _ _ U1 (i_weights _ V1) _ _ M1 h Hh)) as P1.
  pose proof (fun h Hh => proj1 (hit_prop _ _ _ _ _ _ U2 (i_weights _ V2) _ _ M2 h Hh)) as P2.
  pose proof (hit_level _ _ _ _ _ _ U1 _ _ M1) as L1. pose proof (hit_level _ _ _ _ _ _ U2 _ _ M2) as L2.
  assert (X2 : forall o i lv q, level_there (l_db x2) lv /\ built rows l1 l2 o i lv q <-> built rows l1 l2 o i lv q).
  { intros o i lv q. split; [tauto|]. intros Hb. split; [|exact Hb]. destruct Hb as (_ & (_ & _ & y & _ & _ & _ & _ & Hy & _ & _ & <-) & _). auto. }
  assert (X1 : forall o i lv q, level_there (l_db x1) lv /\ built rows l2 l1 o i lv q <-> built rows l2 l1 o i lv q).
  { intros o i lv q. split; [tauto|]. intros Hb. split; [|exact Hb]. destruct Hb as (_ & (_ & _ & y & _ & _ & _ & _ & Hy & _ & _ & <-) & _). auto. }
  pose proof (load_link_ok a x1 x2 ops2 HO2 H2 HN I1 rows l1 l2 P1 P2) as K2. pose proof (load_link_ok a x2 x1 ops1 HO1 H1 HN I2 rows l2 l1 P2 P1) as K1.
  rewrite <- right_iff, <- left_iff.
  destruct (within (txt "->") (la_direction a)).
  - destruct (load_link a x1 x2 _) as [s2 [e|]]; [discriminate|]. destruct (K2 s2 eq_refl) as (k2 & G2). apply (gets_link_ext _ _ _ _ _ _ X2) in G2.
    destruct (within (txt "<-") (la_direction a)).
    + destruct (load_link a x2 x1 _) as [s1' [e|]]; [discriminate|]. destruct (K1 s1' eq_refl) as (k1 & G1). apply (gets_link_ext _ _ _ _ _ _ X1) in G1. cbn. eauto.
    + cbn. split; [eauto|discriminate].
  - destruct (within (txt "<-") (la_direction a)).
    + destruct (load_link a x2 x1 _) as [s1' [e|]]; [discriminate|]. destruct (K1 s1' eq_refl) as (k1 & G1). apply (gets_link_ext _ _ _ _ _ _ X1) in G1. cbn. split; [discriminate|eauto].
    + cbn. split; discriminate.
Qed.

Lemma share_nonneg run l o : (forall h, In h l -> 0 <= part h)%Q -> (0 <= share_of run l o)%Q /\ forall lv, (0 <= share_at run l o lv)%Q.
Proof.
  intros H. assert (G : forall p, (0 <= Qsum (map part (filter p (of_run run l))))%Q).
  { intros p. apply Qsum_nonneg. intros q Hq. apply in_map_iff in Hq as (h & <- & Hh). apply filter_In in Hh as [Hh _]. apply in_run in Hh as [Hh _]. auto. }
  split; [apply G|intros lv; apply G].
Qed.
Lemma built_values rows from to : (forall r, In r rows -> (0 <= or_value r)%Q) -> (forall h, In h from -> 0 <= part h)%Q -> (forall h, In h to -> 0 <= part h)%Q ->
  forall o i lv q, built rows from to o i lv q -> (0 <= q)%Q.
Proof.
  intros V F T o i lv q (_ & _ & ->). apply Qsum_nonneg. intros x Hx. apply in_map_iff in Hx as (r & <- & Hr).
  apply Qmult_le_0_compat; [auto|]. apply Qmult_le_0_compat; [apply (share_nonneg _ from o F)|apply (share_nonneg _ to i T)].
Qed.
Lemma succeeds c1 c2 rows : table_is a x1 x2 header cells c1 c2 rows ->
  usable (l_db x1) c1 (left_rows rows) -> usable (l_db x2) c2 (right_rows rows) ->
  graded (sp_gran (l_space x1)) (l_db x1) c1 (left_rows rows) -> graded (sp_gran (l_space x2)) (l_db x2) c2 (right_rows rows) ->
  (forall r, In r rows -> (0 <= or_value r)%Q) ->
  (to_the_right a -> forall k, In k (d_links (l_db x2)) -> k_other k = sp_id (l_space x1) -> k_name k <> la_link a) ->
  (to_the_left a -> forall k, In k (d_links (l_db x1)) -> k_other k = sp_id (l_space x2) -> k_name k <> la_link a) ->
  ld_exit R = None.
Proof.
  intros T U1 U2 G1 G2 V N2 N1. pose proof (run_inv ops1) as V1. pose proof (run_inv ops2) as V2. rewrite <- HO1 in V1. rewrite <- HO2 in V2.
  destruct (graded_match _ _ (la_limit a) (la_overlapping a) _ _ U1 G1) as (l1 & q1 & M1). destruct (graded_match _ _ (la_limit a) (la_overlapping a) _ _ U2 G2) as (l2 & q2 & M2).
  assert (B : build_old a x1 x2 d columns = Ok (to_rows (get_mappings rows l1 l2), to_rows (get_mappings rows l2 l1))).
  { apply build_iff. exists c1, c2, rows, l1, l2. split; [exact T|]. split; [|auto]. split; eauto. }
  pose proof (hit_prop _ _ _ _ _ _ U1 (i_weights _ V1) _ _ M1) as P1. pose proof (hit_prop _ _ _ _ _ _ U2 (i_weights _ V2) _ _ M2) as P2.
  pose proof (hit_index _ _ _ _ _ _ _ _ M1) as X1. pose proof (hit_index _ _ _ _ _ _ _ _ M2) as X2.
  assert (S2 : to_the_right a -> exists s', load_link a x1 x2 (to_rows (get_mappings rows l1 l2)) = (s', None)).
  { intros Hr. apply (load_link_succeeds a x1 x2 ops2 HO2 H2 HN I1 rows l1 l2 (fun h Hh => proj1 (P1 h Hh)) (fun h Hh => proj1 (P2 h Hh)) (N2 Hr)); [|exact X2].
    apply built_values; [exact V|intros h Hh; apply (P1 h Hh)|intros h Hh; apply (P2 h Hh)]. }
  assert (S1 : to_the_left a -> exists s', load_link a x2 x1 (to_rows (get_mappings rows l2 l1)) = (s', None)).
  { intros Hr. apply (load_link_succeeds a x2 x1 ops1 HO1 H1 HN I2 rows l2 l1 (fun h Hh => proj1 (P2 h Hh)) (fun h Hh => proj1 (P1 h Hh)) (N1 Hr)); [|exact X1].
    apply built_values; [exact V|intros h Hh; apply (P2 h Hh)|intros h Hh; apply (P1 h Hh)]. }
  rewrite <- right_iff in S2. rewrite <- left_iff in S1. unfold R, load_mapping. rewrite B.
  destruct (within (txt "->") (la_direction a)).
  - destruct (S2 eq_refl) as (s2 & ->). destruct (within (txt "<-") (la_direction a)); [|reflexivity]. destruct (S1 eq_refl) as (s1' & ->). reflexivity.
  - destruct (within (txt "<-") (la_direction a)); [|reflexivity]. destruct (S1 eq_refl) as (s1' & ->). reflexivity.
Qed.
End Whole.

(** *** The rows of a table can be used *)

Lemma side_lengths domain columns cells cols loc : length cells = length columns -> side_columns domain columns cols -> side_of domain columns cells cols loc -> length loc = length cols.
Proof.
  intros L C H. inversion H; subst; [exact L|]. rewrite !app_length in *. cbn [length] in *. lia.
Qed.
Lemma table_lengths a x1 x2 header cells c1 c2 rows : regular header cells -> table_is a x1 x2 header cells c1 c2 rows ->
  forall r, In r rows -> length (or_left r) = length c1 /\ length (or_right r) = length c2.
Proof.
  intros Reg (n & L & S1 & S2 & _ & F & _) r Hr.
  assert (X : exists l, In l cells /\ l <> [] /\ row_is n header (l_domain x1) (l_domain x2) c1 c2 l (or_left r) (or_right r) (or_value r)).
  { clear - F Hr. remember (filter (fun l => negb (nil_b l)) cells) as fl eqn:E. assert (I : incl fl cells /\ forall l, In l fl -> l <> []).
    { subst fl. split; [intros l Hl; now apply filter_In in Hl|]. intros l Hl. apply filter_In in Hl as [_ Hl]. now destruct l. }
    clear E. induction F as [|l r' fl rows Hf F IH]; [destruct Hr|]. destruct Hr as [->|Hr].
    - exists l. split; [apply I; now left|]. split; [apply I; now left|exact Hf].
    - apply IH; [exact Hr|]. split; [intros y Hy; apply I; now right|intros y Hy; apply I; now right]. }
  destruct X as (l & Hl & Nl & (lft & c & rgt & El & Ln & _ & A1 & A2)).
  destruct (Reg l Hl) as [->|Len]; [contradiction|].
  destruct L as (pre & cc & post & Eh & Lp & _). assert (Lh : length header = length pre + S (length post)) by (rewrite <- (map_length (@CText)), Eh, app_length; reflexivity).
  rewrite El, app_length in Len. cbn [length] in Len.
  assert (E1 : length lft = length (firstn n header)) by (rewrite firstn_length; lia). assert (E2 : length rgt = length (skipn (n + 1) header)) by (rewrite skipn_length; lia).
  pose proof (side_lengths _ _ _ _ _ E1 S1 A1) as B1. pose proof (side_lengths _ _ _ _ _ E2 S2 A2) as B2. rewrite !map_length in *. auto.
Qed.
Lemma table_runs a x1 x2 header cells c1 c2 rows : table_is a x1 x2 header cells c1 c2 rows -> NoDup (map or_run rows).
Proof.
  intros (n & _ & _ & _ & _ & _ & E). rewrite E. apply FinFun.Injective_map_NoDup; [|apply seq_NoDup]. intros i j H. lia.
Qed.
Lemma usable_sides a x1 x2 header cells c1 c2 rows : regular header cells -> table_is a x1 x2 header cells c1 c2 rows ->
  (NoDup c1 -> NoDup (map level_of (d_structs (l_db x1))) ->
   (forall r c v, In r rows -> filled c1 (or_left r) c v -> In c (d_labels (l_db x1)) /\ c <> txt "index_id") -> usable (l_db x1) c1 (left_rows rows)) /\
  (NoDup c2 -> NoDup (map level_of (d_structs (l_db x2))) ->
   (forall r c v, In r rows -> filled c2 (or_right r) c v -> In c (d_labels (l_db x2)) /\ c <> txt "index_id") -> usable (l_db x2) c2 (right_rows rows)).
Proof.
  intros Reg T. pose proof (table_lengths _ _ _ _ _ _ _ _ Reg T) as L. pose proof (table_runs _ _ _ _ _ _ _ _ T) as N. split; intros ND S K; split; auto.
  - intros e He. apply in_map_iff in He as (r & <- & Hr). cbn. now apply L.
  - intros e c v He. apply in_map_iff in He as (r & <- & Hr). cbn. now apply K.
  - unfold left_rows. now rewrite map_map.
  - intros e He. apply in_map_iff in He as (r & <- & Hr). cbn. now apply L.
  - intros e c v He. apply in_map_iff in He as (r & <- & Hr). cbn. now apply K.
  - unfold right_rows. now rewrite map_map.
Qed.

(** *** Wrong domains *)

Lemma domain_pos (cs : list text) a b a' b' : cs = a ++ txt "domain" :: b -> ~ In (txt "domain") a -> cs = a' ++ txt "domain" :: b' -> ~ In (txt "domain") a' -> length a = length a'.
Proof.
  intros ->. revert a'. induction a as [|x a IH]; intros [|y a'] N E N'; cbn in *; try reflexivity; inversion E; subst.
  - exfalso. apply N'. now left.
  - exfalso. apply N. now left.
  - f_equal. eapply IH; eauto.
Qed.
Lemma checked_cell domain cols cells cols' loc a b v : domain <> [] -> cols = a ++ txt "domain" :: b -> ~ In (txt "domain") a ->
  side_of domain cols cells cols' loc -> nth_error cells (length a) = Some v -> v = CText domain.
Proof.
  intros D E N H Hv. inversion H; subst.
  - destruct H0 as [H0|H0]; [contradiction|]. exfalso. apply H0. apply in_or_app. right. now left.
  - rewrite (domain_pos _ _ _ _ _ eq_refl N H1 H2) in Hv. rewrite nth_error_app2 in Hv by lia. rewrite H4, Nat.sub_diag in Hv. cbn in Hv. congruence.
Qed.
Lemma wrong_domain a x1 x2 header cells c1 c2 rows n l p q v : regular header cells -> table_is a x1 x2 header cells c1 c2 rows ->
  link_column shorthand_name (la_link a) (map CText header) n -> In l cells ->
  (l_domain x1 <> [] /\ firstn n header = p ++ txt "domain" :: q /\ ~ In (txt "domain") p /\ nth_error l (length p) = Some v -> v = CText (l_domain x1)) /\
  (l_domain x2 <> [] /\ skipn (n + 1) header = p ++ txt "domain" :: q /\ ~ In (txt "domain") p /\ nth_error l (n + 1 + length p) = Some v -> v = CText (l_domain x2)).
Proof.
  intros Reg (n' & L' & S1 & S2 & _ & F & _) L Hl. assert (n' = n) as -> by (eapply link_column_fun; eauto).
  assert (X : l = [] \/ exists lft c rgt loc1 loc2, l = lft ++ c :: rgt /\ length lft = n /\ side_of (l_domain x1) (firstn n header) lft c1 loc1 /\ side_of (l_domain x2) (skipn (n + 1) header) rgt c2 loc2).
  { destruct l as [|y l]; [now left|]. right. assert (Hf : In (y :: l) (filter (fun l => negb (nil_b l)) cells)) by (apply filter_In; split; [exact Hl|reflexivity]).
    clear - F Hf. induction F as [|l0 r fl rows H F IH]; [destruct Hf|]. destruct Hf as [->|Hf]; [|now apply IH].
    destruct H as (lft & c & rgt & E & Ln & _ & A1 & A2). exists lft, c, rgt. eauto 8. }
  destruct X as [->|(lft & c & rgt & loc1 & loc2 & -> & Ln & A1 & A2)]; [split; intros (_ & _ & _ & H); destruct (_ + _) in H || destruct (length p) in H; discriminate|].
  split; intros (D & E & N & H).
  - eapply checked_cell; eauto. rewrite nth_error_app1 in H; [exact H|]. apply (f_equal (@length _)) in E. rewrite firstn_length, app_length in E. cbn [length] in E. lia.
  - eapply checked_cell; eauto. rewrite nth_error_app2 in H by lia. replace (n + 1 + length p - length lft) with (S (length p)) in H by lia. exact H.
Qed.

(** *** What is left behind when loading fails *)

Lemma load_link_parts a from into rows e s' ops : l_db into = run ops fresh -> one_session ops -> la_link a <> [] -> sp_id (l_space from) <> [] ->
  load_link a from into rows = (s', Some e) -> s' = l_db into \/ exists k, gets_link a from nothing (l_db into) s' k.
Proof.
  intros HO H1 HN HI H. unfold load_link in H.
  destruct (transact (add_link (new_link a from) (la_default a)) (l_db into)) as [t [e'|]] eqn:E.
  - left. inversion H; subst. destruct (transact_cases (add_link (new_link a from) (la_default a)) (l_db into)) as [(z & _ & Q & _)|(e2 & Q)]; rewrite Q in E; inversion E; reflexivity.
  - right. assert (s' = t) as -> by (destruct (transact_cases (insert_mappings2 (sp_id (l_space from)) (Some (la_link a)) rows) t) as [(z & _ & Q & _)|(e2 & Q)]; rewrite Q in H; inversion H; reflexivity).
    assert (X : load_link a from into (to_rows (get_mappings [] [] [])) = (t, None)).
    { unfold load_link. rewrite E.
      pose proof (add_inv a from into ops HO H1 HN HI) as T. unfold s1 in T. cbn [step] in T. rewrite E in T. cbn [fst snd] in T. destruct (T eq_refl) as (_ & F1 & i & _ & _ & Hl & _).
      unfold transact, insert_mappings2. rewrite Hl. cbn [bind get_mappings old_joint_rows flat_map]. cbn.
      destruct F1 as [_ _ _ W M _]. replace (fk_ok t) with true by (symmetry; apply MapCli_Proofs7.fk_ok_iff; split; [exact W|exact M]). now rewrite andb_false_r. }
    destruct (load_link_ok a from into ops HO H1 HN HI [] [] [] ltac:(intros h []) ltac:(intros h []) t X) as (k & G). exists k.
    revert G. apply gets_link_ext. intros o i lv q. unfold nothing, built. split; [|tauto]. intros (_ & _ & (r & _ & _ & [] & _) & _).
Qed.
Lemma load_link_same a from into rows : load_link (rightwards a) from into rows = load_link a from into rows.
Proof. reflexivity. Qed.
Lemma failed a x1 x2 d columns ops1 ops2 e : l_db x1 = run ops1 fresh -> l_db x2 = run ops2 fresh -> one_session ops1 -> one_session ops2 ->
  la_link a <> [] -> sp_id (l_space x1) <> [] -> sp_id (l_space x2) <> [] ->
  let R := load_mapping a x1 x2 d columns in ld_exit R = Some e ->
  (ld_left R = l_db x1 \/ exists k, gets_link a x2 nothing (l_db x1) (ld_left R) k) /\
  (ld_right R = l_db x2 \/ (exists k, gets_link a x1 nothing (l_db x2) (ld_right R) k) \/
   let R' := load_mapping (rightwards a) x1 x2 d columns in to_the_right a /\ ld_exit R' = None /\ ld_right R' = ld_right R).
Proof.
  intros O1 O2 H1 H2 HN I1 I2 R HE. subst R. destruct (failed_parts a x1 x2 d columns e HE) as [[A B]|(rr & lr & B & [(Hr & L & A)|(Hl & L & A & A')])].
  - rewrite A, B. auto.
  - rewrite A. split; [now left|]. destruct (load_link_parts _ _ _ _ _ _ _ O2 H2 HN I1 L) as [->|K]; auto.
  - split; [exact (load_link_parts _ _ _ _ _ _ _ O1 H1 HN I2 L)|]. destruct (within (txt "->") (la_direction a)) eqn:W.
    + apply right_iff in W. right. right. cbv zeta. split; [exact W|].
      unfold load_mapping at 1 2.
      assert (BB : build_old (rightwards a) x1 x2 d columns = Ok (rr, lr)) by exact B. rewrite BB. rewrite load_link_same, (A W). cbn. auto.
    + left. apply A'. intros Q. apply right_iff in Q. congruence.
Qed.
