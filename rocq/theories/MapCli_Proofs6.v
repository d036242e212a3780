(** Proofs for C58: what a successful command stores. *)
From Coq Require Import NArith ZifyBool ZifyN ZifyNat Lia Lqa.
From Verif Require Import Prelude QLemmas BitFlags_Model BitFlags_Spec BitFlags_Proofs Selectors_Model Selectors_Proofs LinkRef_Model Db_Model Db_Spec Db_Proofs Db_ProofsLocal Db_ProofsRun
  Reader_Model Reader_Spec Reader_Proofs Mapper_Model Mapper_Spec Mapper_Proofs3 Mapper_Proofs4 Mapper_Properties Streams_Model Streams_Spec EdgeText_Model IndexCli_Model IndexCli_Spec
  MapCli_Model MapCli_Spec MapCli_Proofs MapCli_Proofs2 MapCli_Proofs3 MapCli_Proofs4 MapCli_Proofs5.
Local Open Scope nat_scope.

Lemma level_bits a b : level_of a = level_of b -> same_bits a b.
Proof.
  intros E. unfold level_of in E. assert (F : of_bits a = of_bits b).
  { rewrite <- (of_bytes_round _ (of_bits_wf a)), <- (of_bytes_round _ (of_bits_wf b)). now rewrite E. }
  intros i. rewrite <- (of_bits_iter a i), <- (of_bits_iter b i). now rewrite F.
Qed.
Lemma bit_true a : In true a <-> exists i, bit_at a i = true.
Proof.
  unfold bit_at. split.
  - intros H. apply In_nth with (d := false) in H. destruct H as (i & _ & H). eauto.
  - intros (i & H). destruct (Nat.lt_ge_cases i (length a)) as [L|L]; [rewrite <- H; now apply nth_In|]. rewrite nth_overflow in H by exact L. discriminate.
Qed.
Lemma level_some a b : level_of a = level_of b -> In true a -> In true b.
Proof. intros E H. apply bit_true in H. destruct H as (i & H). apply bit_true. exists i. now rewrite <- (level_bits _ _ E i). Qed.
Lemma every_there s b : d_labels s <> [] -> In b (d_structs s) -> every_column s = level_of b -> level_there s (every_column s).
Proof.
  intros N Hb E. exists b. split; [exact Hb|]. split; [|exact E]. apply (level_some _ _ E).
  destruct (d_labels s) as [|x t]; [contradiction|]. now left.
Qed.

Section Command.
Context (todecimal : N -> option N) (o : options) (x1 x2 : space) (header : list cell) (rows : list (list cell)) (ops1 ops2 : list op).
Context (S1 : sp_db x1 = run ops1 fresh) (S2 : sp_db x2 = run ops2 fresh)
  (L1 : NoDup (map level_of (d_structs (sp_db x1)))) (L2 : NoDup (map level_of (d_structs (sp_db x2)))).
Let R := read_from_stdin todecimal o x1 x2 (reader_of (header :: rows)).

Definition matches (data : list mapping_row) (l1 l2 : list hit) : Prop :=
  exists c1 c2, match_records (sp_gran x1) (sp_db x1) (o_limit o) (o_overlapping o) (side_1 (sources data)) [] = Ok (l1, c1) /\
    match_records (sp_gran x2) (sp_db x2) (o_limit o) (o_overlapping o) (side_2 (sources data)) [] = Ok (l2, c2).
Lemma matches_props data l1 l2 : matches data l1 l2 -> (forall h, In h l1 -> h_prop h <> None) /\ (forall h, In h l2 -> h_prop h <> None).
Proof.
  intros (c1 & c2 & M1 & M2). rewrite S1 in M1, L1. rewrite S2 in M2, L2. split.
  - exact (prop_there ops1 _ _ _ _ _ _ L1 (runs1 data) M1).
  - exact (prop_there ops2 _ _ _ _ _ _ L2 (runs2 data) M2).
Qed.

Lemma loaded : r_exit R = Ok ExitOk ->
  exists data l1 l2, understood todecimal (o_link o) x1 x2 header rows data /\ Forall (loadable x1 x2) data /\ matches data l1 l2 /\
    (o_incomplete o = true \/ is_fully_matched (sp_db x1) (sp_db x2) l1 l2 = true) /\
    (forall k, linked (o_link o) x1 x2 k -> o_direction o <> ToLeft ->
       loads k (fun a b lv q => level_there (sp_db x2) lv /\ made (numbered data) l1 l2 a b lv q) (sp_db x2) (r_2 R)) /\
    (forall k, linked (o_link o) x2 x1 k -> o_direction o <> ToRight ->
       loads k (fun a b lv q => level_there (sp_db x1) lv /\ made (numbered data) l2 l1 a b lv q) (sp_db x1) (r_1 R)).
Proof.
  intros HE. unfold R in *. destruct (outcome_cases todecimal o x1 x2 (reader_of (header :: rows))) as [(E & _)|(_ & dir & log & _ & _ & _ & [(e & _ & E & _)|(rr & lr & B & [(e & _ & _ & E & _)|(log2 & C2 & [(e & _ & _ & E & _)|(log1 & C1 & _)])])])]; try congruence.
  apply build_iff in B. destruct B as (data & l1 & c1 & l2 & c2 & U & Ld & M1 & M2 & I & Er & El).
  assert (M : matches data l1 l2) by (exists c1, c2; auto). destruct (matches_props _ _ _ M) as [P1 P2].
  exists data, l1, l2. split; [exact U|]. split; [exact Ld|]. split; [exact M|]. split; [exact I|]. split.
  - intros k K D. destruct C2 as [(_ & _ & _ & _ & Ins)|(NA & _)]; [|exfalso; apply NA; split; [exact D|eauto]].
    rewrite Er in Ins. exact (loads_of data l1 l2 P1 P2 _ _ k _ _ Ins K).
  - intros k K D. destruct C1 as [(_ & _ & _ & _ & Ins)|(NA & _)]; [|exfalso; apply NA; split; [exact D|eauto]].
    rewrite El in Ins. exact (loads_of data l2 l1 P2 P1 _ _ k _ _ Ins K).
Qed.

Lemma complete_rows data l1 l2 : Forall (loadable x1 x2) data -> matches data l1 l2 -> is_fully_matched (sp_db x1) (sp_db x2) l1 l2 = true ->
  (forall i, defined (sp_db x1) i -> exists m, In m data /\ refers (sp_db x1) (side1 m) i) /\
  (forall i, defined (sp_db x2) i -> exists m, In m data /\ refers (sp_db x2) (side2 m) i).
Proof.
  intros Ld (c1 & c2 & M1 & M2) F. pose proof (erased_load x1 x2 data Ld) as E. destruct (erased_sides (sources data)) as [E1 E2].
  rewrite S1 in *. rewrite S2 in *.
  assert (Md : mapped (sp_gran x1) (sp_gran x2) (run ops1 fresh) (run ops2 fresh) (o_limit o) (o_overlapping o) (map erase (sources data)) l1 l2).
  { split; [eauto|exists c1; now rewrite E1|exists c2; now rewrite E2|exact L1|exact L2]. }
  apply (C21_fully_matched _ _ _ _ _ _ _ _ _ Md) in F. destruct F as [F1 F2]. split.
  - intros i Hi. destruct (F1 i Hi) as (h & Hh & <-). destruct (C21_sound _ _ _ _ _ _ _ _ L1 (runs1 data) M1 Hh) as (d & Hd & _ & Rf).
    rewrite side_1_sources in Hd. apply in_map_iff in Hd. destruct Hd as ((n & m) & [= En <-] & Hm). apply in_numbered in Hm. eauto.
  - intros i Hi. destruct (F2 i Hi) as (h & Hh & <-). destruct (C21_sound _ _ _ _ _ _ _ _ L2 (runs2 data) M2 Hh) as (d & Hd & _ & Rf).
    rewrite side_2_sources in Hd. apply in_map_iff in Hd. destruct Hd as ((n & m) & [= En <-] & Hm). apply in_numbered in Hm. eauto.
Qed.

Lemma code_levels data m : understood todecimal (o_link o) x1 x2 header rows data -> In m data ->
  (mr_id1 m <> None -> sd_level (side1 m) = every_column (sp_db x1)) /\ (mr_id2 m <> None -> sd_level (side2 m) = every_column (sp_db x2)).
Proof.
  intros (p & s & _ & _ & _ & F) Hm. assert (X : exists l, mapping_row_for todecimal (node_of x1) (node_of x2) header p (RSeq l) m).
  { clear - F Hm. induction F as [|l m' ? ? Hr ? IH]; [destruct Hm|]. destruct Hm as [->|Hm]; [exists l; exact Hr|auto]. }
  destruct X as (l & l' & _ & _ & _ & V1 & _ & _ & V2 & _). unfold row_level in V1, V2. cbn [side1 side2 sd_level]. unfold every_column, level_of. cbn [node_of n_index_columns] in V1, V2.
  split; intros N; [destruct (mr_id1 m)|destruct (mr_id2 m)]; try contradiction; congruence.
Qed.

Lemma known_right data l1 l2 : understood todecimal (o_link o) x1 x2 header rows data -> Forall (loadable x1 x2) data -> matches data l1 l2 ->
  Forall (fun m => by_codes x1 x2 m \/ void (o_limit o) x1 x2 m) data ->
  (forall nm, In nm (numbered data) -> row_known mr_id1 mr_id2 l1 l2 (every_column (sp_db x2)) nm) /\
  (forall nm, In nm (numbered data) -> row_known mr_id2 mr_id1 l2 l1 (every_column (sp_db x1)) nm).
Proof.
  intros U Ld (c1 & c2 & M1 & M2) F. rewrite Forall_forall in Ld, F.
  assert (X : forall n m, In (n, m) (numbered data) ->
    (exists a b x y, mr_id1 m = Some a /\ mr_id2 m = Some b /\ of_run n l1 = [x] /\ h_index x = a /\ h_level x = every_column (sp_db x1) /\ (part x == 1)%Q /\
     of_run n l2 = [y] /\ h_index y = b /\ h_level y = every_column (sp_db x2) /\ (part y == 1)%Q) \/
    (mr_id1 m = None /\ of_run n l1 = [] \/ mr_id2 m = None /\ of_run n l2 = [])).
  { intros n m Hn. pose proof (in_numbered _ _ _ Hn) as Hm. destruct (Ld m Hm) as (Lv1 & Lv2 & _). destruct (code_levels data m U Hm) as [C1 C2].
    assert (I1 : In (n, side1 m) (side_1 (sources data))) by (rewrite side_1_sources; apply in_map_iff; exists (n, m); auto).
    assert (I2 : In (n, side2 m) (side_2 (sources data))) by (rewrite side_2_sources; apply in_map_iff; exists (n, m); auto).
    destruct (F m Hm) as [(a & b & A & B & HA & HB)|[V|V]].
    - left. rewrite S1 in *. rewrite S2 in *.
      destruct (code_run ops1 _ _ _ _ _ _ L1 (runs1 data) M1 n (side1 m) a I1 Lv1 A HA) as (x & X1 & X2 & X3 & X4).
      destruct (code_run ops2 _ _ _ _ _ _ L2 (runs2 data) M2 n (side2 m) b I2 Lv2 B HB) as (y & Y1 & Y2 & Y3 & Y4).
      exists a, b, x, y. rewrite C1 in X3 by congruence. rewrite C2 in Y3 by congruence. auto 12.
    - right. left. split; [exact (proj1 V)|]. rewrite S1 in *. exact (void_run ops1 _ _ _ _ _ _ L1 (runs1 data) M1 n (side1 m) I1 Lv1 V).
    - right. right. split; [exact (proj1 V)|]. rewrite S2 in *. exact (void_run ops2 _ _ _ _ _ _ L2 (runs2 data) M2 n (side2 m) I2 Lv2 V). }
  split; intros (n & m) Hn; destruct (X n m Hn) as [(a & b & x & y & A & B & C & D & E & G & H & I & J & K)|[(A & B)|(A & B)]]; cbn [row_known fst snd]; unfold row_known; cbn [fst snd]; auto.
  - left. exists a, b, x, y. auto 12.
  - left. exists b, a, y, x. auto 12.
Qed.

Lemma giv_gives a b m : giv mr_id1 mr_id2 a b m = gives a b m.
Proof. reflexivity. Qed.
Lemma giv_gives' a b m : giv mr_id2 mr_id1 a b m = gives b a m.
Proof. unfold giv, gives. destruct (mr_id1 m), (mr_id2 m); try reflexivity. apply andb_comm. Qed.
Lemma given_ext f g data w a b lv q : (forall m, f m = g m) -> (given f data w a b lv q <-> given g data w a b lv q).
Proof.
  intros E. unfold given. rewrite (filter_ext f g E). split; intros (A & B & (m & C & D) & F); (split; [exact A|split; [exact B|split; [exists m|exact F]]]); now rewrite E in *.
Qed.
Lemma loads_ext k f g s s' : (forall a b lv q, f a b lv q <-> g a b lv q) -> loads k f s s' -> loads k g s s'.
Proof. intros E [A B C]. split; [|exact B|exact C]. intros a b lv q. now rewrite A, E. Qed.

Lemma by_code data l1 l2 : understood todecimal (o_link o) x1 x2 header rows data -> Forall (loadable x1 x2) data -> matches data l1 l2 ->
  Forall (fun m => by_codes x1 x2 m \/ void (o_limit o) x1 x2 m) data ->
  (d_labels (sp_db x2) <> [] -> forall a b lv q, level_there (sp_db x2) lv /\ made (numbered data) l1 l2 a b lv q <-> given (gives a b) data (every_column (sp_db x2)) a b lv q) /\
  (d_labels (sp_db x1) <> [] -> forall a b lv q, level_there (sp_db x1) lv /\ made (numbered data) l2 l1 a b lv q <-> given (gives b a) data (every_column (sp_db x1)) a b lv q).
Proof.
  intros U Ld M F. destruct (known_right data l1 l2 U Ld M F) as [K1 K2]. rewrite Forall_forall in Ld. split; intros N a b lv q.
  - rewrite (made_given mr_id1 mr_id2 l1 l2 (every_column (sp_db x2)) data a b lv q K1). rewrite (given_ext _ (gives a b)) by (intros; apply giv_gives).
    split; [tauto|]. intros G. split; [|exact G]. destruct G as (_ & -> & (m & Hm & Gm) & _).
    destruct (Ld m Hm) as (_ & (bb & Hb & Eb) & _). apply (every_there _ bb N Hb). rewrite <- Eb. symmetry. apply (code_levels data m U Hm).
    unfold gives in Gm. destruct (mr_id1 m), (mr_id2 m); discriminate.
  - rewrite (made_given mr_id2 mr_id1 l2 l1 (every_column (sp_db x1)) data a b lv q K2). rewrite (given_ext _ (gives b a)) by (intros; apply giv_gives').
    split; [tauto|]. intros G. split; [|exact G]. destruct G as (_ & -> & (m & Hm & Gm) & _).
    destruct (Ld m Hm) as ((bb & Hb & Eb) & _ & _). apply (every_there _ bb N Hb). rewrite <- Eb. symmetry. apply (code_levels data m U Hm).
    unfold gives in Gm. destruct (mr_id1 m), (mr_id2 m); discriminate.
Qed.
End Command.
