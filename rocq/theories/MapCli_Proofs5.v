(** Proofs for C58: matching and what is loaded. *)
From Coq Require Import NArith ZifyBool ZifyN ZifyNat Lia Lqa.
From Verif Require Import Prelude QLemmas BitFlags_Model BitFlags_Spec BitFlags_Proofs Selectors_Model Selectors_Proofs LinkRef_Model Db_Model Db_Spec Db_Proofs Db_ProofsLocal Db_ProofsRun
  Reader_Model Reader_Spec Reader_Proofs Mapper_Model Mapper_Spec Mapper_Proofs3 Mapper_Proofs4 Mapper_Properties Streams_Model Streams_Spec IndexCli_Model IndexCli_Spec
  MapCli_Model MapCli_Spec MapCli_Proofs MapCli_Proofs2 MapCli_Proofs3 MapCli_Proofs4.
Local Open Scope nat_scope.

(** *** Numbers of rows *)

Lemma numbered_fst {A} (l : list A) : map fst (numbered l) = map (fun n => Z.of_nat n + 1)%Z (seq 0 (length l)).
Proof.
  unfold numbered. assert (E : length (map (fun n => (Z.of_nat n + 1)%Z) (seq 0 (length l))) = length l) by now rewrite map_length, seq_length.
  revert E. generalize (map (fun n => (Z.of_nat n + 1)%Z) (seq 0 (length l))) as a. induction l as [|y l IH]; intros [|b a] E; cbn in *; try discriminate; [reflexivity|]. f_equal. apply IH. lia.
Qed.
Lemma numbered_snd {A} (l : list A) : map snd (numbered l) = l.
Proof.
  unfold numbered. assert (E : length (map (fun n => (Z.of_nat n + 1)%Z) (seq 0 (length l))) = length l) by now rewrite map_length, seq_length.
  revert E. generalize (map (fun n => (Z.of_nat n + 1)%Z) (seq 0 (length l))) as a. induction l as [|y l IH]; intros [|b a] E; cbn in *; try discriminate; [reflexivity|]. f_equal. apply IH. lia.
Qed.
Lemma numbered_nodup {A} (l : list A) : NoDup (map fst (numbered l)).
Proof. rewrite numbered_fst. apply FinFun.Injective_map_NoDup; [intros a b; lia|apply seq_NoDup]. Qed.
Lemma in_numbered {A} (l : list A) n m : In (n, m) (numbered l) -> In m l.
Proof. intros H. rewrite <- (numbered_snd l). change m with (snd (n, m)). now apply in_map. Qed.
Lemma numbered_in {A} (l : list A) m : In m l -> exists n, In (n, m) (numbered l).
Proof. intros H. rewrite <- (numbered_snd l) in H. apply in_map_iff in H. destruct H as ((n & m') & <- & H). eauto. Qed.

Lemma side_1_sources data : side_1 (sources data) = map (fun nm => (fst nm, side1 (snd nm))) (numbered data).
Proof. unfold side_1, sources. rewrite map_map. reflexivity. Qed.
Lemma side_2_sources data : side_2 (sources data) = map (fun nm => (fst nm, side2 (snd nm))) (numbered data).
Proof. unfold side_2, sources. rewrite map_map. reflexivity. Qed.
Lemma runs1 data : NoDup (map fst (side_1 (sources data))).
Proof. rewrite side_1_sources, map_map. cbn [fst]. exact (numbered_nodup data). Qed.
Lemma runs2 data : NoDup (map fst (side_2 (sources data))).
Proof. rewrite side_2_sources, map_map. cbn [fst]. exact (numbered_nodup data). Qed.

(** Without the values, the rows are rows of C21. *)
Definition erase (r : source) : source := {| sr_run := sr_run r; sr_1 := sr_1 r; sr_2 := sr_2 r; sr_value := None |}.
Lemma erased_load x1 x2 data : Forall (loadable x1 x2) data ->
  load_mapper (sp_db x1) (sp_db x2) (map (fun m => (side1 m, side2 m, None)) data) = Ok (map erase (sources data)).
Proof.
  intros L. unfold load_mapper.
  assert (G : forall done todo, Forall (loadable x1 x2) todo ->
    fold_res (load_row (sp_db x1) (sp_db x2)) (map (fun m => (side1 m, side2 m, None)) todo) (map erase (sources done)) = Ok (map erase (sources (done ++ todo)))).
  { intros done todo. revert done. induction todo as [|m todo IH]; intros done T; [now rewrite app_nil_r|]. inversion T as [|? ? (A & B & _) T']; subst.
    cbn [map fold_res]. unfold load_row at 1. apply level_known in A. apply level_known in B. rewrite A, B. cbn [negb bind].
    rewrite map_length, sources_length. change (done ++ m :: todo) with (done ++ [m] ++ todo). rewrite app_assoc, <- IH by exact T'. f_equal.
    rewrite sources_snoc, map_app. reflexivity. }
  exact (G [] data L).
Qed.
Lemma erased_sides src : side_1 (map erase src) = side_1 src /\ side_2 (map erase src) = side_2 src.
Proof. unfold side_1, side_2. rewrite !map_map. auto. Qed.

(** *** One row *)

Section Row.
Context (ops : list op) (gran : list bool -> option Q) (limit : nat) (allow : bool) (es : list (Z * side)) (l : list hit) (c : counter).
Let s := run ops fresh.
Context (Hl : NoDup (map level_of (d_structs s))) (He : NoDup (map fst es)) (H : match_records gran s limit allow es [] = Ok (l, c)).

Lemma prop_there h : In h l -> h_prop h <> None.
Proof.
  intros Hh. assert (M : matched (h_run h) l = true) by (apply existsb_exists; exists h; split; [exact Hh|apply Z.eqb_refl]).
  destruct (C22_shares ops gran limit allow es l c (h_run h) Hl He H M) as [A _].
  destruct (A h) as (p & E & _); [unfold of_run; apply filter_In; split; [exact Hh|apply Z.eqb_refl]|congruence].
Qed.
Lemma code_run n d a : In (n, d) es -> (exists b, In b (d_structs s) /\ sd_level d = level_of b) -> sd_id d = Some a -> has_index s a ->
  exists h, of_run n l = [h] /\ h_index h = a /\ h_level h = sd_level d /\ (part h == 1)%Q.
Proof.
  intros Hn Hd Ha Hi. destruct (C21_matches ops gran limit allow es l c n d Hl He H Hn Hd) as (g & refs & keep & _ & (Nr & Rr) & K & A & _ & L).
  assert (Er : refs = [a]).
  { assert (I : In a refs) by (apply Rr; split; [exact Hi|now rewrite Ha]). assert (O : forall x, In x refs -> x = a) by (intros x Hx; apply Rr in Hx; destruct Hx as [_ Hx]; now rewrite Ha in Hx).
    destruct refs as [|x [|y refs]]; [contradiction|f_equal; apply O; now left|]. exfalso. inversion Nr; subst. apply H2. left. rewrite (O x), (O y); auto; [right; now left|now left]. }
  assert (Ek : keep = [a]).
  { pose proof (kp_nodup _ _ _ _ _ _ K) as Nk. pose proof (kp_in _ _ _ _ _ _ K) as Ik.
    assert (I : In a keep) by (apply Ik; split; [rewrite Er; now left|]; unfold by_labels; intros; congruence).
    assert (O : forall x, In x keep -> x = a) by (intros x Hx; apply Ik in Hx; rewrite Er in Hx; destruct Hx as [[<-|[]] _]; reflexivity).
    destruct keep as [|x [|y keep]]; [contradiction|f_equal; apply O; now left|]. exfalso. inversion Nk; subst. apply H2. left. rewrite (O x), (O y); auto; [right; now left|now left]. }
  assert (Ac : map h_index (of_run n l) = [a]).
  { rewrite <- Ek. apply A. rewrite Ek. split; [unfold by_labels; intros; congruence|cbn; lia]. }
  destruct (of_run n l) as [|h [|h2 t]] eqn:Eo; cbn in Ac; try discriminate. inversion Ac. exists h. split; [reflexivity|]. split; [auto|].
  split; [apply L; now left|].
  assert (M : matched n l = true).
  { apply existsb_exists. exists h. assert (Ih : In h (of_run n l)) by (rewrite Eo; now left). unfold of_run in Ih. apply filter_In in Ih. exact Ih. }
  destruct (C22_shares ops gran limit allow es l c n Hl He H M) as [_ P]. unfold parts in P. rewrite Eo in P. cbn in P. rewrite Qplus_0_r in P. exact P.
Qed.
Lemma void_run n d : In (n, d) es -> (exists b, In b (d_structs s) /\ sd_level d = level_of b) -> matches_nothing limit s d -> of_run n l = [].
Proof.
  intros Hn Hd (Bl & refs' & (Nr' & Rr') & Q). destruct (C21_matches ops gran limit allow es l c n d Hl He H Hn Hd) as (g & refs & keep & _ & (Nr & Rr) & K & A & B & L).
  assert (E : length refs = length refs').
  { apply Nat.le_antisymm; apply NoDup_incl_length; auto; intros x Hx; [apply Rr'; now apply Rr|apply Rr; now apply Rr']. }
  destruct Q as [Q|Q].
  - assert (Er : refs = []) by (destruct refs; [reflexivity|cbn in E; lia]). 
    assert (Ek : keep = []). { destruct keep as [|x keep]; [reflexivity|]. exfalso. assert (I : In x refs) by (apply (kp_in _ _ _ _ _ _ K x); now left). rewrite Er in I. contradiction. }
    assert (Ac : map h_index (of_run n l) = []) by (rewrite <- Ek; apply A; rewrite Er, Ek; split; cbn; lia).
    now apply map_eq_nil in Ac.
  - apply B. intros (C & _). specialize (C Bl). lia.
Qed.
End Row.

(** *** The mappings *)

Lemma iter_in src from to a b lv : (forall r, In r src -> sr_value r <> None) ->
  (forall h, In h from -> h_prop h <> None) -> (forall h, In h to -> h_prop h <> None) ->
  ((exists q, In ((a, b, lv), Some q) (iter_mappings src from to)) <->
   ~ (a = 0 /\ b = 0)%Z /\ exists r x y, In r src /\ In x from /\ In y to /\ h_run x = sr_run r /\ h_run y = sr_run r /\ h_index x = a /\ h_index y = b /\ h_level y = lv).
Proof.
  intros Hs Hf Ht. split.
  - intros (q & H). apply iter_defined in H. exact H.
  - intros (N & r & x & y & Hr & Hx & Hy & Rx & Ry & <- & <- & <-).
    set (k := (h_index x, h_index y, h_level y)).
    assert (E : exists v, In (k, v) (iter_mappings src from to)).
    { eexists. apply (in_group_by pair_eqb pair_eqb_iff). split; [|reflexivity]. apply in_map_iff.
      exists (k, sql_mult (sr_value r) (sql_mult (h_prop x) (h_prop y))). split; [reflexivity|]. unfold joint_rows. apply in_flat_map. exists r. split; [exact Hr|].
      rewrite joint_run. apply in_map_iff. exists (x, y). split; [reflexivity|]. apply in_flat_map. exists x. split; [unfold of_run; apply filter_In; split; [exact Hx|lia]|].
      apply in_map_iff. exists y. split; [reflexivity|]. apply filter_In. split; [unfold of_run; apply filter_In; split; [exact Hy|lia]|]. unfold not00. lia. }
    destruct E as ([q|] & E); [eauto|]. exfalso. apply (iter_some src from to _ _ _ _ Hs Hf Ht E). reflexivity.
Qed.

Lemma mapping_valued s k o i lv q : mapping_in s k o i lv q <-> exists q', valued s (k_id k) o i lv q' /\ (q' == q)%Q.
Proof.
  unfold mapping_in, valued. split.
  - intros (m & A & B & C & D & E & F). exists (m_value m). split; [exists m; auto 10|exact F].
  - intros (q' & (m & A & B & C & D & E & F) & G). exists m. rewrite F. auto 10.
Qed.

Section Load.
Context (data : list mapping_row) (from to : list hit) (Hf : forall h, In h from -> h_prop h <> None) (Ht : forall h, In h to -> h_prop h <> None).
Let src := sources data.
Lemma src_sum o i lv : (Qsum (map (fun r => val (sr_value r) * (share_of (sr_run r) from o * share_at (sr_run r) to i lv)) src) ==
  Qsum (map (fun nm => worth (snd nm) * (share_of (fst nm) from o * share_at (fst nm) to i lv)) (numbered data)))%Q.
Proof. unfold src, sources. rewrite map_map. reflexivity. Qed.
Lemma made_iff o i lv q : (exists q', In ((o, i, lv), Some q') (iter_mappings src from to) /\ (q' == q)%Q) <-> made (numbered data) from to o i lv q.
Proof.
  assert (Hs : forall r, In r src -> sr_value r <> None).
  { intros r Hr. unfold src, sources in Hr. apply in_map_iff in Hr. destruct Hr as (nm & <- & _). discriminate. }
  pose proof (iter_in src from to o i lv Hs Hf Ht) as K. unfold made. split.
  - intros (q' & H & E). destruct (proj1 K (ex_intro _ q' H)) as (N & r & x & y & Hr & Hx & Hy & Rx & Ry & Ix & Iy & Ly).
    split; [exact N|]. split.
    + unfold src, sources in Hr. apply in_map_iff in Hr. destruct Hr as ((n & m) & <- & Hr). cbn in Rx, Ry. exists n, m, x, y. auto 10.
    + rewrite <- src_sum, <- E. apply level_value in H. exact H.
  - intros (N & (n & m & x & y & Hr & Hx & Rx & Ix & Hy & Ry & Iy & Ly) & E).
    destruct (proj2 K) as (q' & H).
    { split; [exact N|]. exists (source_of (n, m)), x, y. split; [unfold src, sources; now apply in_map|]. cbn. auto 10. }
    exists q'. split; [exact H|]. apply level_value in H. rewrite E, <- src_sum. exact H.
Qed.
Lemma loads_of ref name k s s' : insert_mappings2 ref name (to_rows (iter_mappings src from to)) s = Ok s' ->
  get_link ref name true (d_links s) = Ok k ->
  loads k (fun o i lv q => level_there s lv /\ made (numbered data) from to o i lv q) s s'.
Proof.
  intros H Hk. destruct (load_effect _ _ _ _ _ H) as (k0 & k' & E & _ & _ & V & _ & Rest).
  { intros o i lv q Hi. apply iter_defined in Hi. apply Hi. }
  rewrite Hk in E. apply Ok_inj in E. subst k0. split.
  - intros o i lv q. rewrite !mapping_valued. rewrite <- made_iff. split.
    + intros (q' & Hq & Eq). apply V in Hq. destruct Hq as [Hq|(_ & Hq & L)]; [left; eauto|right]. split; [exact L|eauto].
    + intros [(q' & Hq & Eq)|(L & q' & Hq & Eq)]; exists q'; (split; [apply V|exact Eq]); auto.
  - intros k2 o i lv q N. rewrite !mapping_valued. split.
    + intros (q' & Hq & Eq). apply V in Hq. destruct Hq as [Hq|(Hq & _)]; [eauto|contradiction].
    + intros (q' & Hq & Eq). exists q'. split; [apply V; now left|exact Eq].
  - exact Rest.
Qed.
End Load.

(** *** Rows with codes *)

Section Codes.
Context (fid tid : mapping_row -> option Z) (from to : list hit) (lv0 : list N).
Definition giv (o i : Z) (m : mapping_row) : bool := match fid m, tid m with Some a, Some b => (a =? o)%Z && (b =? i)%Z | _, _ => false end.
Definition row_known (nm : Z * mapping_row) : Prop :=
  (exists a b x y, fid (snd nm) = Some a /\ tid (snd nm) = Some b /\ of_run (fst nm) from = [x] /\ h_index x = a /\ (part x == 1)%Q /\
     of_run (fst nm) to = [y] /\ h_index y = b /\ h_level y = lv0 /\ (part y == 1)%Q) \/
  ((of_run (fst nm) from = [] \/ of_run (fst nm) to = []) /\ (fid (snd nm) = None \/ tid (snd nm) = None)).
Lemma known_shares nm o i lv : row_known nm ->
  (share_of (fst nm) from o * share_at (fst nm) to i lv == if giv o i (snd nm) && bytes_eqb lv0 lv then 1 else 0)%Q.
Proof.
  intros [(a & b & x & y & Fa & Tb & Ox & Ix & Px & Oy & Iy & Ly & Py)|([E|E] & G)].
  - unfold giv, share_of, share_at. rewrite Fa, Tb, Ox, Oy. cbn [filter]. rewrite Ix, Iy, Ly.
    destruct (a =? o)%Z; cbn [andb]; [|cbn; ring]. destruct ((b =? i)%Z && bytes_eqb lv0 lv); cbn; [rewrite Px, Py; ring|ring].
  - assert (Z : giv o i (snd nm) = false) by (unfold giv; destruct G as [-> | ->]; [reflexivity|now destruct (fid (snd nm))]).
    rewrite Z. unfold share_of. rewrite E. cbn. ring.
  - assert (Z : giv o i (snd nm) = false) by (unfold giv; destruct G as [-> | ->]; [reflexivity|now destruct (fid (snd nm))]).
    rewrite Z. unfold share_at. rewrite E. cbn. ring.
Qed.
Lemma in_run n l h : In h (of_run n l) <-> In h l /\ h_run h = n.
Proof. unfold of_run. rewrite filter_In, Z.eqb_eq. reflexivity. Qed.
Lemma made_given data o i lv q : (forall nm, In nm (numbered data) -> row_known nm) ->
  (made (numbered data) from to o i lv q <-> given (giv o i) data lv0 o i lv q).
Proof.
  intros K. unfold made, given.
  assert (Ex : (exists n m x y, In (n, m) (numbered data) /\ In x from /\ h_run x = n /\ h_index x = o /\ In y to /\ h_run y = n /\ h_index y = i /\ h_level y = lv) <->
    lv = lv0 /\ exists m, In m data /\ giv o i m = true).
  { split.
    - intros (n & m & x & y & Hm & Hx & Rx & Ix & Hy & Ry & Iy & Ly). assert (X : In x (of_run n from)) by now apply in_run. assert (Y : In y (of_run n to)) by now apply in_run.
      destruct (K _ Hm) as [(a & b & x' & y' & Fa & Tb & Ox & Ix' & Px & Oy & Iy' & Ly' & Py)|([E|E] & G)]; cbn [fst snd] in *.
      + rewrite Ox in X. rewrite Oy in Y. destruct X as [<-|[]]. destruct Y as [<-|[]]. split; [congruence|]. exists m. split; [now apply in_numbered in Hm|].
        unfold giv. rewrite Fa, Tb. lia.
      + rewrite E in X. contradiction.
      + rewrite E in Y. contradiction.
    - intros (-> & m & Hm & G). apply numbered_in in Hm. destruct Hm as (n & Hm).
      destruct (K _ Hm) as [(a & b & x & y & Fa & Tb & Ox & Ix & Px & Oy & Iy & Ly & Py)|(_ & [G'|G'])]; cbn [fst snd] in *.
      + unfold giv in G. rewrite Fa, Tb in G. assert (X : In x (of_run n from)) by (rewrite Ox; now left). assert (Y : In y (of_run n to)) by (rewrite Oy; now left).
        apply in_run in X. apply in_run in Y. exists n, m, x, y. repeat split; try tauto; try lia. 
      + unfold giv in G. rewrite G' in G. discriminate.
      + unfold giv in G. rewrite G' in G. destruct (fid m); discriminate. }
  assert (S : lv = lv0 -> (Qsum (map (fun nm => worth (snd nm) * (share_of (fst nm) from o * share_at (fst nm) to i lv)) (numbered data)) == Qsum (map worth (filter (giv o i) data)))%Q).
  { intros ->. rewrite <- (numbered_snd data) at 2. clear Ex. revert K. generalize (numbered data) as l. induction l as [|nm l IH]; intros K; [reflexivity|].
    cbn [map filter Qsum fold_right]. rewrite (known_shares nm o i lv0) by (apply K; now left).
    rewrite (proj2 (bytes_eqb_iff lv0 lv0) eq_refl), andb_true_r. fold (Qsum (map (fun nm => worth (snd nm) * (share_of (fst nm) from o * share_at (fst nm) to i lv0)) l))%Q.
    rewrite IH by (intros x Hx; apply K; now right). destruct (giv o i (snd nm)); cbn [map Qsum fold_right]; unfold Qsum; ring. }
  rewrite Ex. split.
  - intros (N & (-> & E) & Q). split; [exact N|]. split; [reflexivity|]. split; [exact E|]. now rewrite <- S.
  - intros (N & -> & E & Q). split; [exact N|]. split; [auto|]. now rewrite S.
Qed.
End Codes.
