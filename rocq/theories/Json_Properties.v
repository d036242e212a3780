(** C65: the JSON columns of a node. *)
From Coq Require Import Ascii String List.
From Verif Require Import Prelude Selectors_Model Json_Model Json_Spec FileOpen_Proofs Json_Proofs Json_Proofs2 Json_Proofs3.
Local Open Scope N_scope.
Import ListNotations.

(** * The texts that are accepted and what they mean *)

(** json.loads accepts exactly the JSON texts (with NaN and the infinities), json_valid exactly
    those of RFC 8259. *)
Theorem C65_grammar : forall t,
  (forall v, loads t = Ok v <-> exists raw, Doc true t raw /\ v = py_value raw) /\
  (forall e, loads t = Err e <-> e = ValueError /\ forall raw, ~ Doc true t raw) /\
  (json_valid t = true <-> exists raw, Doc false t raw).
Proof.
  intro t. split; [intro v; apply loads_iff|]. split.
  - intro e. split; [apply loads_err|]. intros (-> & N). destruct (loads t) as [v|e] eqn:L.
    + exfalso. apply loads_iff in L. destruct L as (raw & D & _). exact (N raw D).
    + f_equal. apply (loads_err _ _ L).
  - unfold json_valid. destruct (scan_doc false t) as [v|] eqn:Sc; split; auto.
    + intros _. exists v. apply scan_doc_iff, Sc.
    + discriminate.
    + intros (raw & D). apply scan_doc_iff in D. congruence.
Qed.
Print Assumptions C65_grammar.

(** A text has at most one meaning, and every RFC 8259 text means the same to Python. *)
Theorem C65_unambiguous : forall t v w, Doc true t v -> Doc true t w \/ Doc false t w -> v = w.
Proof. intros t v w D [E|E]; [|apply doc_mono in E]; eapply doc_fun; eassumption. Qed.
Print Assumptions C65_unambiguous.

(** Of repeated names the last one wins. *)
Theorem C65_last_wins : forall kv k v d, py_value (JObj kv) = JObj d ->
  NoDup (map fst d) /\ (last_value k kv v -> In (k, py_value v) d) /\ (In k (map fst d) -> In k (map fst kv)).
Proof.
  intros kv k v d E. cbn in E. injection E as <-. split; [apply dict_of_nodup|]. split.
  - intro L. apply last_value_get in L. apply dict_get_in. rewrite py_dict_get, L. reflexivity.
  - intro I. destruct (dict_get k (dict_of (map (fun p => (fst p, py_value (snd p))) kv))) as [x|] eqn:G.
    + rewrite py_dict_get in G. destruct (dict_get k (rev kv)) eqn:R; [|discriminate]. apply dict_get_in in R. apply in_rev in R.
      change k with (fst (k, j)). apply in_map, R.
    + exfalso. apply dict_get_none in G. auto.
Qed.
Print Assumptions C65_last_wins.

(** What json.dumps writes is read back; with sorted keys the value is the same but for order. *)
Theorem C65_roundtrip : forall v, pyval v ->
  loads (dumps v) = Ok v /\ exists w, loads (dumps_sorted v) = Ok w /\ same v w.
Proof.
  intros v W. split; [apply loads_dumps, W|]. exists (sortk v). split; [apply loads_sorted, W|apply same_sortk, W].
Qed.
Print Assumptions C65_roundtrip.

(** The written texts consist of printable ASCII characters. *)
Theorem C65_ascii : forall v, pyval v ->
  Forall (fun c => 32 <= c <= 126) (dumps v) /\ Forall (fun c => 32 <= c <= 126) (dumps_sorted v).
Proof. intros v W. split; [apply dumps_print, W|apply dumps_print, pyval_sortk, W]. Qed.
Print Assumptions C65_ascii.

(** Sorted texts are equal exactly for equal values: this is what lets the UNIQUE constraint on
    a text column compare dicts. *)
Theorem C65_canonical : forall a b, pyval a -> pyval b -> (dumps_sorted a = dumps_sorted b <-> same a b).
Proof. exact canonical. Qed.
Print Assumptions C65_canonical.

(** What is read from a stored text is a value that can be written and read again. *)
Theorem C65_loaded : forall t v, clean t -> loads t = Ok v -> pyval v /\ loads (dumps v) = Ok v.
Proof. intros t v C L. pose proof (loads_pyval t v C L) as W. split; [exact W|apply loads_dumps, W]. Qed.
Print Assumptions C65_loaded.

(** * The triggers *)

(** Which column values are accepted, with SQLite's JSON functions ([true]) and with the
    Python functions that replace them ([false]). *)
Theorem C65_triggers : forall t,
  (forall j, stop_selectors j (Some t) = false <-> exists l, Doc (negb j) t (JArr (map JStr l))) /\
  (stop_attributes true (Some t) = false <->
     exists kv, Doc false t (JObj kv) /\ forall k v, In (k, v) kv -> exists s, v = JStr s) /\
  (stop_attributes false (Some t) = false <->
     exists kv, Doc true t (JObj kv) /\ forall k v, last_value k kv v -> exists s, v = JStr s) /\
  (forall j, stop_user_properties j (Some t) = false <-> exists kv, Doc (negb j) t (JObj kv)) /\
  (forall j, stop_property_value j (Some t) = false <-> exists v, Doc (negb j) t v).
Proof.
  intro t. split; [intro j; apply stop_selectors_iff|]. split; [apply stop_attributes_json1|].
  split; [apply stop_attributes_fallback|]. split; intro j; [apply stop_user_iff|apply stop_property_iff].
Qed.
Print Assumptions C65_triggers.

Theorem C65_null : forall j, stop_selectors j None = false /\ stop_attributes j None = false
  /\ stop_user_properties j None = false /\ stop_property_value j None = false.
Proof. intro j. repeat split. Qed.
Print Assumptions C65_null.

(** A file written where the JSON functions exist is accepted where they do not. *)
Theorem C65_portable : forall t,
  (stop_selectors true (Some t) = false -> stop_selectors false (Some t) = false) /\
  (stop_attributes true (Some t) = false -> stop_attributes false (Some t) = false) /\
  (stop_user_properties true (Some t) = false -> stop_user_properties false (Some t) = false) /\
  (stop_property_value true (Some t) = false -> stop_property_value false (Some t) = false).
Proof. exact stop_weaker. Qed.
Print Assumptions C65_portable.

(** FINDING: the other direction fails, for repeated names and for NaN. *)
Theorem C65_portable_back_refuted :
  (exists t, stop_attributes false (Some t) = false /\ stop_attributes true (Some t) = true) /\
  (exists t, stop_property_value false (Some t) = false /\ stop_property_value true (Some t) = true) /\
  (exists t, stop_user_properties false (Some t) = false /\ stop_user_properties true (Some t) = true).
Proof.
  split; [exists (txt "{""a"": 1, ""a"": ""x""}"); split; vm_compute; reflexivity|].
  split; [exists (txt "NaN"); split; vm_compute; reflexivity|].
  exists (txt "{""a"": [NaN]}"). split; vm_compute; reflexivity.
Qed.
Print Assumptions C65_portable_back_refuted.

(** * Selectors and user properties *)

(** The selectors of a link are stored and read back as given, one string as a list of one;
    no selectors are stored as NULL. *)
Theorem C65_link_selectors : forall j a l,
  a = SelNone /\ l = [] \/ (exists s, a = SelOne s /\ l = [s]) \/ a = SelList l ->
  Forall joined l ->
  exists x, link_selectors_add j a = Ok x /\ (x = None <-> l = []) /\
    read_column x = Ok (match l with [] => None | _ => Some (JArr (map JStr l)) end).
Proof.
  intros j a l H F. set (x := match l with [] => None | _ => Some (dumps (strings l)) end).
  assert (E : link_selectors_add j a = if stop_selectors j x then Err SqlIntegrityError else Ok x).
  { unfold x. destruct H as [(-> & ->)|[(s & -> & ->)| ->]]; reflexivity. }
  exists x. assert (St : stop_selectors j x = false) by (unfold x; destruct l; [reflexivity|apply strings_pass, F]).
  rewrite E, St. split; [reflexivity|]. unfold x. destruct l as [|s l]; [split; [tauto|reflexivity]|].
  split; [split; discriminate|]. unfold read_column. rewrite (loads_dumps (strings (s :: l))) by (apply strings_pyval, F). reflexivity.
Qed.
Print Assumptions C65_link_selectors.

Theorem C65_weight_selectors : forall j a l,
  (exists s, a = SelOne s /\ s <> [] /\ l = [s]) \/ (a = SelList l /\ l <> []) -> Forall joined l ->
  exists x, weight_selectors_add j a = Ok x /\ read_column x = Ok (Some (JArr (map JStr l))).
Proof.
  intros j a l H F. exists (Some (dumps (strings l))).
  assert (E : weight_selectors_add j a = if stop_selectors j (Some (dumps (strings l))) then Err SqlIntegrityError else Ok (Some (dumps (strings l)))).
  { destruct H as [(s & -> & N & ->)|(-> & N)].
    - destruct s; [congruence|reflexivity].
    - destruct l; [congruence|reflexivity]. }
  rewrite E, strings_pass by exact F. split; [reflexivity|]. unfold read_column.
  rewrite (loads_dumps (strings l)) by (apply strings_pyval, F). reflexivity.
Qed.
Print Assumptions C65_weight_selectors.

Theorem C65_selectors_update : forall j l, Forall joined l ->
  exists x, selectors_update j (Some l) = Ok x /\
    read_column x = Ok (match l with [] => None | _ => Some (JArr (map JStr l)) end).
Proof.
  intros j l F. destruct l as [|s l]; [exists None; split; reflexivity|]. exists (Some (dumps (strings (s :: l)))).
  unfold selectors_update. rewrite strings_pass by exact F. split; [reflexivity|]. unfold read_column.
  rewrite (loads_dumps (strings (s :: l))) by (apply strings_pyval, F). reflexivity.
Qed.
Print Assumptions C65_selectors_update.

(** FINDING: a weight group cannot be added with an empty list of selectors or an empty
    selector, although a link can, and although update accepts the empty list. *)
Theorem C65_weight_selectors_refuted : forall j,
  weight_selectors_add j (SelList []) = Err PlainException /\ link_selectors_add j (SelList []) = Ok None /\
  selectors_update j (Some []) = Ok None /\
  weight_selectors_add j (SelOne []) = Err SqlIntegrityError /\
  exists x, link_selectors_add j (SelOne []) = Ok x /\ read_column x = Ok (Some (JArr [JStr []])).
Proof.
  intros []; (split; [reflexivity|]; split; [reflexivity|]; split; [reflexivity|]; split; [vm_compute; reflexivity|]);
    eexists; (split; [vm_compute; reflexivity|vm_compute; reflexivity]).
Qed.
Print Assumptions C65_weight_selectors_refuted.

(** User properties are stored and read back as given; where the JSON functions exist they are
    refused exactly when they hold NaN or an infinity. *)
Theorem C65_user_properties : forall j d, pyval (JObj d) -> d <> [] ->
  ((j = true -> finite (JObj d)) ->
     exists x, link_properties j (Some d) = Ok x /\ read_column x = Ok (Some (JObj d))) /\
  (j = true -> ~ finite (JObj d) -> link_properties j (Some d) = Err SqlIntegrityError) /\
  link_properties j (Some []) = Ok None /\ link_properties j None = Ok None.
Proof.
  intros j d W N. pose proof (user_pass j d W) as U. destruct d as [|p d]; [congruence|].
  assert (E : link_properties j (Some (p :: d)) = if stop_user_properties j (Some (dumps (JObj (p :: d)))) then Err SqlIntegrityError else Ok (Some (dumps (JObj (p :: d))))) by reflexivity.
  rewrite E. split; [|split; [|split; reflexivity]].
  - intro F. apply U in F. rewrite F. eexists. split; [reflexivity|]. unfold read_column. rewrite (loads_dumps _ W). reflexivity.
  - intros J F. destruct (stop_user_properties j (Some (dumps (JObj (p :: d))))); [reflexivity|]. exfalso. apply F, U; auto.
Qed.
Print Assumptions C65_user_properties.

(** * Attribute groups *)

(** Records read: ids are distinct, all are non-empty strings under non-empty names, and no two
    records have the same attributes. *)
Theorem C65_groups : forall j s, reachable j s -> exists recs, ag_find_all s = Ok recs /\ NoDup (map fst recs)
  /\ (forall i a, In (i, a) recs -> exists d, a = JObj d /\ pyval a /\ attributes_ok d)
  /\ (forall i a i' a', In (i, a) recs -> In (i', a') recs -> same a a' -> i = i')
  /\ (forall i a, In (i, a) recs -> ag_get i s = Ok (i, a)) /\ (forall i, ~ In i (map fst recs) -> ag_get i s = Err KeyError).
Proof.
  intros j s R. apply reachable_good in R. destruct R as (N1 & N2 & F). destruct (find_all_good s F) as (recs & E & R).
  exists recs. rewrite (rec_ids s recs R). split; [exact E|]. split; [exact N1|].
  assert (Q : forall i a, In (i, a) recs -> exists t v, In (i, t) s /\ pyval (JObj v) /\ attributes_ok v /\ t = dumps_sorted (JObj v) /\ a = sortk (JObj v)).
  { clear - R. induction R as [|r x s recs (Fx & v & W & A & T & X) R IH]; intros i a [].
    - subst x. cbn in *. exists (snd r), v. subst i. destruct r. cbn. auto.
    - destruct (IH i a H) as (t & v' & I & H'). exists t, v'. split; [right; exact I|exact H']. }
  split; [|split; [|split]].
  - intros i a I. destruct (Q i a I) as (t & v & _ & W & A & _ & X). exists (sort_items (map sf v)). rewrite X.
    split; [reflexivity|]. split; [apply pyval_sortk, W|]. eapply attributes_ok_sort; [exact A|reflexivity].
  - intros i a i' a' I I' Sm. destruct (Q i a I) as (t & v & It & W & _ & -> & ->). destruct (Q i' a' I') as (t' & v' & It' & W' & _ & -> & ->).
    assert (T : dumps_sorted (JObj v) = dumps_sorted (JObj v')).
    { apply canonical; [exact W|exact W'|]. apply sortk_same; [exact W|exact W'|].
      apply sortk_same in Sm; [|apply pyval_sortk, W|apply pyval_sortk, W']. rewrite !sortk_idem in Sm by assumption. exact Sm. }
    rewrite T in It. clear - N2 It It'. revert It It'. generalize (dumps_sorted (JObj v')). intros t It It'.
    induction s as [|r s IH]; [destruct It|]. cbn in N2. inversion N2; subst.
    destruct It as [->|It], It' as [E|It'].
    + congruence.
    + exfalso. apply H1. cbn. change t with (snd (i', t)). apply in_map, It'.
    + subst r. exfalso. apply H1. cbn. change t with (snd (i, t)). apply in_map, It.
    + auto.
  - intros i a I. destruct (Q i a I) as (t & v & It & W & A & -> & ->). unfold ag_get.
    pose proof (find_id i s) as Fi. destruct (find (fun r => (fst r =? i)%Z) s) as [r|].
    + destruct Fi as [Ir Er]. assert (r = (i, dumps_sorted (JObj v))).
      { clear - N1 It Ir Er. induction s as [|q s IH]; [destruct It|]. cbn in N1. inversion N1; subst.
        destruct It as [->|It], Ir as [->|Ir]; auto.
        - exfalso. apply H1. cbn. apply in_map, Ir.
        - exfalso. apply H1. change (fst r) with (fst (fst r, dumps_sorted (JObj v))). apply in_map, It. }
      subst r. unfold ag_record. cbn [fst snd]. rewrite loads_sorted by exact W. reflexivity.
    + exfalso. apply Fi. change i with (fst (i, dumps_sorted (JObj v))). apply in_map, It.
  - intros i I. unfold ag_get. pose proof (find_id i s) as Fi. destruct (find (fun r => (fst r =? i)%Z) s) as [r|]; [|reflexivity].
    exfalso. destruct Fi as [Ir <-]. apply I, in_map, Ir.
Qed.
Print Assumptions C65_groups.

(** The outcome of add. *)
Theorem C65_add : forall j s v recs, reachable j s -> pyval (JObj v) -> ag_find_all s = Ok recs ->
  (attributes_ok v -> (forall i a, In (i, a) recs -> ~ same (JObj v) a) ->
     exists s' i a, ag_add j v s = Ok s' /\ ag_find_all s' = Ok (recs ++ [(i, a)]) /\ same (JObj v) a /\ ~ In i (map fst recs)) /\
  (attributes_ok v -> (exists i a, In (i, a) recs /\ same (JObj v) a) -> ag_add j v s = Err SqlIntegrityError) /\
  ((exists k x, In (k, x) v /\ (k = [] \/ x = JStr [])) -> ag_add j v s = Err ValueError) /\
  (~ attributes_ok v -> (forall k x, In (k, x) v -> k <> [] /\ x <> JStr []) -> ag_add j v s = Err SqlIntegrityError).
Proof.
  intros j s v recs R W E. apply reachable_good in R. pose proof (get_by_value_good s v recs R W E) as G.
  destruct R as (N1 & N2 & F). destruct (find_all_good s F) as (recs' & E' & Rr). rewrite E in E'. injection E' as <-.
  pose proof (add_ok j v s W) as A. split; [|split; [|split]].
  - intros Ok0 No. assert (He : has_empty v = false) by (apply attributes_ok_iff in Ok0; apply Ok0).
    destruct G as [(i & a & _ & I & Sm & _)|(_ & _ & Ni)]; [exfalso; eapply No; eassumption|].
    destruct A as [(A & _)|[(A & _ & I)|[(A & H)|(A & _ & H)]]]; try congruence; try contradiction.
    exists (s ++ [(next_id s, dumps_sorted (JObj v))]), (next_id s), (sortk (JObj v)). split; [exact A|]. split; [|split].
    + apply find_all_snoc; [exact E|]. unfold ag_record. cbn [fst snd]. rewrite loads_sorted by exact W. reflexivity.
    + apply same_sortk, W.
    + rewrite (rec_ids s recs Rr). intro I. apply next_id_fresh in I. lia.
  - intros Ok0 (i & a & I & Sm). destruct G as [(_ & _ & _ & _ & _ & In')|(_ & No & _)]; [|exfalso; eapply No; eassumption].
    destruct A as [(A & _ & H)|[(A & _ & _)|[(A & H)|(A & _ & H)]]]; try contradiction; auto.
    apply attributes_ok_iff in Ok0. destruct Ok0. congruence.
  - intro H. apply has_empty_iff in H. destruct A as [(A & O & _)|[(A & O & _)|[(A & _)|(A & O & _)]]]; auto;
      try (apply attributes_ok_iff in O; destruct O); congruence.
  - intros No H. destruct A as [(A & O & _)|[(A & O & _)|[(A & He)|(A & O & _)]]]; auto; try contradiction.
    exfalso. apply has_empty_iff in He. destruct He as (k & x & I & D). destruct (H k x I). destruct D; contradiction.
Qed.
Print Assumptions C65_add.

(** get_by_value finds the record with the same attributes, whatever the order of the names. *)
Theorem C65_get_by_value : forall j s v recs, reachable j s -> pyval (JObj v) -> ag_find_all s = Ok recs ->
  (forall i a, ag_get_by_value v s = Ok (i, a) <-> In (i, a) recs /\ same (JObj v) a) /\
  ((forall i a, In (i, a) recs -> ~ same (JObj v) a) -> ag_get_by_value v s = Err KeyError).
Proof.
  intros j s v recs R W E. destruct (C65_groups j s R) as (recs' & E' & N & Q & U & _). rewrite E in E'. injection E' as <-.
  apply reachable_good in R. destruct (get_by_value_good s v recs R W E) as [(i & a & G & I & Sm & _)|(G & No & _)].
  - split; [|intro No; exfalso; eapply No; eassumption]. intros i' a'. rewrite G. split; [intros [= <- <-]; auto|].
    intros (I' & Sm'). destruct (Q i a I) as (d & Ed & Wa & _). destruct (Q i' a' I') as (d' & Ed' & Wa' & _).
    assert (Saa : same a a').
    { apply sortk_same; [exact Wa|exact Wa'|]. apply sortk_same in Sm; [|exact W|exact Wa]. apply sortk_same in Sm'; [|exact W|exact Wa']. congruence. }
    pose proof (U i a i' a' I I' Saa). subst i'. f_equal. f_equal.
    clear - N I I'. induction recs as [|r recs IH]; [destruct I|]. cbn in N. inversion N; subst.
    destruct I as [->|I], I' as [E'|I']; try congruence; auto.
    + exfalso. apply H1. cbn. change i with (fst (i, a')). apply in_map, I'.
    + subst r. exfalso. apply H1. cbn. change i with (fst (i, a)). apply in_map, I.
  - split; [|auto]. intros i a. rewrite G. split; [discriminate|]. intros (I & Sm). exfalso. eapply No; eassumption.
Qed.
Print Assumptions C65_get_by_value.

(** get_or_add returns the record with these attributes, and adds one only when there is none. *)
Theorem C65_get_or_add : forall j s v recs, reachable j s -> pyval (JObj v) -> attributes_ok v -> ag_find_all s = Ok recs ->
  exists s' i a, ag_get_or_add j v s = Ok (s', (i, a)) /\ same (JObj v) a /\
    ((In (i, a) recs /\ s' = s) \/
     ((forall i0 a0, In (i0, a0) recs -> ~ same (JObj v) a0) /\ ag_find_all s' = Ok (recs ++ [(i, a)]))).
Proof.
  intros j s v recs R W A E. pose proof (C65_add j s v recs R W E) as (Ad & _).
  assert (R1 : reachable j (ag_step j (OpAdd v) s)).
  { destruct R as (ops & F & ->). exists (ops ++ [OpAdd v]). split; [apply Forall_app; split; [exact F|constructor; [exact W|constructor]]|].
    rewrite fold_left_app. reflexivity. }
  apply reachable_good in R. unfold ag_get_or_add. destruct (get_by_value_good s v recs R W E) as [(i & a & -> & I & Sm & _)|(-> & No & _)].
  - exists s, i, a. auto.
  - destruct (Ad A No) as (s' & i & a & Ea & Ef & Sm & Ni). rewrite Ea. cbn [bind].
    cbn [ag_step] in R1. rewrite Ea in R1.
    destruct (C65_get_by_value j s' v _ R1 W Ef) as [G _].
    assert (H : ag_get_by_value v s' = Ok (i, a)) by (apply G; split; [apply in_app_iff; right; left; reflexivity|exact Sm]).
    rewrite H. cbn [bind]. exists s', i, a. auto.
Qed.
Print Assumptions C65_get_or_add.

(** update replaces the attributes of one record and keeps the others. *)
Theorem C65_update : forall j s v i recs, reachable j s -> pyval (JObj v) -> attributes_ok v -> ag_find_all s = Ok recs ->
  (~ In i (map fst recs) -> ag_update j i v s = Ok s) /\
  (In i (map fst recs) -> (exists i' a, In (i', a) recs /\ i' <> i /\ same (JObj v) a) -> ag_update j i v s = Err SqlIntegrityError) /\
  (In i (map fst recs) -> (forall i' a, In (i', a) recs -> i' <> i -> ~ same (JObj v) a) ->
     exists s' a, ag_update j i v s = Ok s' /\ same (JObj v) a /\
       ag_find_all s' = Ok (map (fun r => if (fst r =? i)%Z then (i, a) else r) recs)).
Proof.
  intros j s v i recs R W A E. apply reachable_good in R. destruct R as (N1 & N2 & F).
  destruct (find_all_good s F) as (recs' & E' & Rr). rewrite E in E'. injection E' as <-.
  rewrite (rec_ids s recs Rr). assert (He : has_empty v = false) by (apply attributes_ok_iff in A; apply A).
  assert (Q : (exists r, In r s /\ fst r <> i /\ snd r = dumps_sorted (JObj v)) <-> exists i' a, In (i', a) recs /\ i' <> i /\ same (JObj v) a).
  { clear - Rr W. induction Rr as [|r x s recs (Fx & v' & W' & A' & T & X) Rr IH].
    - split; [intros (r & [] & _)|intros (i' & a & [] & _)].
    - assert (K : snd r = dumps_sorted (JObj v) <-> same (JObj v) (snd x)).
      { rewrite T, X. split.
        - intro H. apply sortk_same; [exact W|apply pyval_sortk, W'|]. rewrite sortk_idem by exact W'.
          apply sortk_same; [exact W|exact W'|]. apply canonical; auto.
        - intro H. symmetry. apply canonical; [exact W|exact W'|]. apply sortk_same; [exact W|exact W'|].
          rewrite <- (sortk_idem (JObj v') W'). apply sortk_same; [exact W|apply pyval_sortk, W'|exact H]. }
      split.
      + intros (q & [<-|I] & N & H).
        * exists (fst x), (snd x). split; [left; destruct x; reflexivity|]. rewrite Fx. split; [exact N|apply K, H].
        * destruct (proj1 IH) as (i' & a & I' & H'); [exists q; auto|]. exists i', a. split; [right; exact I'|exact H'].
      + intros (i' & a & [Ex|I] & N & H).
        * subst x. cbn in *. exists r. split; [left; reflexivity|]. split; [congruence|apply K, H].
        * destruct (proj2 IH) as (q & I' & H'); [exists i', a; auto|]. exists q. split; [right; exact I'|exact H']. }
  pose proof (update_ok j i v s W) as U. split; [|split].
  - intro I. destruct U as [(U & H)|[(U & _)|[(U & _ & H & _)|[(U & H & _)|(U & H & _)]]]]; try contradiction; auto; congruence.
  - intros I H. apply Q in H. destruct H as (r & Ir & Nr & Er).
    destruct U as [(U & H)|[(U & _ & H)|[(U & _)|[(U & _)|(U & _ & _ & H)]]]]; try contradiction; auto; try congruence.
    exfalso. eapply H; eassumption.
  - intros I H. destruct U as [(U & H')|[(U & _ & H')|[(U & _ & _ & H')|[(U & _ & _ & H')|(U & _)]]]]; try contradiction; try congruence.
    + exfalso. apply Q in H'. destruct H' as (i' & a & I' & N & Sm). eapply H; eassumption.
    + exists (map (put_row i (dumps_sorted (JObj v))) s), (sortk (JObj v)). split; [exact U|]. split; [apply same_sortk, W|].
      clear - Rr W. unfold ag_find_all. induction Rr as [|r x s recs (Fx & v' & W' & A' & T & X) Rr IH]; [reflexivity|].
      cbn [map traverse]. rewrite IH. unfold put_row at 1. rewrite Fx. destruct (fst r =? i)%Z.
      * unfold ag_record. cbn [fst snd]. rewrite loads_sorted by exact W. reflexivity.
      * unfold ag_record. rewrite T, loads_sorted by exact W'. cbn [bind]. rewrite <- X, <- Fx. destruct x. reflexivity.
Qed.
Print Assumptions C65_update.

Theorem C65_delete : forall j s i recs, reachable j s -> ag_find_all s = Ok recs ->
  exists recs', ag_find_all (ag_delete i s) = Ok recs' /\ (forall r, In r recs' <-> In r recs /\ fst r <> i).
Proof.
  intros j s i recs R E. apply reachable_good in R. destruct R as (_ & _ & F).
  destruct (find_all_good s F) as (recs' & E' & Rr). rewrite E in E'. injection E' as <-.
  exists (filter (fun x => negb (fst x =? i)%Z) recs). split.
  - clear - Rr. unfold ag_find_all, ag_delete. induction Rr as [|r x s recs (Fx & v' & W' & A' & T & X) Rr IH]; [reflexivity|].
    cbn [filter]. rewrite Fx. destruct (fst r =? i)%Z; cbn [negb]; [exact IH|]. cbn [traverse].
    unfold ag_record at 1. rewrite T, loads_sorted by exact W'. cbn [bind]. rewrite IH. cbn [bind]. rewrite <- X, <- Fx. destruct x. reflexivity.
  - intro r. rewrite filter_In, negb_true_iff, Z.eqb_neq. reflexivity.
Qed.
Print Assumptions C65_delete.

(** find_by_criteria returns the records that have all given attributes, in order of storage;
    with and without the JSON functions.  An SQLite before 3.45 does so for ASCII names. *)
Theorem C65_criteria : forall j s recs criteria above decode, reachable j s -> ag_find_all s = Ok recs ->
  exists f, (forall i a, In (i, a) recs -> (f (i, a) = true <-> satisfies criteria a)) /\
    find_by_criteria_base criteria s = Ok (filter f recs) /\
    (criteria <> [] -> Forall (fun p => fst p <> []) criteria ->
     decode = true \/ Forall (fun p => Forall (fun c => c < 128) (fst p)) criteria ->
     find_by_criteria_json1 above decode criteria s = Ok (filter f recs)).
Proof.
  intros j s recs criteria above decode R E. destruct (C65_groups j s R) as (recs' & E' & _ & Q & _). rewrite E in E'. injection E' as <-.
  apply reachable_good in R. destruct R as (_ & _ & F). destruct (find_all_good s F) as (recs' & E' & Rr). rewrite E in E'. injection E' as <-.
  exists (fun x => matches criteria (snd x)). split; [|split].
  - intros i a I. destruct (Q i a I) as (d & -> & W & _). apply matches_iff. apply W.
  - unfold find_by_criteria_base. rewrite E. reflexivity.
  - intros N K D. apply criteria_json1; assumption.
Qed.
Print Assumptions C65_criteria.

(** The attribute names: sorted, without repetition, exactly those in use; both ways equal. *)
Theorem C65_names : forall j s recs, reachable j s -> ag_find_all s = Ok recs ->
  exists l, attribute_names_base s = Ok l /\ attribute_names_json1 s = Ok l /\ increasing l /\
    forall k, In k l <-> exists i d x, In (i, JObj d) recs /\ In (k, x) d.
Proof.
  intros j s recs R E. apply reachable_good in R. destruct R as (_ & _ & F).
  destruct (find_all_good s F) as (recs' & E' & Rr). rewrite E in E'. injection E' as <-.
  destruct (names_base s recs E) as (l & B & I & M). exists l. rewrite (names_json1 s recs Rr E). auto.
Qed.
Print Assumptions C65_names.

Definition fr : list (text * json) := [([110; 233], JStr (txt "x"))].

(** FINDING: without criteria, or with an empty name, the version with JSON functions fails where the other
    one returns records; and before SQLite 3.45 it misses records under a name that is not
    ASCII. *)
Theorem C65_criteria_refuted : forall above,
  exists s recs, reachable true s /\ ag_find_all s = Ok recs /\ recs <> [] /\
    find_by_criteria_base [] s = Ok recs /\
    (forall decode, find_by_criteria_json1 above decode [] s = Err SqlOperationalError) /\
    find_by_criteria_base [([], txt "x")] s = Ok [] /\
    (forall decode, find_by_criteria_json1 above decode [([], txt "x")] s = Err SqlOperationalError) /\
    find_by_criteria_base [([110; 233], txt "x")] s = Ok recs /\
    find_by_criteria_json1 above false [([110; 233], txt "x")] s = Ok [].
Proof.
  intro above. exists (ag_step true (OpAdd fr) []), [(1%Z, JObj fr)].
  split. { exists [OpAdd fr]. split; [|reflexivity]. constructor; [|constructor]. cbn. split; [constructor; [intros []|constructor]|].
    split; [|exact I]. assert (J : forall s, Forall (fun c => c < 55296) s -> joined s).
    { intros s F. split; [eapply Forall_impl; [|exact F]; cbn; intros; lia|]. intros a u w b -> [Hi _].
      apply Forall_app in F. destruct F as [_ F]. inversion F; subst. unfold High in Hi. lia. }
    split; apply J; repeat constructor; lia. }
  split; [vm_compute; reflexivity|]. split; [discriminate|]. split; [vm_compute; reflexivity|].
  split; [intros []; vm_compute; reflexivity|]. split; [vm_compute; reflexivity|].
  split; [intros []; vm_compute; reflexivity|]. split; vm_compute; reflexivity.
Qed.
Print Assumptions C65_criteria_refuted.

(** FINDING: a high surrogate directly followed by a low one is read back as one other
    character, so two different dicts get the same text. *)
Theorem C65_surrogates_refuted :
  exists v w, attributes_ok v /\ attributes_ok w /\ NoDup (map fst v) /\ ~ same (JObj v) (JObj w) /\
    dumps_sorted (JObj v) = dumps_sorted (JObj w) /\
    exists s, ag_add true v [] = Ok s /\ ag_add true w s = Err SqlIntegrityError /\ ag_get_by_value v s = Ok (1%Z, JObj w).
Proof.
  exists [(txt "a", JStr [55357; 56832])], [(txt "a", JStr [128512])].
  split. { split; [|exact I]. split; [discriminate|]. exists [55357; 56832]. split; [reflexivity|discriminate]. }
  split. { split; [|exact I]. split; [discriminate|]. exists [128512]. split; [reflexivity|discriminate]. }
  split; [constructor; [intros []|constructor]|].
  split. { cbn. intros (kv' & E & _ & H & _). injection E as <-. specialize (H (JStr [128512]) (or_introl eq_refl)). discriminate. }
  split; [vm_compute; reflexivity|]. eexists. split; [vm_compute; reflexivity|]. split; vm_compute; reflexivity.
Qed.
Print Assumptions C65_surrogates_refuted.

(** * Properties *)

(** put, add and update write the value that get returns and touch no other key; the write is
    refused exactly for NaN or infinities where the JSON functions exist. *)
Theorem C65_property_put : forall j k v s, pyval v ->
  ((j = true -> finite v) -> exists s', prop_put j k v s = Ok s' /\ prop_get k s' = Ok v /\ forall k', k' <> k -> prop_get k' s' = prop_get k' s) /\
  (j = true -> ~ finite v -> prop_put j k v s = Err SqlIntegrityError).
Proof.
  intros j k v s W. pose proof (property_pass j v W) as P. unfold prop_put. split.
  - intro F. apply P in F. rewrite F. eexists. split; [reflexivity|].
    assert (G : forall k', dict_get k' (prop_delete k s ++ [(k, dumps v)]) = if text_eqb k k' then Some (dumps v) else dict_get k' s).
    { intro k'. unfold prop_delete. induction s as [|[k0 t0] s IH]; cbn.
      - destruct (text_eqb k k'); reflexivity.
      - destruct (text_eqb k0 k) eqn:E; cbn.
        + rewrite IH. apply teqb_iff in E. subst k0. destruct (text_eqb k k'); reflexivity.
        + rewrite IH. destruct (text_eqb k0 k') eqn:E'; [|reflexivity]. apply teqb_iff in E'. subst k0.
          destruct (text_eqb k k') eqn:E''; [|reflexivity]. apply teqb_iff in E''. subst k'. rewrite teqb_refl in E. discriminate. }
    unfold prop_get. split; [rewrite G, teqb_refl; apply loads_dumps, W|].
    intros k' N. rewrite G. destruct (text_eqb k k') eqn:E; [|reflexivity]. apply teqb_iff in E. congruence.
  - intros J F. destruct (stop_property_value j (Some (dumps v))); [reflexivity|]. exfalso. apply F, P; auto.
Qed.
Print Assumptions C65_property_put.

Theorem C65_property_add : forall j k v s, pyval v ->
  (prop_get k s = Err KeyError -> (j = true -> finite v) ->
     exists s', prop_add j k v s = Ok s' /\ prop_get k s' = Ok v /\ forall k', k' <> k -> prop_get k' s' = prop_get k' s) /\
  (prop_get k s <> Err KeyError -> prop_add j k v s = Err SqlIntegrityError) /\
  (j = true -> ~ finite v -> prop_add j k v s = Err SqlIntegrityError).
Proof.
  intros j k v s W. pose proof (property_pass j v W) as P. unfold prop_add.
  assert (M : prop_get k s = Err KeyError <-> dict_get k s = None).
  { unfold prop_get. destruct (dict_get k s) as [t|]; [|tauto]. split; [|discriminate]. intro H. apply loads_err in H. destruct H; discriminate. }
  split; [|split].
  - intros Mi F. apply M in Mi. apply P in F. rewrite F, Mi. eexists. split; [reflexivity|].
    assert (G : forall k', dict_get k' (s ++ [(k, dumps v)]) = match dict_get k' s with Some x => Some x | None => if text_eqb k k' then Some (dumps v) else None end).
    { intro k'. clear. induction s as [|[k0 t0] s IH]; cbn; [reflexivity|]. destruct (text_eqb k0 k'); [reflexivity|exact IH]. }
    unfold prop_get. split; [rewrite G, Mi, teqb_refl; apply loads_dumps, W|].
    intros k' N. rewrite G. destruct (dict_get k' s); [reflexivity|]. destruct (text_eqb k k') eqn:E; [|reflexivity]. apply teqb_iff in E. congruence.
  - intro Mi. destruct (stop_property_value j (Some (dumps v))); [reflexivity|]. destruct (dict_get k s); [reflexivity|].
    exfalso. apply Mi, M. reflexivity.
  - intros J F. destruct (stop_property_value j (Some (dumps v))); [reflexivity|]. exfalso. apply F, P; auto.
Qed.
Print Assumptions C65_property_add.

Theorem C65_property_update : forall j k v s, pyval v ->
  (prop_get k s = Err KeyError -> prop_update j k v s = Ok s) /\
  (prop_get k s <> Err KeyError -> (j = true -> finite v) ->
     exists s', prop_update j k v s = Ok s' /\ prop_get k s' = Ok v /\ forall k', k' <> k -> prop_get k' s' = prop_get k' s) /\
  (prop_get k s <> Err KeyError -> j = true -> ~ finite v -> prop_update j k v s = Err SqlIntegrityError).
Proof.
  intros j k v s W. pose proof (property_pass j v W) as P. unfold prop_update.
  assert (M : prop_get k s = Err KeyError <-> dict_get k s = None).
  { unfold prop_get. destruct (dict_get k s) as [t|]; [|tauto]. split; [|discriminate]. intro H. apply loads_err in H. destruct H; discriminate. }
  split; [|split].
  - intro Mi. apply M in Mi. rewrite Mi. reflexivity.
  - intros Mi F. apply P in F. destruct (dict_get k s) as [t|]; [|exfalso; apply Mi, M; reflexivity]. rewrite F. eexists. split; [reflexivity|].
    unfold prop_get. split; [rewrite dict_get_set, teqb_refl; apply loads_dumps, W|]. intros k' N. rewrite dict_get_set.
    destruct (text_eqb k k') eqn:E; [|reflexivity]. apply teqb_iff in E. congruence.
  - intros Mi J F. destruct (dict_get k s) as [t|]; [|exfalso; apply Mi, M; reflexivity].
    destruct (stop_property_value j (Some (dumps v))); [reflexivity|]. exfalso. apply F, P; auto.
Qed.
Print Assumptions C65_property_update.

Theorem C65_property_delete : forall k s, prop_get k (prop_delete k s) = Err KeyError /\
  forall k', k' <> k -> prop_get k' (prop_delete k s) = prop_get k' s.
Proof.
  intros k s. assert (G : forall k', dict_get k' (prop_delete k s) = if text_eqb k k' then None else dict_get k' s).
  { intro k'. unfold prop_delete. induction s as [|[k0 t0] s IH]; cbn; [destruct (text_eqb k k'); reflexivity|].
    destruct (text_eqb k0 k) eqn:E; cbn.
    - rewrite IH. apply teqb_iff in E. subst k0. destruct (text_eqb k k'); reflexivity.
    - rewrite IH. destruct (text_eqb k0 k') eqn:E'; [|reflexivity]. apply teqb_iff in E'. subst k0.
      destruct (text_eqb k k') eqn:E''; [|reflexivity]. apply teqb_iff in E''. subst k'. rewrite teqb_refl in E. discriminate. }
  unfold prop_get. split; [rewrite G, teqb_refl; reflexivity|]. intros k' N. rewrite G.
  destruct (text_eqb k k') eqn:E; [|reflexivity]. apply teqb_iff in E. congruence.
Qed.
Print Assumptions C65_property_delete.

(** * The SQL function toron_json_object_keep *)

Theorem C65_keep : forall x keys, clean x ->
  ((forall d, loads x <> Ok (JObj d)) -> json_object_keep x keys = Err ValueError) /\
  (forall d, loads x = Ok (JObj d) ->
     (keys = [] -> exists t w, json_object_keep x keys = Ok (Some t) /\ loads t = Ok w /\ same (JObj d) w) /\
     (keys <> [] -> (forall k, In k keys -> ~ In k (map fst d)) -> json_object_keep x keys = Ok None) /\
     (forall k, In k keys -> In k (map fst d) ->
        exists t w d', json_object_keep x keys = Ok (Some t) /\ loads t = Ok w /\ same (JObj d') w /\ NoDup (map fst d') /\
          forall k v, In (k, v) d' <-> In k keys /\ In (k, v) d)).
Proof.
  intros x keys C. unfold json_object_keep. split.
  - intro N. destruct (loads x) as [v|e] eqn:L; cbn [bind].
    + destruct v; try reflexivity. exfalso. exact (N kv eq_refl).
    + f_equal. apply loads_err in L. apply L.
  - intros d L. pose proof (loads_pyval _ _ C L) as W. rewrite L. cbn [bind].
    set (fm := fun k => match dict_get k d with Some v => [(k, v)] | None => [] end).
    assert (Nd : NoDup (map fst d)) by apply W.
    assert (M : forall k v, In (k, v) (dict_of (flat_map fm keys)) <-> In k keys /\ In (k, v) d).
    { assert (M0 : forall k v, In (k, v) (flat_map fm keys) <-> In k keys /\ In (k, v) d).
      { intros k v. rewrite in_flat_map. split.
        - intros (k' & I & H). unfold fm in H. destruct (dict_get k' d) as [v'|] eqn:G; [|destruct H]. destruct H as [[= <- <-]|[]].
          split; [exact I|apply dict_get_in, G].
        - intros (I & J). exists k. split; [exact I|]. unfold fm. rewrite (dict_get_nodup k d v Nd J). left. reflexivity. }
      assert (G0 : forall k, dict_get k (dict_of (flat_map fm keys)) = dict_get k (rev (flat_map fm keys))).
      { intro k. unfold dict_of. rewrite dict_of_get. destruct (dict_get k (rev (flat_map fm keys))); reflexivity. }
      intros k v. split.
      - intro I. apply (dict_get_nodup _ _ _ (dict_of_nodup _)) in I. rewrite G0 in I. apply dict_get_in, in_rev in I. apply M0, I.
      - intro H. apply dict_get_in. rewrite G0. destruct (dict_get k (rev (flat_map fm keys))) as [v'|] eqn:G.
        + apply dict_get_in, in_rev in G. apply M0 in G. destruct G as [_ G]. destruct H as [_ H].
          apply (dict_get_nodup _ _ _ Nd) in G, H. congruence.
        + exfalso. apply dict_get_none in G. apply G. rewrite map_rev. rewrite <- in_rev. change k with (fst (k, v)). apply in_map, M0, H. }
    split; [|split].
    + intros ->. exists (dumps_sorted (JObj d)), (sortk (JObj d)). split; [reflexivity|]. split; [apply loads_sorted, W|apply same_sortk, W].
    + intros Ne No. destruct keys as [|k0 keys]; [congruence|]. destruct (dict_of (flat_map fm (k0 :: keys))) as [|[k v] sub] eqn:Sb; [reflexivity|].
      exfalso. destruct (proj1 (M k v) (or_introl eq_refl)) as [I J]. apply (No k I). change k with (fst (k, v)). apply in_map, J.
    + intros k I J. apply in_map_iff in J. destruct J as ([k' v] & <- & J). cbn [fst] in *.
      destruct keys as [|k0 keys]; [destruct I|]. pose proof (proj2 (M k' v) (conj I J)) as Iv.
      assert (Wd : pyval (JObj (dict_of (flat_map fm (k0 :: keys))))).
      { cbn [pyval]. split; [apply dict_of_nodup|]. apply all_forall, Forall_forall. intros [k v0] Ik. apply M in Ik. destruct Ik as [_ Ik].
        destruct W as [_ W]. apply all_forall in W. rewrite Forall_forall in W. exact (W _ Ik). }
      set (sub := dict_of (flat_map fm (k0 :: keys))) in *. exists (dumps_sorted (JObj sub)), (sortk (JObj sub)), sub.
      split; [destruct sub; [destruct Iv|reflexivity]|]. split; [apply loads_sorted, Wd|]. split; [apply same_sortk, Wd|].
      split; [apply Wd|exact M].
Qed.
Print Assumptions C65_keep.

(** * Concrete cases *)

Lemma joined_low : forall s, Forall (fun c => c < 55296) s -> joined s.
Proof.
  intros s F. split; [eapply Forall_impl; [|exact F]; cbn; intros; lia|]. intros a u w b -> [Hi _].
  apply Forall_app in F. destruct F as [_ F]. inversion F; subst. unfold High in Hi. lia.
Qed.

Definition v1 : list (text * json) := [(txt "year", JStr (txt "2020")); (txt "kind", JStr [233; 34; 10])].
Definition v2 : list (text * json) := [(txt "kind", JStr [233; 34; 10]); (txt "year", JStr (txt "2020"))].

Lemma v1_val : pyval (JObj v1) /\ attributes_ok v1.
Proof.
  split.
  - cbn. split; [constructor; [intros [H|[]]; discriminate|constructor; [intros []|constructor]]|].
    split; [split; apply joined_low; repeat constructor; lia|]. split; [split; apply joined_low; repeat constructor; lia|exact I].
  - split; [split; [discriminate|]; exists (txt "2020"); split; [reflexivity|discriminate]|].
    split; [split; [discriminate|]; exists [233; 34; 10]; split; [reflexivity|discriminate]|exact I].
Qed.

(** Two orders of the names give one text; the second add fails, get_or_add returns the first. *)
Example ex_c65_order :
  v1 <> v2 /\ dumps_sorted (JObj v1) = dumps_sorted (JObj v2) /\
  dumps_sorted (JObj v1) = txt "{""kind"": ""\u00e9\""\n"", ""year"": ""2020""}" /\
  exists s, ag_add true v1 [] = Ok s /\ ag_find_all s = Ok [(1%Z, JObj v2)] /\ ag_add true v2 s = Err SqlIntegrityError /\
    ag_get_or_add true v1 s = Ok (s, (1%Z, JObj v2)).
Proof.
  split; [discriminate|]. split; [vm_compute; reflexivity|]. split; [vm_compute; reflexivity|].
  eexists. split; [vm_compute; reflexivity|]. split; [vm_compute; reflexivity|]. split; vm_compute; reflexivity.
Qed.

(** A reachable state with two records, with an update and a delete. *)
Example ex_c65_reachable :
  exists s recs, reachable false s /\ ag_find_all s = Ok recs /\ map fst recs = [1%Z; 3%Z] /\
    find_by_criteria_json1 (fun _ => false) false [(txt "year", txt "2020")] s = Ok [(3%Z, JObj v2)] /\
    attribute_names_json1 s = Ok [txt "kind"; txt "year"].
Proof.
  set (a := fun s : text => [(txt "year", JStr s)]).
  exists (fold_left (fun s o => ag_step false o s) [OpAdd (a (txt "1")); OpAdd (a (txt "2")); OpGetOrAdd v1; OpUpdate 1 (a (txt "9")); OpDelete 2] []),
    [(1%Z, JObj (a (txt "9"))); (3%Z, JObj v2)].
  split.
  { exists [OpAdd (a (txt "1")); OpAdd (a (txt "2")); OpGetOrAdd v1; OpUpdate 1 (a (txt "9")); OpDelete 2]. split; [|reflexivity].
    assert (A : forall s, Forall (fun c => c < 55296) s -> pyval (JObj (a s))).
    { intros s F. cbn. split; [constructor; [intros []|constructor]|]. split; [split; [apply joined_low; repeat constructor; lia|apply joined_low, F]|exact I]. }
    constructor; [apply A; repeat constructor; lia|]. constructor; [apply A; repeat constructor; lia|].
    constructor; [apply v1_val|]. constructor; [apply A; repeat constructor; lia|]. constructor; [exact I|constructor]. }
  split; [vm_compute; reflexivity|]. split; [vm_compute; reflexivity|]. split; vm_compute; reflexivity.
Qed.

(** Nested values with escapes, floats and white space. *)
Example ex_c65_loads :
  loads (txt " { ""a"" : [1, -2.5e3, null], ""b"":""\ud83d\ude00\/"" , ""a"": true}")
    = Ok (JObj [(txt "a", JBool true); (txt "b", JStr [128512; 47])]) /\
  loads (txt "{""a"": 01}") = Err ValueError /\ loads (txt "[1,]") = Err ValueError /\
  loads (txt "[-Infinity]") = Ok (JArr [JInf true]) /\ json_valid (txt "[-Infinity]") = false.
Proof. split; [vm_compute; reflexivity|]. split; [vm_compute; reflexivity|]. split; [vm_compute; reflexivity|]. split; vm_compute; reflexivity. Qed.

(** Properties: a list is put, read and replaced; NaN is refused. *)
Example ex_c65_property :
  exists s, prop_put true (txt "k") (JArr [JInt 1; JNull]) [] = Ok s /\ prop_get (txt "k") s = Ok (JArr [JInt 1; JNull]) /\
    prop_put true (txt "k") (JArr [JNaN]) s = Err SqlIntegrityError /\ prop_add true (txt "k") JNull s = Err SqlIntegrityError /\
    prop_update true (txt "z") JNull s = Ok s.
Proof.
  eexists. split; [vm_compute; reflexivity|]. split; [vm_compute; reflexivity|]. split; [vm_compute; reflexivity|]. split; vm_compute; reflexivity.
Qed.

(** keep: a part of an object, none of it, and a list. *)
Example ex_c65_keep :
  json_object_keep (txt "{""b"": 1, ""a"": 2, ""c"": 3}") [txt "c"; txt "b"; txt "z"] = Ok (Some (txt "{""b"": 1, ""c"": 3}")) /\
  json_object_keep (txt "{""b"": 1}") [txt "z"] = Ok None /\ json_object_keep (txt "[]") [txt "z"] = Err ValueError.
Proof. split; [vm_compute; reflexivity|]. split; vm_compute; reflexivity. Qed.
