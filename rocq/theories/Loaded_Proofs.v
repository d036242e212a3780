(** Proofs about the counters of the loading calls. *)
From Verif Require Import Prelude BitFlags_Model BitFlags_Proofs Selectors_Model Selectors_Proofs LinkRef_Model LinkRef_Spec
  LinkRef_Proofs Db_Model Db_Spec Db_Proofs Db_ProofsLocal Db_ProofsMerge Db_ProofsInv2 Db_ProofsOps Report_Model Report_Spec
  Report_Proofs Loaded_Model Loaded_Spec.
From Coq Require Import ZifyBool ZifyNat.

(** *** Loops *)

Lemma count_story {R} (f : db -> R -> res (db * list load)) (told : db -> R -> list load -> db -> Prop) (P : db -> Prop) :
  (forall s r x, P s -> f s r = Ok x -> told s r (snd x) (fst x) /\ P (fst x)) ->
  forall rows s x, P s -> count_rows f rows s = Ok x -> story told s rows (snd x) (fst x) /\ P (fst x).
Proof.
  intros H. induction rows as [|r rows IH]; intros s x HP E; cbn [count_rows] in E.
  - injection E as <-. split; [constructor|auto].
  - apply bind_ok in E. destruct E as (y & E1 & E). apply bind_ok in E. destruct E as (z & E2 & E).
    injection E as <-. cbn [fst snd]. destruct (H _ _ _ HP E1) as [T P1]. destruct (IH _ _ P1 E2) as [T2 P2].
    split; auto. econstructor; eauto.
Qed.

Lemma count_sim {S T R} (f : S -> R -> res (S * list load)) (g : T -> R -> res T) (v : list load -> S -> T) rows :
  (forall acc s r, g (v acc s) r = do x <- f s r; Ok (v (acc ++ snd x) (fst x))) ->
  forall acc s, fold_res g rows (v acc s) = do x <- count_rows f rows s; Ok (v (acc ++ snd x) (fst x)).
Proof.
  intros H. induction rows as [|r rows IH]; intros acc s; cbn [fold_res count_rows].
  - cbn [bind fst snd]. now rewrite app_nil_r.
  - rewrite H. destruct (f s r) as [x|e]; cbn [bind]; auto. rewrite IH.
    destruct (count_rows f rows (fst x)) as [y|e]; cbn [bind fst snd]; auto. now rewrite <- app_assoc.
Qed.

Lemma tallied_app {K} dec (k : K) a b : tallied dec k (a ++ b) = tallied dec k a + tallied dec k b.
Proof. apply count_occ_app. Qed.
Lemma tallied_pos {K} dec (k : K) a b : (0 <? tallied dec k (a ++ b)) = (0 <? tallied dec k a) || (0 <? tallied dec k b).
Proof. rewrite tallied_app. lia. Qed.

Lemma story_tally {R K} dec (told : db -> R -> list K -> db -> Prop) (size : db -> nat) k :
  (forall s r ks s', told s r ks s' -> size s' = size s + tallied dec k ks) ->
  forall s rows ks s', story told s rows ks s' -> size s' = size s + tallied dec k ks.
Proof.
  intros H s rows ks s' T. induction T as [s|s r ks s1 rows ks' s' T0 T IH]; [cbn; lia|].
  rewrite tallied_app. specialize (H _ _ _ _ T0). lia.
Qed.
Lemma story_one {R K} (told : db -> R -> list K -> db -> Prop) :
  (forall s r ks s', told s r ks s' -> length ks = 1) ->
  forall s rows ks s', story told s rows ks s' -> length ks = length rows.
Proof.
  intros H s rows ks s' T. induction T as [s|s r ks s1 rows ks' s' T0 T IH]; auto.
  rewrite app_length, (H _ _ _ _ T0), IH. reflexivity.
Qed.
Lemma story_keys {R K} (told : db -> R -> list K -> db -> Prop) (P : K -> Prop) :
  (forall s r ks s', told s r ks s' -> Forall P ks) ->
  forall s rows ks s', story told s rows ks s' -> Forall P ks.
Proof.
  intros H s rows ks s' T. induction T as [s|s r ks s1 rows ks' s' T0 T IH]; auto.
  apply Forall_app. split; auto. apply (H _ _ _ _ T0).
Qed.

(** *** The log *)

Lemma log_ok {K} dec (always rest ks : list K) : NoDup (always ++ rest) -> Forall (fun k => In k (always ++ rest)) ks ->
  logged dec ks (log_lines dec always rest ks).
Proof.
  intros N F. unfold logged, log_lines. split; [|split].
  - rewrite map_map. cbn [fst]. rewrite map_id. clear F. induction always as [|a l IH]; cbn [app] in *.
    + now apply NoDup_filter.
    + inversion N as [|? ? Na Nl]; subst. constructor; auto. intros H. apply Na. apply in_app_iff in H. apply in_app_iff.
      destruct H as [H|H]; auto. apply filter_In in H. tauto.
  - intros k n H. apply in_map_iff in H. destruct H as (k' & E & _). injection E as <- <-. reflexivity.
  - intros k Hk. rewrite map_map. cbn [fst]. rewrite map_id. rewrite Forall_forall in F. specialize (F k Hk).
    apply in_app_iff in F. apply in_app_iff. destruct F as [F|F]; auto. right. apply filter_In. split; auto.
    unfold tallied. apply (count_occ_In dec) in Hk. lia.
Qed.

(** *** One row *)

Lemma weight_add_told g i v s s' : weight_add g i v s = Ok s' ->
  ~ weighted s g i /\ s' = set_weights (d_weights s ++ [{| w_group := g; w_index := i; w_value := v |}]) s.
Proof.
  unfold weight_add. destruct (i =? 0)%Z; [discriminate|]. destruct (negb _); [discriminate|].
  destruct (i <? 0)%Z; [discriminate|]. destruct (existsb (weight_is g i) (d_weights s)) eqn:X; [discriminate|].
  destruct (_ && _); [discriminate|]. intros H. injection H as <-. split; auto.
  intros (w & Hw & E). rewrite existsb_false_iff in X. specialize (X w Hw). apply not_true_iff_false in X.
  apply X. now apply weight_is_iff.
Qed.
Lemma weight_update_told g i v s s' w : weight_update g i v s = Ok s' -> In w (d_weights s) -> is_weight_of g i w ->
  s' = set_weights (d_weights s') s /\ length (d_weights s') = length (d_weights s) /\
  forall x, In x (d_weights s') <->
    x = {| w_group := g; w_index := i; w_value := v |} \/ (In x (d_weights s) /\ ~ is_weight_of g i x).
Proof.
  unfold weight_update. destruct (negb _); [discriminate|]. intros H Hw E. injection H as <-. cbn [set_weights d_weights].
  split; auto. split; [apply map_length|]. intros x. rewrite in_map_iff. split.
  - intros (y & Ey & Hy). destruct (weight_is g i y) eqn:I; [left; congruence|]. right. subst y. split; auto.
    intros X. apply weight_is_iff in X. congruence.
  - intros [->|[Hx N]].
    + exists w. split; auto. now rewrite (proj2 (weight_is_iff g i w) E).
    + exists x. split; auto. destruct (weight_is g i x) eqn:I; auto. apply weight_is_iff in I. now destruct N.
Qed.

Lemma told_cell_ok pol i s gc x : load_weight pol i s gc = Ok x -> told_cell pol i s gc (snd x) (fst x).
Proof.
  unfold load_weight, told_cell. destruct gc as [[g|] c]; [|intros H; injection H as <-; cbn; auto].
  destruct c as [| |v]; [intros H; injection H as <-; cbn; auto|discriminate|].
  destruct (weight_find (g_id g) i s) as [w|] eqn:W.
  - apply weight_find_some in W. destruct W as (Hw & E). assert (X : weighted s (g_id g) i) by (exists w; auto).
    destruct pol; try discriminate; intros H.
    + injection H as <-. cbn [fst snd]. right. exists g, v. split; auto. split; [destruct s; reflexivity|]. right; left. auto.
    + apply bind_ok in H. destruct H as (s' & U & H). injection H as <-. cbn [fst snd].
      apply (weight_update_told _ _ _ _ _ w) in U; auto. destruct U as (U1 & U2 & U3).
      right. exists g, v. split; [reflexivity|]. split; [exact U1|]. right; right. auto.
  - intros H. apply bind_ok in H. destruct H as (s' & U & H). injection H as <-. cbn [fst snd].
    apply weight_add_told in U. destruct U as [U ->]. right. exists g, v. split; [reflexivity|]. split; [reflexivity|]. left. auto.
Qed.

Lemma told_label_ok pol s r x : ~ In [] (ir_labels r) -> load_label pol s r = Ok x ->
  told_label pol s r (snd (fst x)) (snd x) (fst (fst x)).
Proof.
  unfold load_label, told_label. intros Ne H. destruct (ir_id r) as [i|] eqn:Ri.
  - apply bind_ok in H. destruct H as (rec & G & H). unfold index_get in G.
    destruct (index_find i s) as [rec'|] eqn:F; [|discriminate]. injection G as ->.
    pose proof (find_matches _ _ _ F) as M.
    destruct (nil_b (ir_labels r) || labels_eqb (ir_labels r) (ix_labels rec)) eqn:L.
    + injection H as <-. cbn [fst snd]. left. split; auto. split; auto. apply orb_true_iff in L. destruct L as [L|L].
      * left. split; auto. split; [destruct (ir_labels r); [auto|discriminate]|]. eexists. split; [exact M|reflexivity].
      * right. apply labels_eqb_iff in L. rewrite L. auto.
    + apply orb_false_iff in L. destruct L as [_ L]. apply labels_differ in L.
      assert (D : differs s i (ir_labels r)) by (exists (ix_labels rec); split; auto).
      destruct pol; try discriminate.
      * injection H as <-. cbn [fst snd]. right; left. auto.
      * apply bind_ok in H. destruct H as (s' & U & H). injection H as <-. cbn [fst snd]. right; right; left.
        split; auto. split; auto. split; auto. split; auto. unfold index_update in U. rewrite F in U.
        destruct (negb _); [discriminate|]. destruct (_ =? 0)%Z; [discriminate|]. destruct (existsb _ _); [discriminate|].
        destruct (labels_clash _ _); [discriminate|]. injection U as <-. reflexivity.
  - destruct (index_add (ir_labels r) s) as [[s' i]|e] eqn:A.
    + injection H as <-. cbn [fst snd]. right; right; right. split; auto. split; auto. unfold index_add in A.
      destruct (ir_labels r) as [|t ts] eqn:Rl; [discriminate|]. rewrite <- Rl in *.
      destruct (negb _); [discriminate|]. destruct (existsb is_empty _); [discriminate|].
      destruct (labels_clash (ir_labels r) (d_index s)) eqn:C; [discriminate|]. cbv zeta in A.
      destruct (_ <=? _)%Z; [discriminate|]. injection A as <- <-. split; [|split; auto].
      * intros j M. unfold labels_clash in C. rewrite existsb_false_iff in C. specialize (C _ M). cbn [ix_labels] in C.
        now apply labels_differ in C.
      * intros (q & Hq & Eq). pose proof (zmax_ge (map ix_id (d_index s)) (ix_id q) (in_map _ _ _ Hq)). lia.
    + destruct e; try discriminate. destruct (index_by_labels (ir_labels r) s) as [rec|] eqn:B; [|discriminate].
      injection H as <-. cbn [fst snd]. left. split; auto. split; auto. right. split; auto.
      unfold index_by_labels in B. apply find_some in B. destruct B as [Hr L]. apply labels_eqb_iff in L.
      unfold matches. rewrite <- L. destruct rec; exact Hr.
Qed.

Lemma empty_in l : existsb is_empty l = true <-> In ([] : text) l.
Proof.
  rewrite existsb_exists. split.
  - intros (x & Hx & E). destruct x; [auto|discriminate].
  - intros H. exists []. auto.
Qed.

Lemma told_insert_index_ok lpol wpol gs s r x : load_index_row lpol wpol gs s r = Ok x ->
  told_insert_index lpol wpol gs s r (snd x) (fst x).
Proof.
  unfold load_index_row, told_insert_index. intros H. destruct (existsb is_empty (ir_labels r)) eqn:B.
  - injection H as <-. left. split; auto. split; auto. now apply empty_in.
  - apply not_true_iff_false in B. rewrite empty_in in B. right. split; auto.
    apply bind_ok in H. destruct H as (y & L & H). apply bind_ok in H. destruct H as (z & C & H). injection H as <-.
    cbn [fst snd]. exists (snd (fst y)), (snd y), (fst (fst y)), (snd z). split; auto.
    split; [now apply told_label_ok|].
    apply (count_story _ (told_cell wpol (snd (fst y))) (fun _ => True)) in C; auto; [tauto|].
    intros; split; auto. now apply told_cell_ok.
Qed.

(** *** insert_weights *)

Definition has_group (g : Z) (s : db) : Prop := exists x, In x (d_groups s) /\ g_id x = g.

Lemma weight_conflict g i v s : has_group g s -> i <> 0%Z -> Qle_bool 0 v = true -> weight_add g i v s = Err ValueError ->
  weighted s g i.
Proof.
  intros (x & Hx & Ex) Hi Hv. unfold weight_add. replace (i =? 0)%Z with false by lia. rewrite Hv. cbn [negb].
  destruct (i <? 0)%Z; [discriminate|]. destruct (existsb (weight_is g i) (d_weights s)) eqn:X.
  - intros _. apply existsb_exists in X. destruct X as (w & Hw & E). exists w. split; auto. now apply weight_is_iff.
  - replace (existsb (fun x => (g_id x =? g)%Z) (d_groups s)) with true; [|symmetry; apply existsb_exists; exists x; split; [exact Hx|lia]].
    rewrite andb_false_r. discriminate.
Qed.

Lemma told_weight_of g pol s rec v r x : has_group g s -> matches s (ix_id rec) (wr_labels r) -> wr_cell r = CNum v ->
  (wr_id r = Some (ix_id rec) \/ wr_id r = None) -> load_weight_of g pol rec v s = Ok x ->
  told_insert_weights g pol s r (snd x) (fst x) /\ has_group g (fst x).
Proof.
  intros G M C I. unfold load_weight_of, told_insert_weights. destruct (ix_id rec =? 0)%Z eqn:Z0.
  { intros H. injection H as <-. cbn [fst snd]. assert (E0 : ix_id rec = 0%Z) by lia. rewrite E0 in *. split; auto.
    left. split; auto. right. split; [eauto|]. right; right; right. auto. }
  assert (N0 : ix_id rec <> 0%Z) by lia. clear Z0. generalize dependent (ix_id rec). intros i M I N0.
  destruct (add_or_resolve g i v pol s) as [[s' c]|e] eqn:A; [|discriminate]. intros H. injection H as <-. cbn [fst snd].
  unfold add_or_resolve in A. destruct (weight_add g i v s) as [s1|e] eqn:W.
  - injection A as <- <-. apply weight_add_told in W. destruct W as [Nw ->]. split; [|exact G].
    right. exists i, v. repeat (split; [assumption|]). split; [reflexivity|]. left. auto.
  - destruct e; try discriminate. replace (i =? 0)%Z with false in A by lia. cbn [orb] in A.
    destruct (Qle_bool 0 v) eqn:Qv; cbn [negb] in A; [|discriminate].
    pose proof (weight_conflict _ _ _ _ G N0 Qv W) as Hw.
    assert (K : forall s', s' = set_weights (d_weights s') s -> has_group g s').
    { intros t ->. exact G. }
    destruct pol; try (destruct (weight_find g i s) as [w|] eqn:F; [|discriminate]); try discriminate.
    + injection A as <- <-. split; auto. right. exists i, v. repeat (split; [assumption|]).
      split; [destruct s; reflexivity|]. right; left. auto.
    + apply weight_find_some in F. destruct F as (Fw & Fe).
      apply bind_ok in A. destruct A as (t & U & A). injection A as <- <-.
      apply (weight_update_told _ _ _ _ _ w) in U; auto. destruct U as (U1 & U2 & U3). split; auto.
      right. exists i, v. repeat (split; [assumption|]). right; right. exists w, v.
      split; [exact Fw|]. split; [exact Fe|]. split; [left; auto|]. auto.
    + apply weight_find_some in F. destruct F as (Fw & Fe).
      apply bind_ok in A. destruct A as (t & U & A). injection A as <- <-.
      apply (weight_update_told _ _ _ _ _ w) in U; auto. destruct U as (U1 & U2 & U3). split; auto.
      right. exists i, v. repeat (split; [assumption|]). right; right. exists w, (w_value w + v)%Q.
      split; [exact Fw|]. split; [exact Fe|]. split; [right; auto|]. auto.
Qed.

Lemma told_insert_weights_ok g pol s r x : has_group g s -> load_weights_row g pol s r = Ok x ->
  told_insert_weights g pol s r (snd x) (fst x) /\ has_group g (fst x).
Proof.
  intros G H. unfold load_weights_row in H.
  destruct (wr_cell r) as [| |v] eqn:C.
  1,2: injection H as <-; split; [left; split; [reflexivity|]; left; split; [reflexivity|]; rewrite C; discriminate|exact G].
  destruct (wr_id r) as [i|] eqn:I.
  - destruct (index_find i s) as [rec|] eqn:F.
    + pose proof (find_matches _ _ _ F) as M. apply index_find_spec in F. destruct F as [_ Ei].
      destruct (labels_eqb (wr_labels r) (ix_labels rec)) eqn:L.
      * apply labels_eqb_iff in L. rewrite <- L, <- Ei in M. apply (told_weight_of g pol s rec v r x); auto. left. congruence.
      * injection H as <-. split; auto. left. split; auto. right. split; [eauto|]. right; left. split; auto.
        exists i. split; auto. exists (ix_labels rec). split; auto. apply labels_differ in L. congruence.
    + injection H as <-. split; auto. left. split; auto. right. split; [eauto|]. left. split; auto. exists i.
      split; auto. now apply find_left_out.
  - destruct (index_by_labels (wr_labels r) s) as [rec|] eqn:B.
    + unfold index_by_labels in B. apply find_some in B. destruct B as [Hr L]. apply labels_eqb_iff in L.
      apply (told_weight_of g pol s rec v r x); auto. unfold matches. rewrite <- L. destruct rec; exact Hr.
    + injection H as <-. split; auto. left. split; auto. right. split; [eauto|]. right; right; left. split; auto.
      split; auto. intros j M. unfold index_by_labels in B. apply (find_none _ _ B) in M. cbn [ix_labels] in M.
      now apply labels_differ in M.
Qed.

(** *** insert_mappings2 *)

Lemma some_true bits : existsb (fun b => b) bits = true <-> In true bits.
Proof.
  rewrite existsb_exists. split; [intros (b & Hb & ->); auto|intros H; exists true; auto].
Qed.

Lemma usable_iff s lv : existsb (fun bits =>
    match lv with
    | None => negb (existsb (fun b => b) bits)
    | Some v => existsb (fun b => b) bits && bytes_eqb (bf_to_bytes (of_bits bits)) v
    end) (d_structs s) = true <-> usable_level s lv.
Proof.
  unfold usable_level. rewrite existsb_exists. split; intros (bits & Hb & E); exists bits; split; auto.
  - destruct lv as [v|].
    + apply andb_true_iff in E. destruct E as [E1 E2]. apply some_true in E1. apply bytes_eqb_iff in E2. right. subst v. auto.
    + left. split; auto. intros X. apply some_true in X. rewrite X in E. discriminate.
  - destruct E as [[-> N]|[T ->]].
    + apply negb_true_iff, not_true_iff_false. now rewrite some_true.
    + apply andb_true_iff. split; [now apply some_true|now apply bytes_eqb_iff].
Qed.

Lemma told_insert_mappings2_ok l s r x : load_mapping_row l s r = Ok x ->
  told_insert_mappings2 l s r (snd x) (fst x).
Proof.
  unfold load_mapping_row, told_insert_mappings2. pose proof (usable_iff s (mr_level r)) as U.
  destruct (existsb _ (d_structs s)) eqn:E; cbn [negb]; intros H.
  - right. split; [now apply U|]. destruct ((mr_other r =? 0)%Z && (mr_index r =? 0)%Z) eqn:Z0.
    + injection H as <-. left. cbn [fst snd]. split; auto. split; [lia|]. split; [lia|auto].
    + apply bind_ok in H. destruct H as (s' & A & H). injection H as <-. right. cbn [fst snd]. split; auto.
      split; [lia|]. apply map_add_maps in A. destruct A as (b & Eb & ->). exists b. split; auto.
  - injection H as <-. left. cbn [fst snd]. split; auto. split; auto. intros X. apply U in X. discriminate.
Qed.

(** *** The same calls as without counters *)

Ltac tpos := rewrite ?tallied_pos; cbn [tallied count_occ load_eq_dec Nat.ltb Nat.leb code_load app];
  rewrite ?orb_true_r, ?orb_false_r.

Definition load_state (acc : list load) (s : db) : ins_state :=
  {| is_db := s; is_label := 0 <? tallied load_eq_dec LLabelInserted acc;
     is_weight := 0 <? tallied load_eq_dec LWeightInserted acc |}.

Lemma load_weight_same pol i acc s gc : insert_index_weight pol i (load_state acc s) gc =
  do x <- load_weight pol i s gc; Ok (load_state (acc ++ snd x) (fst x)).
Proof.
  unfold insert_index_weight, load_weight, load_state. cbn [is_db is_label is_weight].
  destruct gc as [[g|] [| |v]]; cbn [bind fst snd]; rewrite ?app_nil_r; auto.
  destruct (weight_find (g_id g) i s) as [w|].
  - destruct pol; auto; [cbn [bind fst snd]; tpos; reflexivity|].
    destruct (weight_update _ _ _ _); cbn [bind fst snd]; auto. tpos. reflexivity.
  - destruct (weight_add _ _ _ _); cbn [bind fst snd]; auto. tpos. reflexivity.
Qed.

Lemma load_row_same lpol wpol gs acc s r : insert_index_row lpol wpol gs (load_state acc s) r =
  do x <- load_index_row lpol wpol gs s r; Ok (load_state (acc ++ snd x) (fst x)).
Proof.
  unfold insert_index_row, load_index_row. destruct (existsb is_empty (ir_labels r)).
  { cbn [bind fst snd]. unfold load_state. tpos. reflexivity. }
  assert (L : forall A (k : ins_state * Z -> res A),
    (do x <- match ir_id r with
      | Some i =>
          do rec <- index_get i (is_db (load_state acc s));
          if nil_b (ir_labels r) || labels_eqb (ir_labels r) (ix_labels rec) then Ok (load_state acc s, i)
          else match lpol with
          | PAbort => Err ValueError
          | PIgnore => Ok (load_state acc s, i)
          | PReplace => do s' <- index_update i (ir_labels r) (is_db (load_state acc s));
                        Ok ({| is_db := s'; is_label := is_label (load_state acc s);
                               is_weight := is_weight (load_state acc s) |}, i)
          | _ => Err ValueError
          end
      | None =>
          match index_add (ir_labels r) (is_db (load_state acc s)) with
          | Ok (s', i) => Ok ({| is_db := s'; is_label := true; is_weight := is_weight (load_state acc s) |}, i)
          | Err ValueError =>
              match index_by_labels (ir_labels r) (is_db (load_state acc s)) with
              | Some rec => Ok (load_state acc s, ix_id rec)
              | None => Err ValueError
              end
          | Err e => Err e
          end
      end; k x) =
    do y <- load_label lpol s r; k (load_state (acc ++ snd y) (fst (fst y)), snd (fst y))).
  { intros A k. unfold load_label. cbn [load_state is_db is_label is_weight].
    destruct (ir_id r) as [i|].
    - destruct (index_get i s) as [rec|e]; cbn [bind]; auto. destruct (_ || _); cbn [bind fst snd]; rewrite ?app_nil_r; auto.
      destruct lpol; cbn [bind fst snd]; auto.
      + unfold load_state. tpos. reflexivity.
      + destruct (index_update _ _ _); cbn [bind fst snd]; auto. unfold load_state. tpos. reflexivity.
    - destruct (index_add _ _) as [[s' i]|e]; cbn [bind fst snd]; [unfold load_state; tpos; reflexivity|].
      destruct e; auto. destruct (index_by_labels _ _); cbn [bind fst snd]; rewrite ?app_nil_r; auto. }
  rewrite L. clear L. destruct (load_label lpol s r) as [y|e]; cbn [bind fst snd]; auto.
  rewrite (count_sim (load_weight wpol (snd (fst y)))); [|intros; apply load_weight_same].
  destruct (count_rows _ _ _) as [z|e]; cbn [bind fst snd]; auto. now rewrite app_assoc.
Qed.

Lemma insert_index_same wsel wcols lpol wpol rows s :
  fsts (insert_index_report wsel wcols lpol wpol rows s) = insert_index wsel wcols lpol wpol rows s.
Proof.
  unfold fsts, insert_index_report, insert_index. destruct (match wsel with Some _ => _ | None => _ end); auto.
  destruct (nil_b (d_labels s)); auto. destruct (match wsel with Some _ => _ | None => _ end) as [sel|e]; cbn [bind]; auto.
  cbv zeta. change {| is_db := s; is_label := false; is_weight := false |} with (load_state [] s).
  rewrite (count_sim (load_index_row lpol wpol (map (fun c => find (fun g => text_eqb (g_name g) c) sel) wcols)));
    [|intros; apply load_row_same].
  destruct (count_rows _ _ _) as [x|e]; reflexivity.
Qed.

Definition weight_state (acc : list load) (s : db) : db * bool := (s, 0 <? tallied load_eq_dec LInserted acc).

Lemma insert_weights_same n pol rows s : fsts (insert_weights_report n pol rows s) = insert_weights n pol rows s.
Proof.
  assert (H : forall g s0 p, fold_res (insert_weights_row g p) rows (s0, false) =
    do x <- count_rows (load_weights_row g p) rows s0; Ok (weight_state (snd x) (fst x))).
  { intros g s0 p. change (s0, false) with (weight_state [] s0). rewrite (count_sim (load_weights_row g p)); [reflexivity|].
    clear. intros acc s r. unfold insert_weights_row, load_weights_row, load_weight_of, weight_state. cbn [fst snd].
    assert (K : forall rec v,
      (if (ix_id rec =? 0)%Z then Ok (s, 0 <? tallied load_eq_dec LInserted acc)
       else match add_or_resolve g (ix_id rec) v p s with
            | Ok (s', CInserted) => Ok (s', true)
            | Ok (s', _) => Ok (s', 0 <? tallied load_eq_dec LInserted acc)
            | Err _ => Err PlainException end) =
      do x <- (if (ix_id rec =? 0)%Z then Ok (s, [LUndefined])
               else match add_or_resolve g (ix_id rec) v p s with
                    | Ok (s', c) => Ok (s', [code_load c])
                    | Err _ => Err PlainException end);
      Ok (fst x, 0 <? tallied load_eq_dec LInserted (acc ++ snd x))).
    { intros rec v. destruct (ix_id rec =? 0)%Z; [cbn [bind fst snd]; tpos; reflexivity|].
      destruct (add_or_resolve _ _ _ _ _) as [[s' []]|e]; cbn [bind fst snd]; auto; tpos; reflexivity. }
    destruct (wr_cell r) as [| |v]; try (cbn [bind fst snd]; tpos; reflexivity).
    destruct (wr_id r) as [i|].
    - destruct (index_find i s) as [rec|]; [|cbn [bind fst snd]; tpos; reflexivity].
      destruct (labels_eqb _ _); [apply K|cbn [bind fst snd]; tpos; reflexivity].
    - destruct (index_by_labels _ _) as [rec|]; [apply K|cbn [bind fst snd]; tpos; reflexivity]. }
  unfold fsts, insert_weights_report, insert_weights.
  destruct pol; auto; (destruct (match group_by_name n s with Some _ => _ | None => _ end) as [s0|e]; cbn [bind]; auto;
    destruct (group_by_name n s0) as [g|]; cbn [bind]; auto; rewrite H;
    destruct (count_rows _ _ _) as [x|e]; reflexivity).
Qed.

Lemma insert_mappings2_same ref name rows s :
  fsts (insert_mappings2_report ref name rows s) = insert_mappings2 ref name rows s.
Proof.
  unfold fsts, insert_mappings2_report, insert_mappings2. destruct (get_link _ _ _ _) as [k|e]; cbn [bind]; auto.
  change (s, false) with (weight_state [] s). rewrite (count_sim (load_mapping_row (k_id k))).
  - destruct (count_rows _ _ _) as [x|e]; cbn [bind weight_state fst snd app]; auto.
    destruct (0 <? tallied _ _ _); cbn [bind]; auto. destruct (refresh_link _ _); reflexivity.
  - intros acc t r. unfold insert_mappings2_row, load_mapping_row, weight_state. cbn [fst snd].
    destruct (negb _); [cbn [bind fst snd]; tpos; reflexivity|].
    destruct (_ && _); [cbn [bind fst snd]; tpos; reflexivity|].
    destruct (map_add _ _ _ _ _ _ _); cbn [bind fst snd]; auto. tpos. reflexivity.
Qed.

(** *** Columns of insert_index *)

Lemma columns_groups wsel wcols s sel :
  match wsel with
  | None => Ok (d_groups s)
  | Some names => traverse (fun n => match group_by_name n s with Some g => Ok g | None => Err KeyError end) names
  end = Ok sel ->
  Forall2 (group_of_column wsel s) wcols (map (fun c => find (fun g => text_eqb (g_name g) c) sel) wcols).
Proof.
  intros H.
  assert (Sel : forall c, (forall g, In g sel -> g_name g = c -> In g (d_groups s) /\ asked wsel c) /\
    (asked wsel c -> forall g, In g (d_groups s) -> g_name g = c -> exists g', In g' sel /\ g_name g' = c)).
  { intros c. destruct wsel as [names|].
    - cbn [asked]. revert sel H. induction names as [|n names IH]; intros sel H; cbn [traverse] in H.
      + injection H as <-. split; [intros g []|intros []].
      + destruct (group_by_name n s) as [g0|] eqn:G; [|discriminate]. cbn [bind] in H.
        apply bind_ok in H. destruct H as (sel' & E & H). injection H as <-. destruct (IH sel' E) as [I1 I2].
        unfold group_by_name in G. apply find_some in G. destruct G as [Hg En]. apply text_eqb_iff in En. split.
        * intros g [<-|Hs] Ec; [|destruct (I1 g Hs Ec); cbn [In]; auto]. split; auto. left. congruence.
        * intros [<-|Hc] g Hi Ec; [exists g0; cbn [In]; auto|]. destruct (I2 Hc g Hi Ec) as (g' & X & Y).
          exists g'. cbn [In]. auto.
    - injection H as <-. cbn [asked]. split; auto. intros _ g Hg E. eauto. }
  clear H. induction wcols as [|c wcols IH]; cbn [map]; constructor; auto. destruct (Sel c) as [S1 S2].
  unfold group_of_column. destruct (find _ sel) as [g|] eqn:F.
  - apply find_some in F. destruct F as [Hg E]. apply text_eqb_iff in E. destruct (S1 g Hg E). auto.
  - intros A g Hg E. destruct (S2 A g Hg E) as (g' & Hg' & E'). apply (find_none _ _ F) in Hg'. cbv beta in Hg'.
    rewrite E' in Hg'. rewrite (proj2 (text_eqb_iff c c) eq_refl) in Hg'. discriminate.
Qed.

(** *** Numbers for a row of insert_index *)

Lemma cells_index pol i s cells ks s' : story (told_cell pol i) s cells ks s' ->
  d_index s' = d_index s /\ tallied load_eq_dec LLabelInserted ks = 0.
Proof.
  intros T. induction T as [|s r ks s1 rows ks' s' T0 T [IH1 IH2]]; [auto|]. rewrite tallied_app, IH1, IH2.
  destruct T0 as [(-> & -> & _)|(g & v & _ & E & [(-> & _)|[(-> & _)|(-> & _)]])]; [auto|rewrite E; auto..].
Qed.

Lemma told_index_labels lp wp gs s r ks s' : told_insert_index lp wp gs s r ks s' ->
  length (d_index s') = length (d_index s) + tallied load_eq_dec LLabelInserted ks.
Proof.
  intros [(-> & _ & ->)|(_ & i & k1 & s1 & k2 & -> & L & C)]; [cbn; lia|]. apply cells_index in C. destruct C as [C1 C2].
  rewrite tallied_app, C1, C2. clear C1 C2.
  destruct L as [(-> & -> & _)|[(-> & -> & _)|[(-> & _ & _ & _ & ->)|(-> & _ & _ & _ & ->)]]];
    cbn; rewrite ?map_length, ?app_length; cbn; lia.
Qed.

Lemma told_index_weights lp wp gs s r ks s' : told_insert_index lp wp gs s r ks s' ->
  length (d_weights s') = length (d_weights s) + tallied load_eq_dec LWeightInserted ks.
Proof.
  intros [(-> & _ & ->)|(_ & i & k1 & s1 & k2 & -> & L & C)]; [cbn; lia|].
  apply (story_tally load_eq_dec (told_cell wp i) (fun s => length (d_weights s)) LWeightInserted) in C.
  - rewrite tallied_app, C. clear C.
    destruct L as [(-> & -> & _)|[(-> & -> & _)|[(-> & _ & _ & _ & ->)|(-> & _ & _ & _ & ->)]]]; cbn; lia.
  - clear. intros s r ks s' [(-> & -> & _)|(g & v & _ & _ & [(-> & _ & ->)|[(-> & _ & _ & ->)|(-> & _ & _ & -> & _)]])];
      rewrite ?app_length; cbn; lia.
Qed.

Lemma told_index_keys lp wp gs s r ks s' : told_insert_index lp wp gs s r ks s' ->
  Forall (fun k => In k ([] ++ [LLabelInserted; LLabelIgnored; LLabelReplaced; LEmptyLabels; LWeightInserted;
                                LWeightIgnored; LWeightReplaced])) ks.
Proof.
  cbn [app]. intros [(-> & _)|(_ & i & k1 & s1 & k2 & -> & L & C)]; [repeat constructor; cbn [In]; tauto|].
  apply Forall_app. split.
  - destruct L as [(-> & _)|[(-> & _)|[(-> & _)|(-> & _)]]]; repeat constructor; cbn [In]; tauto.
  - revert C. apply story_keys. clear.
    intros s r ks s' [(-> & _)|(g & v & _ & _ & [(-> & _)|[(-> & _)|(-> & _)]])]; repeat constructor; cbn [In]; tauto.
Qed.
