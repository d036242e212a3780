From Verif Require Import Prelude Selectors_Model Selectors_Proofs LinkRef_Proofs Streams_Model Streams_Spec Streams_Proofs Streams_Proofs4 Reshape_Model Reshape_Spec.
Local Open Scope nat_scope.

(** *** Membership, streams *)
Lemma cmem_in x l : cmem x l = true <-> In x l.
Proof.
  unfold cmem. rewrite existsb_exists. split.
  - intros (y & I & E). apply cell_eqb_eq in E. subst. exact I.
  - intro I. exists x. split; [exact I | apply cell_eqb_refl].
Qed.
Lemma kept_filter cols header : filter (fun x => negb (cmem x cols)) header = kept cols header.
Proof.
  unfold kept. apply filter_ext. intro x. destruct (in_dec cell_eq_dec x cols) as [I|N].
  - apply cmem_in in I. rewrite I. reflexivity.
  - destruct (cmem x cols) eqn:E; [|reflexivity]. apply cmem_in in E. contradiction.
Qed.
Lemma kept_in cols header x : In x (kept cols header) <-> In x header /\ ~ In x cols.
Proof. unfold kept. rewrite filter_In. destruct (in_dec cell_eq_dec x cols); split; intros [H1 H2]; split; auto; try discriminate; contradiction. Qed.
Lemma NoDup_kept cols header : NoDup header -> NoDup (kept cols header).
Proof. apply NoDup_filter. Qed.
Lemma check_cols cols header : forallb (fun col => cmem col header) cols = true <-> incl cols header.
Proof. rewrite forallb_forall. split; intros H x I; [apply cmem_in | apply cmem_in]; auto. Qed.
Lemma sflat_reads {A B} (f : A -> list B * option exn) s l e : reads s l e -> forall blocks,
  Forall2 (fun a b => f a = (b, None)) l blocks -> reads (sflat f s) (concat blocks) e.
Proof.
  induction 1 as [|e|a s l e R IH]; intros blocks F; inversion F; subst; cbn [sflat concat]; try constructor.
  rewrite H1. apply reads_chain. auto.
Qed.
Lemma sflat_fails {A B} (f : A -> list B * option exn) s good a rest e part x : reads s (good ++ a :: rest) e -> forall blocks,
  Forall2 (fun a b => f a = (b, None)) good blocks -> f a = (part, Some x) -> reads (sflat f s) (concat blocks ++ part) (Some x).
Proof.
  revert s. induction good as [|g good IH]; intros s R blocks F E; inversion F; subst; cbn [app concat] in *.
  - inversion R; subst. cbn [sflat]. rewrite E. pose proof (reads_chain part [] (Boom x) (Some x) (reads_boom x)) as H. rewrite app_nil_r in H. exact H.
  - inversion R; subst. cbn [sflat]. rewrite H1, <- app_assoc. apply reads_chain. eapply IH; eauto.
Qed.

Lemma Forall2_length {A B} {R : A -> B -> Prop} {l m} : Forall2 R l m -> length l = length m.
Proof. induction 1; cbn [length]; congruence. Qed.

(** *** Dictionaries *)
Lemma dict_find_set c k v d : dict_find c (dict_set k v d) = if cell_eqb c k then Some v else dict_find c d.
Proof.
  induction d as [|[k' v'] d IH]; cbn [dict_set dict_find]; [destruct (cell_eqb c k); reflexivity|].
  destruct (cell_eqb k k') eqn:E; cbn [dict_find].
  - apply cell_eqb_eq in E. subst. destruct (cell_eqb c k'); reflexivity.
  - destruct (cell_eqb c k') eqn:E1; [|exact IH]. apply cell_eqb_eq in E1. subst.
    destruct (cell_eqb k' k) eqn:E2; [|reflexivity]. apply cell_eqb_eq in E2. subst. rewrite cell_eqb_refl in E. discriminate.
Qed.
Lemma dict_find_fold c items d : ~ In c (map fst items) -> dict_find c (fold_left (fun d kv => dict_set (fst kv) (snd kv) d) items d) = dict_find c d.
Proof.
  revert d. induction items as [|[k v] items IH]; intros d N; cbn [fold_left fst snd map In] in *; [reflexivity|].
  rewrite IH by tauto. rewrite dict_find_set. destruct (cell_eqb c k) eqn:E; [|reflexivity]. apply cell_eqb_eq in E. subst. tauto.
Qed.
Lemma find_combine h : forall p i c v, NoDup h -> nth_error h i = Some c -> nth_error p i = Some v -> dict_find c (combine h p) = Some v.
Proof.
  induction h as [|x h IH]; intros p i c v N E1 E2; [destruct i; discriminate|].
  destruct p as [|y p]; [destruct i; discriminate|]. inversion_clear N as [|? ? Nx N']. cbn [combine dict_find].
  destruct i as [|i]; cbn [nth_error] in *.
  - injection E1 as ->. injection E2 as ->. rewrite cell_eqb_refl. reflexivity.
  - destruct (cell_eqb c x) eqn:E; [|eauto]. apply cell_eqb_eq in E. subst. exfalso. apply Nx. eapply nth_error_In; eauto.
Qed.
(** A row continued with [None] or cut to the length of the header. *)
Fixpoint fit (h l : list cell) : list cell :=
  match h with [] => [] | _ :: h' => match l with [] => CNone :: fit h' [] | y :: l' => y :: fit h' l' end end.
Lemma fit_length h : forall l, length (fit h l) = length h.
Proof. induction h as [|x h IH]; intros [|y l]; cbn [fit length]; auto. Qed.
Lemma fit_nth h : forall l i, i < length h -> nth_error (fit h l) i = Some (match nth_error l i with Some v => v | None => CNone end).
Proof.
  induction h as [|x h IH]; intros l i L; cbn [length] in L; [lia|]. destruct l as [|y l], i as [|i]; cbn [fit nth_error]; try reflexivity.
  - rewrite IH by lia. destruct i; reflexivity.
  - apply IH. lia.
Qed.
Lemma zip_fit h : forall l, zip_longest h l = combine h (fit h l) ++ map (fun y => (CNone, y)) (skipn (length h) l).
Proof. induction h as [|x h IH]; intros [|y l]; cbn [zip_longest fit combine app length skipn]; try reflexivity; f_equal; rewrite IH; [|reflexivity]. rewrite skipn_nil. reflexivity. Qed.
Lemma get_zip h l i c : NoDup h -> nth_error h i = Some c -> (~ In CNone h \/ length l <= length h) ->
  dict_get c (dict_of (zip_longest h l)) = match nth_error l i with Some v => v | None => CNone end.
Proof.
  intros N E D. assert (Li : i < length h) by (apply nth_error_Some; congruence).
  unfold dict_get, dict_of. rewrite zip_fit, fold_left_app.
  rewrite dict_find_fold.
  - change (fold_left (fun d kv => dict_set (fst kv) (snd kv) d) (combine h (fit h l)) []) with (dict_of (combine h (fit h l))).
    rewrite dict_of_distinct by (rewrite combine_fst; apply NoDup_firstn; exact N).
    rewrite (find_combine h (fit h l) i c _ N E (fit_nth h l i Li)). reflexivity.
  - rewrite map_map. cbn [fst]. intro I. apply in_map_iff in I. destruct I as (y & <- & I). destruct D as [D|D].
    + apply D. eapply nth_error_In; eauto.
    + rewrite skipn_all2 in I by lia. destruct I.
Qed.
Lemma get_zip_under h l c : NoDup h -> In c h -> (~ In CNone h \/ length l <= length h) -> cell_under h l c (dict_get c (dict_of (zip_longest h l))).
Proof.
  intros N I D. apply In_nth_error in I. destruct I as [i E]. exists i. split; [exact E|]. rewrite (get_zip h l i c N E D).
  destruct (nth_error l i); auto.
Qed.
Lemma under_fun h l c v w : NoDup h -> cell_under h l c v -> cell_under h l c w -> v = w.
Proof.
  intros N (i & E & D) (j & E' & D'). assert (i = j) as <-.
  { apply (proj1 (NoDup_nth_error h) N); [apply nth_error_Some; congruence | congruence]. }
  destruct D as [D|[D ->]], D' as [D'|[D' ->]]; congruence.
Qed.

(** *** Tables of sequences *)
Lemma Forall2_map_self {A B} (R : A -> B -> Prop) (f : A -> B) l : (forall a, In a l -> R a (f a)) -> Forall2 R l (map f l).
Proof. induction l as [|a l IH]; intro H; cbn [map]; constructor; [apply H; left; reflexivity|]. apply IH. intros. apply H. right. assumption. Qed.
Theorem long_sequences d cols s h ls e var val : iter_data d = Ok s -> reads s (map RSeq (h :: ls)) e ->
  NoDup h -> incl cols h -> (~ In CNone h \/ Forall (fun l => length l <= length h) ls) ->
  exists s' blocks, wide_to_long d (SCols cols) var val = Ok s' /\
    reads s' (RSeq (kept cols h ++ [var; val]) :: concat blocks) e /\ Forall2 (long_block h cols) ls blocks.
Proof.
  intros Ed R N I D. destruct s as [|x|r s]; try (inversion R; fail). cbn [map] in R. inversion R as [| |? ? ? ? R1]; subst.
  set (f := long_rows h (kept cols h) cols).
  exists (Item (RSeq (kept cols h ++ [var; val])) (sflat f s)), (map (fun l => fst (f (RSeq l))) ls).
  split.
  - unfold wide_to_long, wide_to_long_gen. rewrite Ed. cbn [checked_cols cols_after]. rewrite (proj2 (check_cols cols h) I). cbn [negb].
    rewrite kept_filter. reflexivity.
  - split.
    + constructor. apply sflat_reads with (l := map RSeq ls); [exact R1|]. clear. induction ls as [|l ls IH]; cbn [map]; constructor; [reflexivity | exact IH].
    + apply Forall2_map_self. intros l Il. unfold f, long_rows, long_block. cbn [iter_row fst].
      assert (Dl : ~ In CNone h \/ length l <= length h) by (destruct D as [D|D]; [left; exact D | right; rewrite Forall_forall in D; apply D; exact Il]).
      apply Forall2_map_self. intros c Ic. eexists. eexists. split; [reflexivity|]. split.
      * apply Forall2_map_self. intros k Ik. apply kept_in in Ik. apply get_zip_under; tauto.
      * apply get_zip_under; auto.
Qed.
Theorem long_missing d cols s h s1 var val : iter_data d = Ok s -> s = Item (RSeq h) s1 \/ (exists d1, s = Item (RMap d1) s1 /\ h = map fst d1) ->
  ~ incl cols h -> wide_to_long d (SCols cols) var val = Err ValueError.
Proof.
  intros Ed Hs N. unfold wide_to_long, wide_to_long_gen. rewrite Ed.
  assert (F : forallb (fun col => cmem col h) cols = false) by (destruct (forallb (fun col => cmem col h) cols) eqn:E; [apply check_cols in E; contradiction | reflexivity]).
  destruct Hs as [->|(d1 & -> & ->)]; cbn [checked_cols]; rewrite F; reflexivity.
Qed.

(** The blocks tell the row. *)
Lemma app_inj_length {A} (a b c d : list A) : length a = length c -> a ++ b = c ++ d -> a = c /\ b = d.
Proof.
  revert c. induction a as [|x a IH]; intros [|y c] L E; cbn [length app] in *; try discriminate; [auto|].
  injection E as -> E. destruct (IH c) as [-> ->]; auto.
Qed.
Lemma concat_blocks {A} n : 0 < n -> forall (b1 b2 : list (list A)), Forall (fun b => length b = n) b1 -> Forall (fun b => length b = n) b2 ->
  concat b1 = concat b2 -> b1 = b2.
Proof.
  intros P b1. induction b1 as [|x b1 IH]; intros [|y b2] F1 F2 E; cbn [concat] in E.
  - reflexivity.
  - inversion_clear F2. destruct y; cbn [length] in H; [lia | discriminate].
  - inversion_clear F1. destruct x; cbn [length] in H; [lia | discriminate].
  - inversion_clear F1. inversion_clear F2. apply app_inj_length in E; [|congruence]. destruct E as [-> E]. f_equal. auto.
Qed.
Lemma block_length h cols l b : long_block h cols l b -> length b = length cols.
Proof. intro H. symmetry. exact (Forall2_length H). Qed.
Lemma Forall2_both {A B} (R R' : A -> B -> Prop) l m : Forall2 R l m -> Forall2 R' l m -> forall a, In a l -> exists b, R a b /\ R' a b.
Proof. intro H. induction H; intros H' a' I; [destruct I|]. inversion H'; subst. destruct I as [<-|I]; eauto. Qed.
Lemma rows_tell K h l l' cols b :
  Forall2 (fun c r => exists kv v, r = RSeq (kv ++ [c; v]) /\ Forall2 (cell_under h l) K kv /\ cell_under h l c v) cols b ->
  Forall2 (fun c r => exists kv v, r = RSeq (kv ++ [c; v]) /\ Forall2 (cell_under h l') K kv /\ cell_under h l' c v) cols b ->
  (forall c, In c cols -> exists v, cell_under h l c v /\ cell_under h l' c v) /\
  (cols <> [] -> forall c, In c K -> exists v, cell_under h l c v /\ cell_under h l' c v).
Proof.
  intro H. induction H as [|c r cols b (kv & v & -> & Fk & Fv) H IH]; intro H'; [split; [intros c [] | congruence]|].
  inversion H' as [|? ? ? ? (kv' & v' & E & Fk' & Fv') H1']; subst. destruct (IH H1') as [IH1 _]. injection E as E.
  apply app_inj_length in E; [|rewrite <- (Forall2_length Fk), <- (Forall2_length Fk'); reflexivity]. destruct E as [<- [= <-]].
  split; [intros c' [<-|I]; eauto|]. intros _ k Ik. exact (Forall2_both _ _ _ _ Fk Fk' k Ik).
Qed.
Lemma block_tells h cols l l' b : NoDup h -> cols <> [] -> incl cols h -> length l = length h -> length l' = length h ->
  long_block h cols l b -> long_block h cols l' b -> l = l'.
Proof.
  intros N P I L L' B B'. destruct (rows_tell _ _ _ _ _ _ B B') as [T1 T2]. specialize (T2 P).
  assert (K : forall c, In c h -> exists v, cell_under h l c v /\ cell_under h l' c v).
  { intros c Ic. destruct (in_dec cell_eq_dec c cols) as [J|J]; [auto|]. apply T2. apply kept_in. auto. }
  apply nth_ext with (d := CNone) (d' := CNone); [congruence|]. intros i Li.
  destruct (nth_error h i) as [c|] eqn:E; [|apply nth_error_None in E; lia].
  destruct (K c (nth_error_In _ _ E)) as (v & (j & Ej & Dj) & (j' & Ej' & Dj')).
  assert (j = i) as -> by (apply (proj1 (NoDup_nth_error h) N); [apply nth_error_Some; congruence | congruence]).
  assert (j' = i) as -> by (apply (proj1 (NoDup_nth_error h) N); [apply nth_error_Some; congruence | congruence]).
  destruct (nth_error l i) as [x|] eqn:X; [|apply nth_error_None in X; lia]. destruct (nth_error l' i) as [y|] eqn:Y; [|apply nth_error_None in Y; lia].
  rewrite (nth_error_nth _ _ _ X), (nth_error_nth _ _ _ Y). destruct Dj as [Dj|[Dj _]]; [|discriminate]. destruct Dj' as [Dj'|[Dj' _]]; [|discriminate]. congruence.
Qed.
Lemma blocks_tell h cols ls ls' blocks : NoDup h -> cols <> [] -> incl cols h ->
  Forall (fun l => length l = length h) ls -> Forall (fun l => length l = length h) ls' ->
  Forall2 (long_block h cols) ls blocks -> Forall2 (long_block h cols) ls' blocks -> ls = ls'.
Proof.
  intros N P I F F' B. revert F ls' F'. induction B as [|l b ls blocks B0 B IH]; intros F ls' F' B'; inversion B'; subst; [reflexivity|].
  inversion_clear F. inversion_clear F'. f_equal; [eapply block_tells; eauto | auto].
Qed.
Theorem long_lossless cols s1 s2 h ls1 ls2 e1 e2 var val out : reads s1 (map RSeq (h :: ls1)) e1 -> reads s2 (map RSeq (h :: ls2)) e2 ->
  NoDup h -> incl cols h -> cols <> [] -> Forall (fun l => length l = length h) ls1 -> Forall (fun l => length l = length h) ls2 ->
  wide_to_long (DIter s1) (SCols cols) var val = Ok out -> wide_to_long (DIter s2) (SCols cols) var val = Ok out -> ls1 = ls2 /\ e1 = e2.
Proof.
  intros R1 R2 N I P F1 F2 W1 W2.
  assert (G : forall ls, Forall (fun l => length l = length h) ls -> ~ In CNone h \/ Forall (fun l : list cell => length l <= length h) ls).
  { intros ls F. right. eapply Forall_impl; [|exact F]. cbn. intros. lia. }
  destruct (long_sequences (DIter s1) cols s1 h ls1 e1 var val eq_refl R1 N I (G _ F1)) as (o1 & b1 & E1 & Q1 & B1).
  destruct (long_sequences (DIter s2) cols s2 h ls2 e2 var val eq_refl R2 N I (G _ F2)) as (o2 & b2 & E2 & Q2 & B2).
  rewrite W1 in E1. rewrite W2 in E2. injection E1 as <-. injection E2 as <-. destruct (reads_fun _ _ _ Q1 _ _ Q2) as [E ->]. split; [|reflexivity].
  injection E as E. apply concat_blocks with (n := length cols) in E.
  - subst b2. eapply blocks_tell; eauto.
  - destruct cols; [congruence | cbn; lia].
  - clear - B1. induction B1; constructor; [eapply block_length; eauto | assumption].
  - clear - B2. induction B2; constructor; [eapply block_length; eauto | assumption].
Qed.

(** *** Tables of mappings *)
Lemma traverse_get d l : traverse (row_get (RMap d)) l = Ok (map (fun k => dict_get k d) l).
Proof. induction l as [|k l IH]; [reflexivity|]. rewrite traverse_cons. cbn [row_get bind]. rewrite IH. reflexivity. Qed.
Lemma combine_map_r {A B} (f : A -> B) l : combine l (map f l) = map (fun a => (a, f a)) l.
Proof. induction l; cbn [map combine]; congruence. Qed.
Lemma map_fst_pair {A B} (f : A -> B) l : map fst (map (fun a => (a, f a)) l) = l.
Proof. rewrite map_map. cbn [fst]. apply map_id. Qed.
Theorem long_mappings d cols s d1 ds e var val : iter_data d = Ok s -> reads s (map RMap (d1 :: ds)) e ->
  NoDup (map fst d1) -> incl cols (map fst d1) -> var <> val ->
  ~ In var (kept cols (map fst d1)) -> ~ In val (kept cols (map fst d1)) -> cols <> [] \/ e = None ->
  exists s' blocks, wide_to_long d (SCols cols) var val = Ok s' /\
    reads s' (concat blocks) e /\ Forall2 (long_dict_block (map fst d1) cols var val) (d1 :: ds) blocks.
Proof.
  intros Ed R N I V Nv Nw P. destruct s as [|x|r s]; try (inversion R; fail). assert (r = RMap d1) as -> by (inversion R; reflexivity).
  set (h := map fst d1) in *. set (f := long_dicts (kept cols h) cols var val).
  assert (Ef : forall d0, f (RMap d0) = (map (fun c => RMap (combine (kept cols h) (map (fun k => dict_get k d0) (kept cols h)) ++ [(var, c); (val, dict_get c d0)])) cols, None)).
  { intro d0. unfold f, long_dicts. rewrite !traverse_get. f_equal. rewrite !combine_map_r, map_map. apply map_ext. intro c. f_equal.
    rewrite dict_of_distinct by (rewrite map_fst_pair; apply NoDup_kept; exact N).
    rewrite (dict_set_new var c) by (rewrite map_fst_pair; exact Nv).
    rewrite dict_set_new; [rewrite <- app_assoc; reflexivity|]. rewrite map_app, map_fst_pair, in_app_iff. cbn [map fst In]. intros [H|[H|[]]]; auto. }
  set (blocks := map (fun d0 => fst (f (RMap d0))) (d1 :: ds)).
  assert (Q : reads (sflat f (Item (RMap d1) s)) (concat blocks) e).
  { apply sflat_reads with (l := map RMap (d1 :: ds)); [exact R|]. unfold blocks. generalize (d1 :: ds). intro l. clear - Ef.
    induction l as [|d0 l IH]; cbn [map]; constructor; [rewrite Ef; reflexivity | exact IH]. }
  exists (sflat f (Item (RMap d1) s)), blocks. split.
  - unfold wide_to_long, wide_to_long_gen. rewrite Ed. cbn [checked_cols cols_after]. fold h. rewrite (proj2 (check_cols cols h) I). cbn [negb].
    rewrite kept_filter. fold f. change (chain [RMap d1] s) with (Item (RMap d1) s).
    pose proof (eagerly_same (sflat f (Item (RMap d1) s))) as E. destruct (eagerly_initialize (sflat f (Item (RMap d1) s))) as [s'|x]; [congruence|].
    exfalso. rewrite E in Q. assert (G : forall l e0, reads (Boom x : stream row) l e0 -> l = [] /\ e0 = Some x) by (intros l e0 Q0; inversion Q0; auto). destruct (G _ _ Q) as [Eb Ee]. destruct P as [P|P]; [|congruence].
    unfold blocks in Eb. cbn [map concat] in Eb. rewrite Ef in Eb. cbn [fst] in Eb. destruct cols; [congruence | discriminate].
  - split; [exact Q|]. unfold blocks. apply Forall2_map_self. intros d0 _. rewrite Ef. cbn [fst]. unfold long_dict_block. apply Forall2_map_self.
    intros c _. eexists. eexists. split; [reflexivity|]. split; [|apply dict_get_value]. apply Forall2_map_self. intros. apply dict_get_value.
Qed.

Lemma dict_rows_tell K d d' var val cols b :
  Forall2 (fun c r => exists kv v, r = RMap (combine K kv ++ [(var, c); (val, v)]) /\ Forall2 (value_of d) K kv /\ value_of d c v) cols b ->
  Forall2 (fun c r => exists kv v, r = RMap (combine K kv ++ [(var, c); (val, v)]) /\ Forall2 (value_of d') K kv /\ value_of d' c v) cols b ->
  (forall c, In c cols -> exists v, value_of d c v /\ value_of d' c v) /\
  (cols <> [] -> forall c, In c K -> exists v, value_of d c v /\ value_of d' c v).
Proof.
  intro H. induction H as [|c r cols b (kv & v & -> & Fk & Fv) H IH]; intro H'; [split; [intros c [] | congruence]|].
  inversion H' as [|? ? ? ? (kv' & v' & E & Fk' & Fv') H1']; subst. destruct (IH H1') as [IH1 _]. injection E as E.
  apply app_inj_length in E; [|rewrite !combine_length, <- (Forall2_length Fk), <- (Forall2_length Fk'); reflexivity]. destruct E as [E [= <-]].
  assert (kv = kv') as <-.
  { pose proof (Forall2_length Fk) as L1. pose proof (Forall2_length Fk') as L2. clear - E L1 L2. revert kv kv' E L1 L2.
    induction K as [|k K IH]; intros [|a kv] [|a' kv'] E L1 L2; cbn [length combine] in *; try discriminate; [reflexivity|]. injection E as -> E. f_equal. auto. }
  split; [intros c' [<-|I]; eauto|]. intros _ k Ik. exact (Forall2_both _ _ _ _ Fk Fk' k Ik).
Qed.
Lemma dict_ext : forall d d' : dict, NoDup (map fst d) -> map fst d' = map fst d -> (forall k, In k (map fst d) -> exists v, value_of d k v /\ value_of d' k v) -> d = d'.
Proof.
  assert (H : forall d d' : dict, NoDup (map fst d) -> map fst d' = map fst d ->
    (forall k v, In (k, v) d -> In (k, v) d') -> d = d').
  { induction d as [|[k v] d IH]; intros [|[k' v'] d'] N E H; cbn [map fst] in *; try discriminate; [reflexivity|]. injection E as -> E.
    inversion_clear N as [|? ? Nk N']. assert (v = v') as <-.
    { destruct (H k v (or_introl eq_refl)) as [J|J]; [congruence|]. exfalso. apply Nk. rewrite <- E. apply (in_map fst) in J. exact J. }
    f_equal. apply IH; auto. intros k0 v0 J. destruct (H k0 v0 (or_intror J)) as [J'|J']; [|exact J'].
    injection J' as -> ->. exfalso. apply Nk. apply (in_map fst) in J. exact J. }
  intros d d' N E K. apply H; auto. intros k v J. destruct (K k) as (w & V & V'); [apply (in_map fst) in J; exact J|].
  assert (w = v) as -> by (apply (value_of_fun d k w v N V); left; exact J). destruct V' as [V'|[V' _]]; [exact V'|].
  exfalso. apply V'. rewrite E. apply (in_map fst) in J. exact J.
Qed.
Theorem long_mappings_lossless cols s1 s2 h ds1 ds2 e1 e2 var val out : reads s1 (map RMap ds1) e1 -> reads s2 (map RMap ds2) e2 ->
  ds1 <> [] -> ds2 <> [] -> NoDup h -> incl cols h -> cols <> [] -> var <> val -> ~ In var (kept cols h) -> ~ In val (kept cols h) ->
  Forall (fun d => map fst d = h) ds1 -> Forall (fun d => map fst d = h) ds2 ->
  wide_to_long (DIter s1) (SCols cols) var val = Ok out -> wide_to_long (DIter s2) (SCols cols) var val = Ok out -> ds1 = ds2 /\ e1 = e2.
Proof.
  intros R1 R2 P1 P2 N I P V Nv Nw F1 F2 W1 W2.
  destruct ds1 as [|d1 ds1]; [congruence|]. destruct ds2 as [|d2 ds2]; [congruence|].
  assert (H1 : map fst d1 = h) by (inversion F1; assumption). assert (H2 : map fst d2 = h) by (inversion F2; assumption).
  destruct (long_mappings (DIter s1) cols s1 d1 ds1 e1 var val) as (o1 & b1 & E1 & Q1 & B1); rewrite ?H1; auto.
  destruct (long_mappings (DIter s2) cols s2 d2 ds2 e2 var val) as (o2 & b2 & E2 & Q2 & B2); rewrite ?H2; auto.
  rewrite W1 in E1. rewrite W2 in E2. injection E1 as <-. injection E2 as <-. destruct (reads_fun _ _ _ Q1 _ _ Q2) as [E ->]. split; [|reflexivity].
  rewrite H1 in B1. rewrite H2 in B2.
  assert (L : forall ds b, Forall2 (long_dict_block h cols var val) ds b -> Forall (fun x => length x = length cols) b).
  { intros ds b B. induction B as [|d b0 ds b B0 B IH]; constructor; [symmetry; exact (Forall2_length B0) | exact IH]. }
  apply concat_blocks with (n := length cols) in E; eauto; [|destruct cols; [congruence | cbn; lia]]. subst b2.
  clear - N P I F1 F2 B1 B2. revert F1 F2 B1 B2. generalize (d1 :: ds1) (d2 :: ds2). clear d1 ds1 d2 ds2. intros l1 l2 F1 F2 B1.
  revert l2 F2 F1. induction B1 as [|d b ds b1 B0 B1 IH]; intros l2 F2 F1 B2; inversion B2 as [|d' ? l' ? B0' B2']; subst; [reflexivity|].
  inversion_clear F1 as [|? ? G1 G2]. inversion_clear F2 as [|? ? G1' G2']. f_equal; [|auto].
  destruct (dict_rows_tell _ _ _ _ _ _ _ B0 B0') as [T1 T2]. specialize (T2 P).
  apply dict_ext; [rewrite G1; exact N | congruence|]. rewrite G1. intros k Ik.
  destruct (in_dec cell_eq_dec k cols) as [J|J]; [auto|]. apply T2. apply kept_in. auto.
Qed.

(** *** The older function *)
Lemma narrow_block d K cols var val : incl cols (map fst d) -> ~ In var (map fst K) -> ~ In val (map fst K) -> var <> val ->
  narrow_rows d K cols var val = (map (fun c => RMap (K ++ [(var, c); (val, dict_get c d)])) cols, None).
Proof.
  intros I Nv Nw V. induction cols as [|c cols IH]; cbn [narrow_rows map]; [reflexivity|].
  assert (J : In c (map fst d)) by (apply I; left; reflexivity).
  unfold dict_get at 1. destruct (dict_find c d) as [v|] eqn:E; [|apply dict_find_none in E; contradiction].
  rewrite IH by (intros x Hx; apply I; right; exact Hx). f_equal. f_equal. f_equal.
  rewrite (dict_set_new var c) by exact Nv. rewrite dict_set_new; [rewrite <- app_assoc; reflexivity|].
  rewrite map_app, in_app_iff. cbn [map fst In]. intros [H|[H|[]]]; auto.
Qed.
Lemma narrow_missing d K cols1 c cols2 var val : incl cols1 (map fst d) -> ~ In c (map fst d) -> ~ In var (map fst K) -> ~ In val (map fst K) -> var <> val ->
  narrow_rows d K (cols1 ++ c :: cols2) var val = (map (fun c => RMap (K ++ [(var, c); (val, dict_get c d)])) cols1, Some KeyError).
Proof.
  intros I Nc Nv Nw V. induction cols1 as [|c1 cols IH]; cbn [app narrow_rows map].
  - rewrite (proj2 (dict_find_none c d) Nc). reflexivity.
  - assert (J : In c1 (map fst d)) by (apply I; left; reflexivity).
    unfold dict_get at 1. destruct (dict_find c1 d) as [v|] eqn:E; [|apply dict_find_none in E; contradiction].
    rewrite IH by (intros x Hx; apply I; right; exact Hx). f_equal. f_equal. f_equal.
    rewrite (dict_set_new var c1) by exact Nv. rewrite dict_set_new; [rewrite <- app_assoc; reflexivity|].
    rewrite map_app, in_app_iff. cbn [map fst In]. intros [H|[H|[]]]; auto.
Qed.
Lemma kept_items cols d : NoDup (map fst d) ->
  filter (fun '(k, _) => negb (cmem k cols)) d = combine (kept cols (map fst d)) (map (fun k => dict_get k d) (kept cols (map fst d))).
Proof.
  intro N. rewrite combine_map_r. rewrite <- kept_filter.
  assert (G : forall d0 : dict, (forall k v, In (k, v) d0 -> In (k, v) d) ->
    filter (fun '(k, _) => negb (cmem k cols)) d0 = map (fun a => (a, dict_get a d)) (filter (fun x => negb (cmem x cols)) (map fst d0))).
  { induction d0 as [|[k v] d0 IH]; intro S; [reflexivity|]. cbn [filter map fst]. destruct (cmem k cols); cbn [negb map]; [apply IH; intros; apply S; right; assumption|].
    f_equal; [|apply IH; intros; apply S; right; assumption]. f_equal. apply (value_of_fun d k); [exact N | left; apply S; left; reflexivity | apply dict_get_value]. }
  apply G. auto.
Qed.
Definition narrow_ok (cols : list cell) (var val : cell) (d : dict) : Prop :=
  NoDup (map fst d) /\ incl cols (map fst d) /\ ~ In var (map fst d) /\ ~ In val (map fst d).
Lemma narrow_row_ok cols var val d : var <> val -> narrow_ok cols var val d ->
  exists b, narrow_row cols var val (RMap d) = (b, None) /\ long_dict_block (map fst d) cols var val d b.
Proof.
  intros V (N & I & Nv & Nw). unfold narrow_row.
  destruct (cmem var (map fst d)) eqn:E1; [apply cmem_in in E1; contradiction|]. destruct (cmem val (map fst d)) eqn:E2; [apply cmem_in in E2; contradiction|].
  rewrite kept_items by exact N.
  assert (S : forall x, In x (map fst (combine (kept cols (map fst d)) (map (fun k => dict_get k d) (kept cols (map fst d))))) -> In x (map fst d)).
  { intros x Hx. rewrite combine_map_r, map_fst_pair in Hx. apply kept_in in Hx. tauto. }
  rewrite narrow_block; auto. eexists. split; [reflexivity|]. apply Forall2_map_self. intros c _. eexists. eexists. split; [reflexivity|].
  split; [|apply dict_get_value]. apply Forall2_map_self. intros. apply dict_get_value.
Qed.
Lemma narrow_rows_ok cols var val ds : var <> val -> Forall (narrow_ok cols var val) ds -> exists blocks,
  Forall2 (fun r b => narrow_row cols var val r = (b, None)) (map RMap ds) blocks /\
  Forall2 (fun d b => long_dict_block (map fst d) cols var val d b) ds blocks.
Proof.
  intros V F. induction F as [|d ds H F (blocks & B1 & B2)]; [exists []; split; constructor|].
  destruct (narrow_row_ok cols var val d V H) as (b & E & L). exists (b :: blocks). split; constructor; auto.
Qed.
Theorem narrow_all cols var val s ds e : reads s (map RMap ds) e -> var <> val -> Forall (narrow_ok cols var val) ds ->
  exists blocks, reads (wide_to_narrow (DIter s) cols var val) (concat blocks) e /\
    Forall2 (fun d b => long_dict_block (map fst d) cols var val d b) ds blocks.
Proof.
  intros R V F. destruct (narrow_rows_ok cols var val ds V F) as (blocks & B1 & B2). exists blocks. split; [|exact B2].
  unfold wide_to_narrow. destruct ds as [|d ds].
  - inversion R; subst; inversion B2; subst; cbn; constructor.
  - destruct s as [|x|r s]; try (inversion R; fail). assert (r = RMap d) as -> by (inversion R; reflexivity).
    cbn [make_dictreaderlike iter_data bind]. change (chain [RMap d] s) with (Item (RMap d) s). eapply sflat_reads; eauto.
Qed.
Lemma reader_of_mappings s d ds e : reads s (map RMap (d :: ds)) e -> make_dictreaderlike (DIter s) = Ok s.
Proof.
  intro R. destruct s as [|x|r s]; try (inversion R; fail). assert (r = RMap d) as -> by (inversion R; reflexivity). reflexivity.
Qed.
Lemma narrow_fails cols var val s good d rest e part x : reads s (map RMap good ++ RMap d :: rest) e -> make_dictreaderlike (DIter s) = Ok s -> var <> val ->
  Forall (narrow_ok cols var val) good -> narrow_row cols var val (RMap d) = (part, Some x) ->
  exists blocks, reads (wide_to_narrow (DIter s) cols var val) (concat blocks ++ part) (Some x) /\
    Forall2 (fun d b => long_dict_block (map fst d) cols var val d b) good blocks.
Proof.
  intros R M V F E. destruct (narrow_rows_ok cols var val good V F) as (blocks & B1 & B2). exists blocks. split; [|exact B2].
  unfold wide_to_narrow. rewrite M. eapply sflat_fails; eauto.
Qed.
Lemma reader_of_first s d good rest e : reads s (map RMap good ++ RMap d :: rest) e -> make_dictreaderlike (DIter s) = Ok s.
Proof.
  intro R. destruct good as [|g good]; cbn [map app] in R; inversion R; subst; reflexivity.
Qed.
Theorem narrow_clash cols var val s good d rest e : reads s (map RMap good ++ RMap d :: rest) e -> var <> val ->
  Forall (narrow_ok cols var val) good -> In var (map fst d) \/ In val (map fst d) ->
  exists blocks, reads (wide_to_narrow (DIter s) cols var val) (concat blocks) (Some ValueError) /\
    Forall2 (fun d b => long_dict_block (map fst d) cols var val d b) good blocks.
Proof.
  intros R V F C. destruct (narrow_fails cols var val s good d rest e [] ValueError R (reader_of_first _ _ _ _ _ R) V F) as (blocks & Q & B).
  - unfold narrow_row. destruct (cmem var (map fst d)) eqn:E1; [reflexivity|]. destruct (cmem val (map fst d)) eqn:E2; [reflexivity|].
    destruct C as [C|C]; apply cmem_in in C; congruence.
  - exists blocks. rewrite app_nil_r in Q. auto.
Qed.
Theorem narrow_no_column cols1 c cols2 var val s good d rest e : reads s (map RMap good ++ RMap d :: rest) e -> var <> val ->
  Forall (narrow_ok (cols1 ++ c :: cols2) var val) good -> ~ In var (map fst d) -> ~ In val (map fst d) -> incl cols1 (map fst d) -> ~ In c (map fst d) ->
  exists blocks part, reads (wide_to_narrow (DIter s) (cols1 ++ c :: cols2) var val) (concat blocks ++ part) (Some KeyError) /\
    Forall2 (fun d b => long_dict_block (map fst d) (cols1 ++ c :: cols2) var val d b) good blocks /\ length part = length cols1.
Proof.
  intros R V F Nv Nw I Nc. set (cols := cols1 ++ c :: cols2) in *. set (K := filter (fun '(k, _) => negb (cmem k cols)) d : dict).
  assert (S : forall x, In x (map fst K) -> In x (map fst d)).
  { intros x Hx. apply in_map_iff in Hx. destruct Hx as ([a b] & <- & Hx). apply filter_In in Hx. destruct Hx as [Hx _]. apply (in_map fst) in Hx. exact Hx. }
  destruct (narrow_fails cols var val s good d rest e (map (fun c => RMap (K ++ [(var, c); (val, dict_get c d)])) cols1) KeyError R (reader_of_first _ _ _ _ _ R) V F) as (blocks & Q & B).
  - unfold narrow_row. destruct (cmem var (map fst d)) eqn:E1; [apply cmem_in in E1; contradiction|]. destruct (cmem val (map fst d)) eqn:E2; [apply cmem_in in E2; contradiction|].
    fold K. unfold cols. apply narrow_missing; auto.
  - eexists. eexists. split; [exact Q|]. split; [exact B|]. apply map_length.
Qed.
(** The two functions agree on mappings that all have the keys of the first. *)
Lemma dict_block_fun h cols var val d b b' : NoDup h -> map fst d = h -> long_dict_block h cols var val d b -> long_dict_block h cols var val d b' -> b = b'.
Proof.
  intros N <- B. unfold long_dict_block in B |- *. generalize (kept cols (map fst d)) B. clear B. intros K B. revert b'.
  induction B as [|c r cols b (kv & v & -> & Fk & Fv) B IH]; intros b' B'; inversion B' as [|? ? ? ? (kv' & v' & -> & Fk' & Fv') B1]; subst; [reflexivity|].
  assert (v = v') as <- by (eapply value_of_fun; eauto).
  assert (kv = kv') as <-.
  { clear - Fk Fk' N. revert kv' Fk'. induction Fk; intros kv' Fk'; inversion Fk'; subst; [reflexivity|]. f_equal; [eapply value_of_fun; eauto | auto]. }
  f_equal. auto.
Qed.
Theorem narrow_agrees cols var val s d1 ds e : reads s (map RMap (d1 :: ds)) e -> var <> val -> Forall (narrow_ok cols var val) (d1 :: ds) ->
  Forall (fun d => map fst d = map fst d1) ds -> cols <> [] ->
  exists s' rows, wide_to_long (DIter s) (SCols cols) var val = Ok s' /\ reads s' rows e /\ reads (wide_to_narrow (DIter s) cols var val) rows e.
Proof.
  intros R V F U P. destruct (narrow_all cols var val s (d1 :: ds) e R V F) as (b1 & Q1 & B1).
  assert (O : narrow_ok cols var val d1) by (inversion F; assumption). destruct O as (N & I & Nv & Nw).
  destruct (long_mappings (DIter s) cols s d1 ds e var val eq_refl R N I V) as (s' & b2 & E & Q2 & B2); auto.
  { intro H. apply kept_in in H. tauto. } { intro H. apply kept_in in H. tauto. }
  exists s', (concat b2). split; [exact E|]. split; [exact Q2|].
  assert (b1 = b2) as <-; [|exact Q1].
  assert (U' : Forall (fun d => map fst d = map fst d1) (d1 :: ds)) by (constructor; auto).
  clear - N B1 B2 U'. revert b2 B2. set (h := map fst d1) in *. clearbody h. revert U'. generalize dependent (d1 :: ds). intros l B1.
  induction B1 as [|d b l b1 B0 B1 IH]; intros U b2 B2; inversion B2; subst; [reflexivity|]. inversion_clear U as [|? ? U0 U1]. f_equal; [|auto].
  eapply dict_block_fun; eauto. rewrite <- U0 at 1. exact B0.
Qed.
Theorem narrow_sequences cols var val s h ls e : reads s (map RSeq (h :: ls)) e -> NoDup h -> incl cols h -> var <> val -> ~ In var h -> ~ In val h ->
  Forall (fun l => length l = length h) ls ->
  exists blocks, reads (wide_to_narrow (DIter s) cols var val) (concat blocks) e /\
    Forall2 (fun l b => long_dict_block h cols var val (combine h l) b) ls blocks.
Proof.
  intros R N I V Nv Nw F. destruct (dictreaderlike_sequences s h ls e R N) as (s' & E & Q).
  assert (K : forall l : list cell, length l = length h -> map fst (combine h l) = h).
  { intros l L. clear - L. revert l L. induction h as [|x h IH]; intros [|y l] L; cbn [length combine map fst] in *; try discriminate; [reflexivity|]. f_equal. auto. }
  rewrite <- (map_map (fun l => combine h l) RMap) in Q.
  destruct (narrow_rows_ok cols var val (map (fun l => combine h l) ls) V) as (blocks & B1 & B2).
  { rewrite Forall_forall in *. intros d Hd. apply in_map_iff in Hd. destruct Hd as (l & <- & Il). unfold narrow_ok. rewrite (K l (F l Il)). auto. }
  exists blocks. unfold wide_to_narrow. rewrite E. split; [eapply sflat_reads; eauto|].
  clear - B2 K F. revert blocks B2. induction F as [|l ls L F IH]; intros blocks B2; cbn [map] in B2; inversion B2; subst; constructor; auto. rewrite <- (K l L) at 1. assumption.
Qed.
(** Where the reshaping stops. *)
Theorem long_other d x s cols var val : iter_data d = Ok (Item x s) -> (forall l, x <> RSeq l) -> (forall m, x <> RMap m) ->
  wide_to_long d cols var val = Err TypeError.
Proof. intros E H1 H2. unfold wide_to_long, wide_to_long_gen. rewrite E. destruct x; try reflexivity; exfalso; [eapply H1 | eapply H2]; reflexivity. Qed.
