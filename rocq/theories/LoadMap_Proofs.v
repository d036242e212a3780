(** C60: how the table is read. *)
From Coq Require Import NArith.
From Verif Require Import Prelude BitFlags_Model BitFlags_Spec Streams_Model Streams_Spec Selectors_Model LinkRef_Model Db_Model Db_Spec
  Reader_Model Mapper_Model Mapper_Spec EdgeText_Model MapCli_Model MapCli_Spec LoadMap_Model LoadMap_Spec
  Selectors_Proofs LinkRef_Proofs Reader_Proofs Db_Proofs Streams_Proofs2 Streams_Proofs3 Streams_Proofs4.
Local Notation cell := Streams_Model.cell.
Local Notation row := Streams_Model.row.
Local Open Scope nat_scope.

Lemma index_of_spec name l : forall i,
  match index_of name i l with
  | Some p => exists a b, l = a ++ name :: b /\ ~ In name a /\ p = i + length a
  | None => ~ In name l
  end.
Proof.
  induction l as [|c l IH]; intros i; cbn [index_of]; [easy|].
  destruct (text_eqb c name) eqn:E.
  - apply text_eqb_iff in E. subst c. exists [], l. cbn. split; [reflexivity|]. split; [easy|lia].
  - specialize (IH (S i)). assert (Hc : c <> name) by (intros ->; rewrite text_eqb_refl in E; discriminate).
    destruct (index_of name (S i) l) as [p|].
    + destruct IH as (a & b & -> & Ha & ->). exists (c :: a), b. cbn [app length In]. split; [reflexivity|]. split; [|lia].
      intros [H|H]; contradiction.
    + cbn [In]. intros [H|H]; contradiction.
Qed.

(** The checked position of a side. *)
Definition dpos (dom : text) (i : nat) (cols : list text) : list (nat * text) :=
  match (if is_empty dom then None else index_of domain_ i cols) with Some p => [(p, dom)] | None => [] end.
Lemma dpos_cases dom i cols :
  (dpos dom i cols = [] /\ (dom = [] \/ ~ In domain_ cols)) \/
  exists a b, dom <> [] /\ cols = a ++ domain_ :: b /\ ~ In domain_ a /\ dpos dom i cols = [(i + length a, dom)].
Proof.
  unfold dpos. destruct dom as [|x dom]; cbn [is_empty]; [left; auto|].
  pose proof (index_of_spec domain_ cols i) as H. destruct (index_of domain_ i cols) as [p|].
  - destruct H as (a & b & -> & Ha & ->). right. exists a, b. split; [discriminate|auto].
  - left. auto.
Qed.

Lemma drop_at_app {A} ps (a b : list A) : forall i, drop_at ps i (a ++ b) = drop_at ps i a ++ drop_at ps (i + length a) b.
Proof.
  induction a as [|x a IH]; intros i; cbn [app drop_at length]; [now rewrite Nat.add_0_r|].
  replace (i + S (length a)) with (S i + length a) by lia. destruct (existsb _ ps); [apply IH|]. cbn [app]. now rewrite IH.
Qed.
Lemma drop_at_none {A} ps (l : list A) : forall i, (forall k, i <= k < i + length l -> ~ In k ps) -> drop_at ps i l = l.
Proof.
  induction l as [|x l IH]; intros i H; cbn [drop_at]; [reflexivity|]. cbn [length] in H.
  destruct (existsb (Nat.eqb i) ps) eqn:E.
  - exfalso. apply existsb_exists in E as (k & Hk & E). apply Nat.eqb_eq in E. subst k. apply (H i); [lia|exact Hk].
  - f_equal. apply IH. intros k Hk. apply H. lia.
Qed.
Lemma drop_at_one {A} ps (a : list A) x b i : In (i + length a) ps ->
  (forall k, i <= k < i + length a + 1 + length b -> In k ps -> k = i + length a) -> drop_at ps i (a ++ x :: b) = a ++ b.
Proof.
  intros Hin Hon. rewrite drop_at_app. cbn [drop_at]. rewrite (drop_at_none ps a); [|intros k Hk Hi; apply Hon in Hi; lia].
  f_equal. destruct (existsb (Nat.eqb (i + length a)) ps) eqn:E.
  - apply drop_at_none. intros k Hk Hi. apply Hon in Hi; lia.
  - exfalso. assert (existsb (Nat.eqb (i + length a)) ps = true) by (apply existsb_exists; exists (i + length a); split; [exact Hin|apply Nat.eqb_refl]). congruence.
Qed.

Lemma split_fun {A} (x : A) : forall a b a' b', a ++ x :: b = a' ++ x :: b' -> ~ In x a -> ~ In x a' -> a = a' /\ b = b'.
Proof.
  induction a as [|y a IH]; intros b [|z a'] b' E Ha Ha'; cbn [app] in E; inversion E; subst.
  - auto.
  - exfalso. apply Ha'. now left.
  - exfalso. apply Ha. now left.
  - destruct (IH b a' b') as [-> ->]; auto; intros H; [apply Ha|apply Ha']; now right.
Qed.
Lemma side_columns_fun dom cols c c' : side_columns dom cols c -> side_columns dom cols c' -> c = c'.
Proof.
  intros [H|a b Hd E Ha] [H'|a' b' Hd' E' Ha'].
  - reflexivity.
  - exfalso. destruct H as [H|H]; [contradiction|]. apply H. rewrite E'. apply in_or_app. right. now left.
  - exfalso. destruct H' as [H|H]; [contradiction|]. apply H. rewrite E. apply in_or_app. right. now left.
  - rewrite E in E'. destruct (split_fun _ _ _ _ _ E' Ha Ha') as [-> ->]. reflexivity.
Qed.

(** What a side is if its checks pass. *)
Lemma side_columns_drop dom i cols ps :
  (forall k, i <= k < i + length cols -> (In k ps <-> In k (map fst (dpos dom i cols)))) ->
  forall c', side_columns dom cols c' <-> c' = drop_at ps i cols.
Proof.
  intros P. assert (S : side_columns dom cols (drop_at ps i cols)).
  { destruct (dpos_cases dom i cols) as [[E H]|(a & b & Hd & -> & Ha & E)]; rewrite E in P; cbn [map fst In] in P.
    - rewrite drop_at_none; [apply columns_plain; exact H|]. intros k Hk Hi. now apply (P k Hk) in Hi.
    - rewrite drop_at_one.
      + eapply columns_domain; eauto.
      + apply P; [rewrite app_length; cbn; lia|now left].
      + intros k Hk Hi. apply P in Hi; [|rewrite app_length; cbn; lia]. destruct Hi as [<-|[]]. reflexivity. }
  intros c'. split; [|intros ->; exact S]. intros S'. exact (side_columns_fun _ _ _ _ S' S).
Qed.

Definition chk (l : list cell) (x : nat * text) : res unit :=
  let '(i, val) := x in do c <- cell_at l i; if cell_eqb c (CText val) then Ok tt else Err ValueError.
Lemma chk_ok l x : (exists u, chk l x = Ok u) <-> nth_error l (fst x) = Some (CText (snd x)).
Proof.
  destruct x as [i val]. unfold chk, cell_at. cbn [fst snd]. destruct (nth_error l i) as [c|]; cbn [bind].
  - destruct c as [t| |z]; cbn [cell_eqb].
    + destruct (text_eqb t val) eqn:E.
      * apply text_eqb_iff in E. subst. split; eauto.
      * split; [intros (u & [=])|]. intros [= ->]. rewrite text_eqb_refl in E. discriminate.
    + split; [intros (u & [=])|discriminate].
    + split; [intros (u & [=])|discriminate].
  - split; [intros (u & [=])|discriminate].
Qed.
Lemma split_nth {A} (l : list A) n x : nth_error l n = Some x -> exists a b, l = a ++ x :: b /\ length a = n.
Proof. apply nth_error_split. Qed.

Lemma side_of_drop dom i cols ps cells full c' l' : length cells = length cols ->
  (forall k, k < length cells -> nth_error full (i + k) = nth_error cells k) ->
  (forall k, i <= k < i + length cols -> (In k ps <-> In k (map fst (dpos dom i cols)))) ->
  (side_of dom cols cells c' l' <->
   c' = drop_at ps i cols /\ l' = drop_at ps i cells /\ forall x, In x (dpos dom i cols) -> exists u, chk full x = Ok u).
Proof.
  intros L N P. split.
  - intros S. assert (Sc : side_columns dom cols c').
    { destruct S; [now constructor|]. eapply columns_domain; eauto. }
    split; [now apply (side_columns_drop dom i cols ps P)|].
    destruct (dpos_cases dom i cols) as [[E H]|(a & b & Hd & Ec & Ha & E)]; rewrite E in *; cbn [map fst In] in *.
    + split; [|easy]. rewrite drop_at_none; [|intros k Hk Hi; rewrite <- L in P; now apply (P k Hk) in Hi].
      change domain_ with (txt "domain") in *. destruct S as [_|a b x y Hd Ec Ha]; [reflexivity|]. destruct H as [H|H]; [contradiction|].
      exfalso. apply H. rewrite Ec. apply in_or_app. right. now left.
    + change domain_ with (txt "domain") in *. destruct S as [H|a' b' x y Hd' Ec' Ha' El Lx].
      { exfalso. destruct H as [H|H]; [contradiction|]. apply H. rewrite Ec. apply in_or_app. right. now left. }
      assert (La : length a' = length a).
      { rewrite Ec in Ec'. destruct (split_fun _ _ _ _ _ Ec' Ha Ha') as [-> _]. reflexivity. }
      subst cells. rewrite app_length in L, N. cbn [length] in L, N. split.
      * symmetry. assert (Lxa : length x = length a) by lia. assert (Lc : length cols = length a + 1 + length y) by lia. apply drop_at_one.
        -- rewrite Lxa. apply P; [lia|now left].
        -- rewrite Lxa. intros k Hk Hi. apply P in Hi; [|lia]. destruct Hi as [<-|[]]. reflexivity.
      * intros p [<-|[]]. apply chk_ok. cbn [fst snd]. rewrite N by lia. rewrite nth_error_app2 by lia.
        replace (length a - length x) with 0 by lia. reflexivity.
  - intros (-> & -> & H). destruct (dpos_cases dom i cols) as [[E Hn]|(a & b & Hd & Ec & Ha & E)]; rewrite E in *; cbn [map fst In] in *.
    + rewrite (drop_at_none ps cols), (drop_at_none ps cells); [apply side_plain; exact Hn|intros k Hk Hi; rewrite L in Hk; now apply (P k Hk) in Hi|intros k Hk Hi; now apply (P k Hk) in Hi].
    + specialize (H _ (or_introl eq_refl)). apply chk_ok in H. cbn [fst snd] in H.
      assert (La : length a < length cells) by (rewrite L, Ec, app_length; cbn; lia).
      rewrite (N (length a) La) in H. apply split_nth in H as (x & y & El & Lx).
      assert (Ly : length y = length b). { rewrite El, Ec, !app_length in L. cbn in L. lia. }
      rewrite El. rewrite (drop_at_one ps x).
      * rewrite Ec. rewrite (drop_at_one ps a).
        -- eapply side_domain; eauto.
        -- apply P; [rewrite Ec, app_length; cbn; lia|now left].
        -- intros k Hk Hi. apply P in Hi; [|rewrite Ec, app_length; cbn; lia]. destruct Hi as [<-|[]]. reflexivity.
      * apply P; [rewrite Ec, app_length; cbn; lia|left; lia].
      * intros k Hk Hi. apply P in Hi; [|rewrite Ec, app_length; cbn; lia]. destruct Hi as [<-|[]]. lia.
Qed.

Lemma dpos_range dom i cols k : In k (map fst (dpos dom i cols)) -> i <= k < i + length cols.
Proof.
  destruct (dpos_cases dom i cols) as [[-> _]|(a & b & _ & -> & _ & ->)]; [easy|]. cbn [map fst In]. intros [<-|[]].
  rewrite app_length. cbn. lia.
Qed.

Lemma text_cells l t : traverse text_cell l = Ok t <-> l = map CText t.
Proof.
  revert t. induction l as [|c l IH]; intros t; [split; [intros [= <-]; reflexivity|destruct t; [reflexivity|discriminate]]|].
  rewrite traverse_cons. destruct c as [x| |z]; cbn [text_cell bind].
  - destruct (traverse text_cell l) as [m|e] eqn:E; cbn [bind].
    + specialize (IH m). destruct IH as [IH _]. specialize (IH eq_refl). subst l. split.
      * intros [= <-]. reflexivity.
      * destruct t as [|y t]; [discriminate|]. cbn [map]. intros [= -> H]. f_equal. f_equal. revert t H. clear. induction m as [|a m IH]; intros [|b t] H; try discriminate; [reflexivity|]. inversion H. f_equal. auto.
    + split; [discriminate|]. destruct t as [|y t]; [discriminate|]. cbn [map]. intros [= -> H]. apply IH in H. discriminate.
  - split; [discriminate|]. destruct t; discriminate.
  - split; [discriminate|]. destruct t; discriminate.
Qed.
Lemma stored_ok c q : stored_value c = Ok q <-> value_is c q.
Proof.
  unfold value_is. destruct c as [t| |z]; cbn [stored_value].
  - split; [intros [= <-]; right; eauto|]. intros [(z & [=] & _)|(t' & [= <-] & ->)]. reflexivity.
  - split; [discriminate|]. intros [(z & [=] & _)|(t & [=] & _)].
  - split; [intros [= <-]; left; eauto|]. intros [(z' & [= <-] & ->)|(t & [=] & _)]. reflexivity.
Qed.

Section Table.
Context (pre : list text) (h : text) (post : list text) (d1 d2 : text).
Let n := length pre.
Let header := pre ++ h :: post.
Let ix := domain_indexes n header d1 d2.
Let ps := map fst ix.
Let c1 := drop_at ps 0 pre.
Let c2 := drop_at ps (n + 1) post.

Lemma header_parts : firstn n header = pre /\ skipn (n + 1) header = post.
Proof.
  unfold header, n. split; [now rewrite firstn_app, Nat.sub_diag, firstn_all, app_nil_r|].
  rewrite skipn_app. replace (length pre + 1 - length pre) with 1 by lia. rewrite skipn_all2 by lia. reflexivity.
Qed.
Lemma ix_eq : ix = dpos d1 0 pre ++ dpos d2 (n + 1) post.
Proof. unfold ix, domain_indexes. destruct header_parts as [-> ->]. reflexivity. Qed.
Lemma ps_left k : 0 <= k < 0 + length pre -> (In k ps <-> In k (map fst (dpos d1 0 pre))).
Proof.
  intros Hk. unfold ps. rewrite ix_eq, map_app, in_app_iff. split; [|auto]. intros [H|H]; [exact H|]. apply dpos_range in H. unfold n in H. lia.
Qed.
Lemma ps_right k : n + 1 <= k < n + 1 + length post -> (In k ps <-> In k (map fst (dpos d2 (n + 1) post))).
Proof.
  intros Hk. unfold ps. rewrite ix_eq, map_app, in_app_iff. split; [|auto]. intros [H|H]; [|exact H]. apply dpos_range in H. unfold n in *. lia.
Qed.
Lemma ps_value : ~ In n ps.
Proof.
  unfold ps. rewrite ix_eq, map_app, in_app_iff. intros [H|H]; apply dpos_range in H; unfold n in *; lia.
Qed.
Lemma drop_row {A} (left : list A) c right : length left = n ->
  drop_at ps 0 (left ++ c :: right) = drop_at ps 0 left ++ c :: drop_at ps (n + 1) right.
Proof.
  intros L. rewrite drop_at_app, L. cbn [drop_at]. destruct (existsb (Nat.eqb (0 + n)) ps) eqn:E.
  - exfalso. apply existsb_exists in E as (k & Hk & E). apply Nat.eqb_eq in E. subst k. now apply ps_value.
  - now replace (n + 1) with (S (0 + n)) by lia.
Qed.
Lemma columns_c : drop_at ps 0 header = c1 ++ h :: c2.
Proof. apply drop_row. reflexivity. Qed.
Lemma c1_iff c : side_columns d1 pre c <-> c = c1.
Proof. apply side_columns_drop. exact ps_left. Qed.
Lemma c2_iff c : side_columns d2 post c <-> c = c2.
Proof. apply side_columns_drop. exact ps_right. Qed.
Lemma drop_length {A B} (a : list A) (b : list B) : forall i, length a = length b -> length (drop_at ps i a) = length (drop_at ps i b).
Proof.
  revert b. induction a as [|x a IH]; intros [|y b] i L; cbn [length] in L; try discriminate; [reflexivity|]. cbn [drop_at].
  destruct (existsb _ ps); [apply IH; lia|]. cbn [length]. f_equal. apply IH. lia.
Qed.

(** One row that has all cells. *)
Lemma full_row l acc out : length l = length header ->
  (exists r, validate_and_parse ix (RSeq l) = Ok r /\ read_row (length c1) acc r = Ok out) <->
  exists loc1 loc2 q, row_is n header d1 d2 c1 c2 l loc1 loc2 q /\
    out = acc ++ [{| or_run := Z.of_nat (length acc) + 1; or_left := loc1; or_right := loc2; or_value := q |}].
Proof.
  intros L. assert (Hs : exists left c right, l = left ++ c :: right /\ length left = n /\ length right = length post).
  { unfold header in L. rewrite app_length in L. cbn [length] in L. destruct (nth_error l n) as [c|] eqn:E.
    - apply nth_error_split in E as (a & b & -> & La). exists a, c, b. rewrite app_length in L. cbn in L. unfold n in *. split; [reflexivity|]. lia.
    - apply nth_error_None in E. unfold n in E. lia. }
  destruct Hs as (left & c & right & -> & Ll & Lr). clear L.
  assert (Nl : forall k, k < length left -> nth_error (left ++ c :: right) (0 + k) = nth_error left k) by (intros k Hk; now rewrite nth_error_app1).
  assert (Nr : forall k, k < length right -> nth_error (left ++ c :: right) (n + 1 + k) = nth_error right k).
  { intros k Hk. rewrite nth_error_app2 by lia. replace (n + 1 + k - length left) with (S k) by lia. reflexivity. }
  pose proof (fun c' l' => side_of_drop d1 0 pre ps left _ c' l' Ll Nl ps_left) as S1.
  pose proof (fun c' l' => side_of_drop d2 (n + 1) post ps right _ c' l' Lr Nr ps_right) as S2.
  set (full := left ++ c :: right) in *.
  assert (V : (exists r, validate_and_parse ix (RSeq full) = Ok r) <-> forall x, In x ix -> exists u, chk full x = Ok u).
  { unfold validate_and_parse. cbn [row_cells bind]. change (fun '(i, val) => do c0 <- cell_at full i; if cell_eqb c0 (CText val) then Ok tt else Err ValueError) with (chk full).
    destruct (traverse (chk full) ix) as [us|e] eqn:T; cbn [bind].
    - split; [|eauto]. intros _ x Hx. apply traverse_ok in T. destruct (Reader_Proofs.Forall2_in_l _ _ _ _ T Hx) as (u & _ & Hu). eauto.
    - split; [intros (r & [=])|]. intros H. exfalso. destruct (Reader_Proofs.traverse_total (chk full) ix H) as [us Hu]. congruence. }
  assert (Vr : forall r, validate_and_parse ix (RSeq full) = Ok r -> r = RSeq (drop_at ps 0 left ++ c :: drop_at ps (n + 1) right)).
  { unfold validate_and_parse. cbn [row_cells bind]. intros r. destruct (traverse _ ix); cbn [bind]; [|discriminate]. intros [= <-].
    fold ps. unfold full. now rewrite drop_row. }
  assert (Lc : length (drop_at ps 0 left) = length c1) by (apply drop_length; exact Ll).
  assert (R : forall loc1 loc2 q, (drop_at ps 0 left = map CText loc1 /\ drop_at ps (n + 1) right = map CText loc2 /\ value_is c q) ->
     read_row (length c1) acc (RSeq (drop_at ps 0 left ++ c :: drop_at ps (n + 1) right)) =
     Ok (acc ++ [{| or_run := Z.of_nat (length acc) + 1; or_left := loc1; or_right := loc2; or_value := q |}])).
  { intros loc1 loc2 q (E1 & E2 & Eq). unfold read_row. cbn [row_cells bind]. destruct (nil_b _) eqn:En; [destruct (drop_at ps 0 left); discriminate|].
    rewrite firstn_app, <- Lc, Nat.sub_diag, firstn_all, app_nil_r, (proj2 (text_cells _ _) E1). cbn [bind].
    rewrite skipn_app. replace (length (drop_at ps 0 left) + 1 - length (drop_at ps 0 left)) with 1 by lia. rewrite skipn_all2 by lia. cbn [skipn app].
    rewrite (proj2 (text_cells _ _) E2). cbn [bind]. unfold cell_at. rewrite nth_error_app2, Nat.sub_diag by lia. cbn [nth_error bind].
    now rewrite (proj2 (stored_ok _ _) Eq). }
  split.
  - intros (r & Hv & Hr). pose proof (Vr r Hv) as ->. assert (Hall : forall x, In x ix -> exists u, chk full x = Ok u) by (apply V; eauto).
    unfold read_row in Hr. cbn [row_cells bind] in Hr. destruct (nil_b _) eqn:En; [destruct (drop_at ps 0 left); discriminate|].
    rewrite firstn_app, <- Lc, Nat.sub_diag, firstn_all, app_nil_r in Hr. apply bind_ok in Hr as (loc1 & E1 & Hr).
    rewrite skipn_app in Hr. replace (length (drop_at ps 0 left) + 1 - length (drop_at ps 0 left)) with 1 in Hr by lia. rewrite skipn_all2 in Hr by lia. cbn [skipn app] in Hr.
    apply bind_ok in Hr as (loc2 & E2 & Hr). apply bind_ok in Hr as (c' & E3 & Hr). apply bind_ok in Hr as (q & E4 & Hr).
    unfold cell_at in E3. rewrite nth_error_app2, Nat.sub_diag in E3 by lia. cbn [nth_error] in E3. injection E3 as <-. injection Hr as <-.
    apply text_cells in E1. apply text_cells in E2. apply stored_ok in E4. exists loc1, loc2, q. split; [|reflexivity].
    exists left, c, right. destruct header_parts as [-> ->]. split; [reflexivity|]. split; [exact Ll|]. split; [exact E4|]. split.
    + apply S1. split; [reflexivity|]. split; [now symmetry|]. intros x Hx. apply Hall. rewrite ix_eq. apply in_or_app. now left.
    + apply S2. split; [reflexivity|]. split; [now symmetry|]. intros x Hx. apply Hall. rewrite ix_eq. apply in_or_app. now right.
  - intros (loc1 & loc2 & q & (left' & c' & right' & E & L' & Hq & H1 & H2) & ->).
    destruct header_parts as [P1 P2]. rewrite P1 in H1. rewrite P2 in H2.
    assert (left' = left /\ c' = c /\ right' = right) as (-> & -> & ->).
    { unfold full in E. rewrite <- L' in Ll. clear - E Ll. revert left' E Ll. induction left as [|x left IH]; intros [|y left'] E Ll; cbn in *; try discriminate.
      - inversion E. auto.
      - inversion E; subst. destruct (IH left' H1) as (-> & -> & ->); auto. }
    apply S1 in H1 as (_ & E1 & C1). apply S2 in H2 as (_ & E2 & C2).
    assert (Hv : exists r, validate_and_parse ix (RSeq full) = Ok r).
    { apply V. intros x Hx. rewrite ix_eq in Hx. apply in_app_or in Hx as [Hx|Hx]; auto. }
    destruct Hv as [r Hv]. exists r. split; [exact Hv|]. rewrite (Vr r Hv). apply R. auto.
Qed.

(** An empty row. *)
Lemma empty_row acc out : (exists r, validate_and_parse ix (RSeq []) = Ok r /\ read_row (length c1) acc r = Ok out) <->
  ix = [] /\ out = acc.
Proof.
  unfold validate_and_parse. cbn [row_cells bind drop_at]. destruct ix as [|[p v] ix'].
  - cbn [traverse bind map]. split; [|intros [_ ->]; eexists; split; reflexivity]. intros (r & [= <-] & H). split; [reflexivity|].
    unfold read_row in H. cbn [row_cells bind nil_b] in H. congruence.
  - split; [|intros [[=] _]]. intros (r & H & _). rewrite traverse_cons in H. cbn [bind] in H. unfold cell_at in H.
    assert (nth_error (@nil cell) p = None) as E by (now destruct p). rewrite E in H. cbn [bind] in H. discriminate.
Qed.
Lemma ix_nil : ix = [] <-> ~ checked d1 pre /\ ~ checked d2 post.
Proof.
  rewrite ix_eq. unfold checked. change (txt "domain") with domain_. split.
  - intros E. apply app_eq_nil in E as [E1 E2]. destruct (dpos_cases d1 0 pre) as [[_ H1]|(a & b & _ & _ & _ & E)]; [|congruence].
    destruct (dpos_cases d2 (n + 1) post) as [[_ H2]|(a & b & _ & _ & _ & E)]; [|congruence]. tauto.
  - intros [H1 H2]. destruct (dpos_cases d1 0 pre) as [[-> _]|(a & b & Hd & E & _)].
    + destruct (dpos_cases d2 (n + 1) post) as [[-> _]|(a & b & Hd & E & _)]; [reflexivity|]. exfalso. apply H2. split; [exact Hd|]. rewrite E. apply in_or_app. right. now left.
    + exfalso. apply H1. split; [exact Hd|]. rewrite E. apply in_or_app. right. now left.
Qed.

Definition good_row (l : list cell) (r : old_row) : Prop := row_is n header d1 d2 c1 c2 l (or_left r) (or_right r) (or_value r).
Lemma read_all cells : regular header cells -> forall acc out,
  read_rows (length c1) acc (smap (validate_and_parse ix) (chain (map RSeq cells) Stop)) = Ok out <->
  exists rows, out = acc ++ rows /\ (In [] cells -> ix = []) /\
    Forall2 good_row (filter (fun l => negb (nil_b l)) cells) rows /\
    map or_run rows = map (fun i => Z.of_nat i + 1)%Z (seq (length acc) (length rows)).
Proof.
  induction cells as [|l cells IH]; intros Reg acc out; cbn [map chain smap read_rows filter].
  - split.
    + intros [= <-]. exists []. rewrite app_nil_r. repeat split; [easy|constructor].
    + intros (rows & -> & _ & F & _). inversion F; subst. now rewrite app_nil_r.
  - assert (Reg' : regular header cells) by (intros x Hx; apply Reg; now right). specialize (IH Reg').
    destruct (Reg l (or_introl eq_refl)) as [->|L].
    + cbn [nil_b negb]. pose proof (fun o => empty_row acc o) as Er.
      destruct (validate_and_parse ix (RSeq [])) as [r|e] eqn:V; cbn [read_rows].
      * destruct (read_row (length c1) acc r) as [acc'|e] eqn:Rr; cbn [bind].
        -- destruct (proj1 (Er acc') (ex_intro _ r (conj eq_refl Rr))) as [Ei ->]. rewrite IH. split.
           ++ intros (rows & E & Hn & F). exists rows. split; [exact E|]. split; [intros _; exact Ei|exact F].
           ++ intros (rows & E & Hn & F). exists rows. split; [exact E|]. split; [intros _; exact Ei|exact F].
        -- split; [discriminate|]. intros (rows & _ & Hn & _). exfalso. destruct (proj2 (Er acc) (conj (Hn (or_introl eq_refl)) eq_refl)) as (r' & [= <-] & H). congruence.
      * split; [discriminate|]. intros (rows & _ & Hn & _). exfalso. destruct (proj2 (Er acc) (conj (Hn (or_introl eq_refl)) eq_refl)) as (r' & [=] & H).
    + assert (En : nil_b l = false) by (destruct l; [unfold header in L; rewrite app_length in L; cbn in L; lia|reflexivity]). rewrite En. cbn [negb].
      assert (Hnil : In [] (l :: cells) <-> In [] cells) by (cbn [In]; split; [intros [->|H]; [discriminate|exact H]|auto]).
      pose proof (fun o => full_row l acc o L) as Fr.
      assert (G : forall acc' (rows : unit), (exists r, validate_and_parse ix (RSeq l) = Ok r /\ read_row (length c1) acc r = Ok acc') ->
        exists r1, acc' = acc ++ [r1] /\ good_row l r1 /\ or_run r1 = (Z.of_nat (length acc) + 1)%Z).
      { intros acc' _ H. apply Fr in H as (loc1 & loc2 & q & H & ->). eexists. split; [reflexivity|]. split; [exact H|reflexivity]. }
      destruct (validate_and_parse ix (RSeq l)) as [r|e] eqn:V; cbn [read_rows].
      * destruct (read_row (length c1) acc r) as [acc'|e] eqn:Rr; cbn [bind].
        -- destruct (G acc' tt (ex_intro _ r (conj eq_refl Rr))) as (r1 & -> & Gr & Er). rewrite IH. rewrite app_length. cbn [length]. split.
           ++ intros (rows & -> & Hn & F & Hm). exists (r1 :: rows). rewrite <- app_assoc. split; [reflexivity|]. split; [now rewrite Hnil|].
              split; [constructor; assumption|]. cbn [map length seq]. rewrite Er. f_equal. rewrite Hm. now rewrite Nat.add_1_r.
           ++ intros (rows & E & Hn & F & Hm). inversion F as [|? r2 ? rows2 Gr2 F2]; subst. exists rows2.
              cbn [map length seq] in Hm. injection Hm as Er2 Hm.
              assert (r2 = r1).
              { destruct r1 as [ru1 lo1 lo2 v1], r2 as [ru2 lo1' lo2' v2]. cbn [or_run or_left or_right or_value] in *. 
                destruct (proj2 (Fr (acc ++ [{| or_run := Z.of_nat (length acc) + 1; or_left := lo1'; or_right := lo2'; or_value := v2 |}]))) as (r' & [= <-] & Hr').
                { exists lo1', lo2', v2. split; [exact Gr2|reflexivity]. }
                rewrite Rr in Hr'. injection Hr' as Hr'. apply app_inv_head in Hr'. inversion Hr'; subst. reflexivity. }
              subst r2. rewrite <- app_assoc. split; [reflexivity|]. split; [now rewrite <- Hnil|]. split; [exact F2|]. now rewrite Nat.add_1_r.
        -- split; [discriminate|]. intros (rows & _ & _ & F & _). exfalso. inversion F as [|? r2 ? rows2 Gr2 F2]; subst.
           destruct (proj2 (Fr (acc ++ [{| or_run := Z.of_nat (length acc) + 1; or_left := or_left r2; or_right := or_right r2; or_value := or_value r2 |}]))) as (r' & [= <-] & Hr'); [exists (or_left r2), (or_right r2), (or_value r2); split; [exact Gr2|reflexivity]|]. congruence.
      * split; [discriminate|]. intros (rows & _ & _ & F & _). exfalso. inversion F as [|? r2 ? rows2 Gr2 F2]; subst.
        destruct (proj2 (Fr (acc ++ [{| or_run := Z.of_nat (length acc) + 1; or_left := or_left r2; or_right := or_right r2; or_value := or_value r2 |}]))) as (r' & [=] & Hr'); exists (or_left r2), (or_right r2), (or_value r2); split; [exact Gr2|reflexivity].
Qed.
End Table.

Lemma value_position_iff name cols v : get_mapping_value_position shorthand_name (map CText cols) name = Ok v <->
  link_column shorthand_name name (map CText cols) v.
Proof.
  unfold get_mapping_value_position. split.
  - intros H. apply value_position_ok in H as [_ H]. now rewrite Nat.sub_0_r in H.
  - intros H. destruct (value_position_total shorthand_name name (map CText cols)) with (i := 0) as [[w Hw]|[_ F]].
    + apply Forall_forall. intros c Hc. apply in_map_iff in Hc as (t & <- & _). eauto.
    + pose proof (value_position_ok _ _ _ _ _ Hw) as [_ H']. rewrite Nat.sub_0_r in H'. now rewrite (link_column_fun _ _ _ _ _ H H').
    + destruct H as (p & c & q & E & _ & Nc & _). exfalso. rewrite E in F. rewrite Forall_app in F. destruct F as [_ F]. inversion F. contradiction.
Qed.
Lemma in_drop {A} ps (l : list A) x : forall i, In x (drop_at ps i l) -> In x l.
Proof.
  induction l as [|y l IH]; intros i; cbn [drop_at]; [easy|]. destruct (existsb _ ps).
  - intros H. right. eauto.
  - intros [->|H]; [now left|right; eauto].
Qed.

(** Reading the table as a whole. *)
Definition read_table (name : text) (cells : list (list cell)) (header : list text) (d1 d2 : text) : res (list text * list text * list old_row) :=
  do (s, columns) <- normalize_domains (chain (map RSeq cells) Stop) header name d1 d2; old_mapper name s columns.

Lemma read_table_iff a x1 x2 header cells c1 c2 rows : regular header cells ->
  (read_table (la_link a) cells header (l_domain x1) (l_domain x2) = Ok (c1, c2, rows) <-> table_is a x1 x2 header cells c1 c2 rows).
Proof.
  intros Reg. unfold read_table, normalize_domains, table_is.
  destruct (get_mapping_value_position shorthand_name (map CText header) (la_link a)) as [n|e] eqn:Ev; cbn [bind].
  2:{ split; [discriminate|]. intros (n & H & _). apply value_position_iff in H. congruence. }
  apply value_position_iff in Ev. pose proof Ev as (P & C & Q & E & Lp & Nc & F).
  assert (Hh : exists pre h post, header = pre ++ h :: post /\ P = map CText pre /\ C = CText h /\ Q = map CText post).
  { apply map_eq_app in E as (pre & rest & -> & <- & E). apply map_eq_cons in E as (h & post & -> & <- & <-). eauto 8. }
  destruct Hh as (pre & h & post & -> & -> & -> & ->). rewrite map_length in Lp. subst n.
  set (n := length pre). set (ix := domain_indexes n (pre ++ h :: post) (l_domain x1) (l_domain x2)).
  pose proof (columns_c pre h post (l_domain x1) (l_domain x2)) as Ec. fold n ix in Ec.
  set (k1 := drop_at (map fst ix) 0 pre) in *. set (k2 := drop_at (map fst ix) (n + 1) post) in *.
  rewrite Ec. unfold old_mapper.
  assert (Evp : get_mapping_value_position shorthand_name (map CText (k1 ++ h :: k2)) (la_link a) = Ok (length k1)).
  { apply value_position_iff. exists (map CText k1), (CText h), (map CText k2). rewrite map_app. cbn [map]. split; [reflexivity|]. split; [apply map_length|].
    split; [exact Nc|]. apply Forall_forall. intros c Hc. apply in_map_iff in Hc as (t & <- & Ht). apply in_drop in Ht.
    rewrite Forall_forall in F. apply F. now apply in_map. }
  assert (Tab : forall A (K : stream row * list cell -> res A) , (do x <- normalize_tabular (DIter (smap (validate_and_parse ix) (chain (map RSeq cells) Stop))) (Some (map CText (k1 ++ h :: k2))); K x) =
    match smap (validate_and_parse ix) (chain (map RSeq cells) Stop) with Boom e => Err e | s => K (s, map CText (k1 ++ h :: k2)) end).
  { intros A K. unfold normalize_tabular. cbn [iter_data bind]. unfold Streams_Model.given. rewrite map_app. cbn [map].
    destruct (smap _ _) as [|e|r s] eqn:Es; cbn [bind].
    - destruct (map CText k1 ++ CText h :: map CText k2) eqn:Q; [destruct k1; discriminate|]. reflexivity.
    - reflexivity.
    - assert (exists l, r = RSeq l) as [l ->].
      { destruct cells as [|l0 cells]; [discriminate|]. cbn [map chain smap] in Es. destruct (validate_and_parse ix (RSeq l0)) as [r0|] eqn:V; [|discriminate]. inversion Es; subst.
        unfold validate_and_parse in V. cbn [row_cells bind] in V. destruct (traverse _ ix); [|discriminate]. cbn [bind] in V. inversion V. eauto. }
      destruct (map CText k1 ++ CText h :: map CText k2) eqn:Q; [destruct k1; discriminate|]. reflexivity. }
  rewrite Tab. clear Tab. cbv beta iota. rewrite (proj2 (text_cells _ _) eq_refl). cbn [bind]. rewrite Evp. cbn [bind].
  assert (Hf : firstn (length k1) (k1 ++ h :: k2) = k1 /\ skipn (length k1 + 1) (k1 ++ h :: k2) = k2).
  { split; [now rewrite firstn_app, Nat.sub_diag, firstn_all, app_nil_r|].
    rewrite skipn_app. replace (length k1 + 1 - length k1) with 1 by lia. rewrite skipn_all2 by lia. reflexivity. }
  destruct Hf as [-> ->].
  pose proof (read_all pre h post (l_domain x1) (l_domain x2) cells Reg []) as RA. fold n ix k1 k2 in RA. cbn [app length] in RA.
  destruct (header_parts pre h post) as [H1 H2]. fold n in H1, H2.
  assert (Fin : (do rows0 <- read_rows (length k1) [] (smap (validate_and_parse ix) (chain (map RSeq cells) Stop)); Ok (k1, k2, rows0)) = Ok (c1, c2, rows) <->
    exists n0, link_column shorthand_name (la_link a) (map CText (pre ++ h :: post)) n0 /\
      side_columns (l_domain x1) (firstn n0 (pre ++ h :: post)) c1 /\ side_columns (l_domain x2) (skipn (n0 + 1) (pre ++ h :: post)) c2 /\
      (In [] cells -> ~ checked (l_domain x1) (firstn n0 (pre ++ h :: post)) /\ ~ checked (l_domain x2) (skipn (n0 + 1) (pre ++ h :: post))) /\
      Forall2 (fun l r => row_is n0 (pre ++ h :: post) (l_domain x1) (l_domain x2) c1 c2 l (or_left r) (or_right r) (or_value r)) (filter (fun l => negb (nil_b l)) cells) rows /\
      map or_run rows = map (fun i => Z.of_nat i + 1)%Z (seq 0 (length rows))).
  { split.
    - intros H. apply bind_ok in H as (rows0 & Hr & H). injection H as <- <- ->. apply RA in Hr as (rows' & -> & Hn & Hf & Hm).
      exists n. split; [exact Ev|]. rewrite H1, H2. split; [apply (proj2 (c1_iff pre h post (l_domain x1) (l_domain x2) k1)); reflexivity|]. split; [apply (proj2 (c2_iff pre h post (l_domain x1) (l_domain x2) k2)); reflexivity|].
      split; [intros Hi; apply (proj1 (ix_nil pre h post (l_domain x1) (l_domain x2))); now apply Hn|]. split; [exact Hf|exact Hm].
    - intros (n0 & L0 & S1 & S2 & Hn & Hf & Hm). assert (n0 = n) as -> by (eapply link_column_fun; eauto).
      rewrite H1, H2 in *. apply (proj1 (c1_iff pre h post (l_domain x1) (l_domain x2) c1)) in S1. apply (proj1 (c2_iff pre h post (l_domain x1) (l_domain x2) c2)) in S2. change (c1 = k1) in S1. change (c2 = k2) in S2. subst c1. subst c2.
      rewrite (proj2 (RA rows)); [reflexivity|]. exists rows. split; [reflexivity|]. split; [|split; [exact Hf|exact Hm]].
      intros Hi. apply ix_nil. now apply Hn. }
  rewrite <- Fin. destruct (smap (validate_and_parse ix) (chain (map RSeq cells) Stop)) as [|e|r s]; [reflexivity| |reflexivity].
  cbn [read_rows bind]. split; discriminate.
Qed.
