(** Proofs for C68: the texts can be read. *)
From Coq Require Import Sorting.Sorted Sorting.Permutation.
From Verif Require Import Prelude Selectors_Model SelectorParse_Model LinkRef_Model PartSort_Model FormatGran_Model Info_Model Info_Spec Info_Proofs.
From Verif Require Json_Model Json_Spec Db_Model FileOpen_Proofs.
Local Open Scope nat_scope.
Local Open Scope list_scope.

Lemma join_cons2 sep a b l : join sep (a :: b :: l) = a ++ sep ++ join sep (b :: l).
Proof. unfold join. cbn [flat_map]. rewrite <- !app_assoc. reflexivity. Qed.

(** *** Lists of entries *)
(** What can follow an entry. *)
Definition tail_ok (t : text) : Prop := t = [] \/ exists r, t = 44%N :: 32%N :: r.
Definition note_start (t : text) : Prop := tail_ok t \/ exists r, t = 32%N :: 40%N :: r.
Lemma name_end : forall n n' t t', plain n -> plain n' -> note_start t -> note_start t' -> n ++ t = n' ++ t' -> n = n' /\ t = t'.
Proof.
  assert (H : forall c n t t', ~ In 44%N (c :: n) -> ~ In 40%N (c :: n) -> note_start t -> note_start t' -> t = (c :: n) ++ t' -> False).
  { intros c n t t' N1 N2 [[->|(r & ->)]|(r & ->)] Ht' E; cbn [app] in E; [discriminate| |]; injection E as <- E.
    - apply N1. left. reflexivity.
    - destruct n as [|d n]; cbn [app] in E.
      + destruct Ht' as [[->|(q & ->)]|(q & ->)]; discriminate.
      + injection E as <- E. apply N2. right. left. reflexivity. }
  induction n as [|c n IH]; intros [|c' n'] t t' [P1 P2] [Q1 Q2] Ht Ht' E.
  - auto.
  - exfalso. cbn [app] in E. exact (H c' n' t t' Q1 Q2 Ht Ht' E).
  - exfalso. cbn [app] in E. exact (H c n t' t P1 P2 Ht' Ht (eq_sym E)).
  - cbn [app] in E. injection E as <- E. destruct (IH n' t t') as [-> ->]; auto; split; intro I; [apply P1|apply P2|apply Q1|apply Q2]; right; exact I.
Qed.
Section Entries.
Context (notes : list text).
Context (starts : forall r, In r notes -> r = [] \/ exists q, r = 32%N :: 40%N :: q).
Context (ends : forall r r' t t', In r notes -> In r' notes -> tail_ok t -> tail_ok t' -> r ++ t = r' ++ t' -> r = r').
Definition entry (p : text * text) : text := fst p ++ snd p.
Lemma note_tail r t : In r notes -> tail_ok t -> note_start (r ++ t).
Proof. intros I T. destruct (starts r I) as [->|(q & ->)]; [left; exact T | right; cbn [app]; eauto]. Qed.
Definition entry_ok (p : text * text) : Prop := plain (fst p) /\ In (snd p) notes.
Lemma entry_inj p p' t t' : entry_ok p -> entry_ok p' -> tail_ok t -> tail_ok t' -> entry p ++ t = entry p' ++ t' -> p = p' /\ t = t'.
Proof.
  destruct p as [n r], p' as [n' r']. unfold entry. cbn [fst snd]. intros [P I] [P' I'] T T' E. rewrite <- !app_assoc in E.
  destruct (name_end n n' (r ++ t) (r' ++ t')) as [-> E2]; auto using note_tail. pose proof (ends r r' t t' I I' T T' E2) as ->. apply app_inv_head in E2. auto.
Qed.
Lemma entries_inj : forall l l', Forall entry_ok l -> Forall entry_ok l' -> l <> [] -> l' <> [] ->
  join (txt ", ") (map entry l) = join (txt ", ") (map entry l') -> l = l'.
Proof.
  assert (H : forall p l, exists t, join (txt ", ") (map entry (p :: l)) = entry p ++ t /\
              (l = [] /\ t = [] \/ l <> [] /\ t = 44%N :: 32%N :: join (txt ", ") (map entry l))).
  { intros p [|q l].
    - exists []. cbn. split; auto.
    - exists (txt ", " ++ join (txt ", ") (map entry (q :: l))). split; [cbn [map]; apply join_cons2|]. right. split; [discriminate | reflexivity]. }
  induction l as [|p l IH]; intros [|p' l'] F F' Ne Ne' E; try congruence. inversion F; inversion F'; subst.
  destruct (H p l) as (t & Et & Ht), (H p' l') as (t' & Et' & Ht'). rewrite Et, Et' in E.
  assert (T : tail_ok t) by (destruct Ht as [[_ ->]|[_ ->]]; [left; reflexivity | right; eauto]).
  assert (T' : tail_ok t') by (destruct Ht' as [[_ ->]|[_ ->]]; [left; reflexivity | right; eauto]).
  destruct (entry_inj p p' t t') as [-> ->]; auto. f_equal.
  destruct Ht as [[-> ->]|[N ->]], Ht' as [[-> X]|[N' X]]; try congruence. injection X as X. apply IH; auto.
Qed.
End Entries.

Definition group_notes : list text := [[]; txt " (default)"; txt " (default, incomplete)"; txt " (incomplete)"].
Definition link_notes : list text := [[]; txt " (default)"; txt " (default, locally incomplete)"; txt " (locally incomplete)"].
Ltac notes_cases :=
  repeat match goal with H : In _ (_ :: _) |- _ => destruct H as [<-|H] | H : In _ [] |- _ => destruct H end.
Lemma group_starts r : In r group_notes -> r = [] \/ exists q, r = 32%N :: 40%N :: q.
Proof. unfold group_notes. intro H. notes_cases; [left; reflexivity | right; eexists; reflexivity..]. Qed.
Lemma link_starts r : In r link_notes -> r = [] \/ exists q, r = 32%N :: 40%N :: q.
Proof. unfold link_notes. intro H. notes_cases; [left; reflexivity | right; eexists; reflexivity..]. Qed.
Lemma group_ends r r' t t' : In r group_notes -> In r' group_notes -> tail_ok t -> tail_ok t' -> r ++ t = r' ++ t' -> r = r'.
Proof.
  unfold group_notes. intros I I' [->|(q & ->)] [->|(q' & ->)] E; notes_cases; try reflexivity; exfalso; vm_compute in E; discriminate.
Qed.
Lemma link_ends r r' t t' : In r link_notes -> In r' link_notes -> tail_ok t -> tail_ok t' -> r ++ t = r' ++ t' -> r = r'.
Proof.
  unfold link_notes. intros I I' [->|(q & ->)] [->|(q' & ->)] E; notes_cases; try reflexivity; exfalso; vm_compute in E; discriminate.
Qed.

(** *** Weights *)
Definition group_pair (d : option Z) (g : Db_Model.group) : text * text := (Db_Model.g_name g, group_note d g).
Lemma group_note_in d g : In (group_note d g) group_notes.
Proof. unfold group_note, group_notes. destruct (match d with Some i => _ | None => _ end); destruct (Db_Model.g_complete g); cbn [In]; auto. Qed.
Lemma told_pair s d : default_group_id s = Ok d -> forall n b c,
  told s n b c <-> In (n, if b then (if c then txt " (default)" else txt " (default, incomplete)") else if c then [] else txt " (incomplete)") (map (group_pair d) (s_groups s)).
Proof.
  intros D n b c.
  assert (X : forall g, (match d with Some i => (Db_Model.g_id g =? i)%Z | None => false end = true <-> is_default s g)).
  { intro g. unfold default_group_id, is_default in *. destruct (s_default s) as [[i|]|]; [|discriminate|].
    - destruct (existsb _ _); [|discriminate]. injection D as <-. rewrite Z.eqb_eq. split; [intros ->; reflexivity | intro H; injection H; auto].
    - injection D as <-. split; discriminate. }
  unfold told. rewrite in_map_iff. unfold group_pair, group_note. split.
  - intros (g & I & <- & <- & B). exists g. split; [|exact I]. f_equal. specialize (X g).
    destruct (match d with Some i => _ | None => _ end); destruct b; try reflexivity; exfalso.
    + assert (false = true) by (apply B, X; reflexivity). discriminate.
    + assert (false = true) by (apply X, B; reflexivity). discriminate.
  - intros (g & E & I). exists g. split; [exact I|]. injection E as En Er. split; [exact En|]. specialize (X g).
    destruct (match d with Some i => _ | None => _ end); destruct (Db_Model.g_complete g), b, c; try (vm_compute in Er; discriminate);
      (split; [reflexivity|]); split; intro H; try discriminate; try (apply X; reflexivity); try reflexivity;
      exfalso; assert (false = true) by (apply X; exact H); discriminate.
Qed.
Lemma weights_readable s s' i i' : get_info s = Ok i -> get_info s' = Ok i' -> s_groups s <> [] -> s_groups s' <> [] ->
  (forall g, In g (s_groups s ++ s_groups s') -> plain (Db_Model.g_name g)) ->
  join (txt ", ") (i_weights i) = join (txt ", ") (i_weights i') -> forall n b c, told s n b c <-> told s' n b c.
Proof.
  intros E E' Ne Ne' P J n b c. apply info_weights in E, E'. unfold weights_list in E, E'.
  destruct (s_groups s) as [|g0 l0] eqn:G; [congruence|]. rewrite <- G in *. destruct (s_groups s') as [|g1 l1] eqn:G'; [congruence|]. rewrite <- G' in *.
  destruct (default_group_id s) as [d|] eqn:D; cbn [bind] in E; [|discriminate]. destruct (default_group_id s') as [d'|] eqn:D'; cbn [bind] in E'; [|discriminate].
  injection E as E. injection E' as E'. rewrite (told_pair s d D), (told_pair s' d' D').
  set (l := sorted Json_Model.text_ltb Db_Model.g_name (s_groups s)) in *. set (l' := sorted Json_Model.text_ltb Db_Model.g_name (s_groups s')) in *.
  assert (Pl : Permutation l (s_groups s)) by apply sorted_perm. assert (Pl' : Permutation l' (s_groups s')) by apply sorted_perm.
  assert (Q : map (group_pair d) l = map (group_pair d') l').
  { apply (entries_inj group_notes group_starts group_ends).
    - apply Forall_forall. intros p I. apply in_map_iff in I. destruct I as (g & <- & I). split; [|apply group_note_in]. apply P, in_app_iff. left. exact (Permutation_in _ Pl I).
    - apply Forall_forall. intros p I. apply in_map_iff in I. destruct I as (g & <- & I). split; [|apply group_note_in]. apply P, in_app_iff. right. exact (Permutation_in _ Pl' I).
    - intro X. apply map_eq_nil in X. rewrite X in Pl. apply Permutation_nil in Pl. congruence.
    - intro X. apply map_eq_nil in X. rewrite X in Pl'. apply Permutation_nil in Pl'. congruence.
    - assert (X : forall e m, map entry (map (group_pair e) m) = map (fun g => Db_Model.g_name g ++ group_note e g) m) by (intros; rewrite map_map; reflexivity).
      rewrite !X. etransitivity; [|etransitivity; [exact J|]]; f_equal; auto. }
  assert (R : forall x, In x (map (group_pair d) (s_groups s)) <-> In x (map (group_pair d') (s_groups s'))).
  { intro x. split; intro I.
    - apply (Permutation_in _ (Permutation_map _ Pl')). rewrite <- Q. exact (Permutation_in _ (Permutation_sym (Permutation_map _ Pl)) I).
    - apply (Permutation_in _ (Permutation_map _ Pl)). rewrite Q. exact (Permutation_in _ (Permutation_sym (Permutation_map _ Pl')) I). }
  apply R.
Qed.

(** *** Links *)
Definition link_pair (k : link) : text * text := (k_name k, link_note k).
Lemma link_note_in k : In (link_note k) link_notes.
Proof. unfold link_note, link_notes. destruct (k_default k), (k_complete k); cbn [In]; auto. Qed.
Definition unpair (p : text * text) : text * bool * bool :=
  (fst p, text_eqb (snd p) (txt " (default)") || text_eqb (snd p) (txt " (default, locally incomplete)"), text_eqb (snd p) [] || text_eqb (snd p) (txt " (default)")).
Lemma unpair_link k : unpair (link_pair k) = what k.
Proof. unfold unpair, link_pair, what, link_note. destruct (k_default k), (k_complete k); vm_compute; reflexivity. Qed.
Lemma colon_end : forall r r' t t', ~ In 58%N r -> ~ In 58%N r' -> r ++ 58%N :: t = r' ++ 58%N :: t' -> r = r' /\ t = t'.
Proof.
  induction r as [|c r IH]; intros [|c' r'] t t' N N' E; cbn [app] in E.
  - injection E as E. auto.
  - exfalso. apply N'. left. congruence.
  - exfalso. apply N. left. congruence.
  - injection E as <- E. destruct (IH r' t t') as [-> ->]; auto; intro I; [apply N|apply N']; right; exact I.
Qed.
Lemma line_readable g g' : ~ In 58%N (space_ref (fst g)) -> ~ In 58%N (space_ref (fst g')) ->
  (forall k, In k (block g ++ block g') -> plain (k_name k)) -> link_line g = link_line g' ->
  space_ref (fst g) = space_ref (fst g') /\ Permutation (map what (block g)) (map what (block g')).
Proof.
  intros N N' P E. set (f := fun x => k_name x ++ link_note x) in *.
  assert (X : forall h, link_line h = space_ref (fst h) ++ 58%N :: 32%N :: join (txt ", ") (sorted Json_Model.text_ltb (fun x => x) (map f (block h)))) by (intro h; reflexivity).
  rewrite !X in E. apply colon_end in E; [|assumption..]. destruct E as [E1 E2]. split; [exact E1|]. apply (f_equal (@tl BinNums.N)) in E2. cbn [tl] in E2. clear X.
  assert (L : forall h, (forall k, In k (block h) -> plain (k_name k)) -> exists l, sorted Json_Model.text_ltb (fun x => x) (map f (block h)) = map entry l /\ Forall (entry_ok link_notes) l /\ Permutation l (map link_pair (block h)) /\ l <> []).
  { intros h Ph. assert (X : map f (block h) = map entry (map link_pair (block h))) by (rewrite map_map; reflexivity).
    pose proof (sorted_perm Json_Model.text_ltb (fun x => x) (map f (block h))) as Pm. rewrite X in Pm at 2. apply Permutation_map_inv in Pm. destruct Pm as (l & Hl & Pl).
    exists l. split; [exact Hl|]. split; [|split; [symmetry; exact Pl|]].
    - apply Forall_forall. intros p I. apply (Permutation_in _ (Permutation_sym Pl)) in I. apply in_map_iff in I. destruct I as (k & <- & I). split; [exact (Ph k I) | apply link_note_in].
    - intros ->. apply Permutation_sym, Permutation_nil in Pl. discriminate. }
  destruct (L g) as (l & El & Fl & Pl & Nl); [intros k I; apply P, in_app_iff; auto|].
  destruct (L g') as (l' & El' & Fl' & Pl' & Nl'); [intros k I; apply P, in_app_iff; auto|].
  rewrite El, El' in E2. apply (entries_inj link_notes link_starts link_ends) in E2; auto. subst l'.
  assert (W : forall h, map what (block h) = map unpair (map link_pair (block h))) by (intro h; rewrite map_map; apply map_ext; intro k; symmetry; apply unpair_link).
  rewrite !W. apply Permutation_map. eapply Permutation_trans; [apply Permutation_sym; exact Pl | exact Pl'].
Qed.
(** The name by which the space of a link is shown, without a colon. *)
Definition plain_ref (k : link) : Prop := forall r, space_name k r -> ~ In 58%N r.
Lemma links_readable s s' i i' : get_info s = Ok i -> get_info s' = Ok i' -> s_links s <> [] -> s_links s' <> [] ->
  NoDup (map k_id (s_links s)) -> NoDup (map k_id (s_links s')) ->
  (forall k, In k (s_links s ++ s_links s') -> plain (k_name k) /\ plain_ref k) -> i_links i = i_links i' ->
  exists blocks blocks', Permutation (concat (map snd blocks)) (s_links s) /\ Permutation (concat (map snd blocks')) (s_links s') /\
    Forall (fun b => one_space (fst b) (snd b)) (blocks ++ blocks') /\ NoDup (map fst blocks) /\ NoDup (map fst blocks') /\
    Forall2 (fun b b' => Permutation (map what (snd b)) (map what (snd b')) /\
       exists k k' r, hd_error (snd b) = Some k /\ hd_error (snd b') = Some k' /\ space_name k r /\ space_name k' r) blocks blocks'.
Proof.
  intros E E' Ne Ne' N N' P J. rewrite (info_links _ _ E), (info_links _ _ E') in J. unfold links_list in J.
  destruct (s_links s) as [|k0 l0] eqn:G; [congruence|]. rewrite <- G in *. clear G k0 l0 Ne. destruct (s_links s') as [|k0 l0] eqn:G; [congruence|]. rewrite <- G in *. clear G k0 l0 Ne'.
  assert (X : forall s0, NoDup (map k_id (s_links s0)) -> let l := sorted link_key_ltb (fun k => (k_other k, k_id k)) (s_links s0) in
            Permutation l (s_links s0) /\ Forall (fun g => one_space (k_other (fst g)) (block g)) (group_links l) /\
            NoDup (map fst (map (fun g => (k_other (fst g), block g)) (group_links l)))).
  { intros s0 N0 l. assert (P0 : Permutation l (s_links s0)) by (apply sorted_perm).
    assert (L : StronglySorted link_lt l).
    { apply link_strict; [eapply Permutation_NoDup; [apply Permutation_sym, Permutation_map, P0 | exact N0]|].
      apply (sorted_sorted link_key_ltb (fun k => (k_other k, k_id k))); [apply key_asym | apply key_trans]. }
    destruct (group_spec l L) as [F1 F2]. split; [exact P0|]. split; [exact F1|]. rewrite map_map. cbn [fst].
    clear - F2. induction F2 as [|g gs Hs IH F]; cbn [map]; constructor; [|exact IH]. intro I. apply in_map_iff in I. destruct I as (g' & Eg & I).
    rewrite Forall_forall in F. specialize (F g' I). rewrite Eg in F. apply lt_ltb in F. rewrite Json_Proofs2.ltb_irrefl in F. discriminate. }
  destruct (X s N) as (P1 & F1 & D1), (X s' N') as (P2 & F2 & D2). clear X.
  set (gs := group_links (sorted link_key_ltb (fun k => (k_other k, k_id k)) (s_links s))) in *. set (gs' := group_links (sorted link_key_ltb (fun k => (k_other k, k_id k)) (s_links s'))) in *.
  exists (map (fun g => (k_other (fst g), block g)) gs), (map (fun g => (k_other (fst g), block g)) gs').
  split; [|split; [|split; [|split; [exact D1|split; [exact D2|]]]]].
  - rewrite map_map. cbn [snd]. change (Permutation (concat (map (fun x => block x) gs)) (s_links s)). unfold gs. rewrite group_concat. exact P1.
  - rewrite map_map. cbn [snd]. change (Permutation (concat (map (fun x => block x) gs')) (s_links s')). unfold gs'. rewrite group_concat. exact P2.
  - apply Forall_app. split; apply Forall_forall; intros b Ib; apply in_map_iff in Ib; destruct Ib as (g & <- & Ig); [rewrite Forall_forall in F1; exact (F1 g Ig) | rewrite Forall_forall in F2; exact (F2 g Ig)].
  - assert (Q1 : forall g k, In g gs -> In k (block g) -> In k (s_links s)).
    { intros g k Ig Ik. apply (Permutation_in _ P1). rewrite <- (group_concat (sorted _ _ (s_links s))). apply in_concat. exists (block g). split; [apply in_map; exact Ig | exact Ik]. }
    assert (Q2 : forall g k, In g gs' -> In k (block g) -> In k (s_links s')).
    { intros g k Ig Ik. apply (Permutation_in _ P2). rewrite <- (group_concat (sorted _ _ (s_links s'))). apply in_concat. exists (block g). split; [apply in_map; exact Ig | exact Ik]. }
    clearbody gs gs'. clear - J P Q1 Q2. revert gs' J Q2. induction gs as [|g gs IH]; intros [|g' gs'] J Q2; cbn [map] in *; try discriminate; constructor.
    + injection J as J _. cbn [snd].
      destruct (line_readable g g') as [R1 R2].
      * apply (P (fst g)); [apply in_app_iff; left; apply (Q1 g); left; reflexivity | apply space_ref_name].
      * apply (P (fst g')); [apply in_app_iff; right; apply (Q2 g'); left; reflexivity | apply space_ref_name].
      * intros k I. apply in_app_iff in I. apply P. apply in_app_iff. destruct I as [I|I]; [left; apply (Q1 g) | right; apply (Q2 g')]; auto; left; reflexivity.
      * exact J.
      * split; [exact R2|]. exists (fst g), (fst g'), (space_ref (fst g)). split; [reflexivity|]. split; [reflexivity|]. split; [apply space_ref_name | rewrite R1; apply space_ref_name].
    + injection J as _ J. apply IH; auto; intros h k Ih Ik; [apply (Q1 h) | apply (Q2 h)]; auto; right; exact Ih.
Qed.

(** *** The whole text *)
Definition indent (t : text) : text := txt "  " ++ t.
Lemma join_indent l : l <> [] -> txt "  " ++ join (nl ++ txt "  ") l = join nl (map indent l).
Proof.
  intro N. destruct l as [|a l]; [congruence|]. clear N. revert a. induction l as [|b l IH]; intro a.
  - cbn [map join flat_map]. rewrite !app_nil_r. reflexivity.
  - cbn [map]. rewrite !join_cons2. cbn [map] in IH. rewrite <- IH. unfold indent. rewrite <- !app_assoc. reflexivity.
Qed.
Definition lines_of (first : text) (i : info) (attributes : text) : list text :=
  first :: txt "domain:" :: indent (i_domain i) :: txt "partitions:" :: map indent (i_partitions i) ++
  txt "weights:" :: indent (join (txt ", ") (i_weights i)) :: txt "attributes:" :: indent attributes :: txt "incoming links:" ::
  map indent (i_links i) ++ [txt "created:"; indent (i_created i)].
Lemma join_app a b : a <> [] -> b <> [] -> join nl (a ++ b) = join nl a ++ nl ++ join nl b.
Proof.
  intros Na Nb. destruct a as [|x a]; [congruence|]. clear Na. revert x. induction a as [|y a IH]; intro x.
  - cbn [app]. destruct b as [|z b]; [congruence|]. rewrite join_cons2. cbn [join flat_map]. rewrite !app_nil_r. reflexivity.
  - cbn [app]. rewrite !join_cons2. cbn [app] in IH. rewrite IH. rewrite <- !app_assoc. reflexivity.
Qed.
Lemma repr_lines first i a : i_partitions i <> [] -> i_links i <> [] -> repr_text first i a = join nl (lines_of first i a).
Proof.
  intros Np Nk. unfold repr_text, lines_of. rewrite !join_cons2. f_equal. f_equal. f_equal. f_equal. unfold indent at 1. rewrite <- !app_assoc. f_equal. f_equal. f_equal.
  assert (J1 : forall x l, l <> [] -> join nl (x :: l) = x ++ nl ++ join nl l) by (intros x [|y l] H; [congruence | apply join_cons2]).
  rewrite (J1 (txt "partitions:")) by (destruct (map indent (i_partitions i)); discriminate). f_equal. f_equal.
  rewrite join_app by (try discriminate; intro X; apply map_eq_nil in X; auto). rewrite <- join_indent by exact Np. rewrite <- !app_assoc. f_equal. f_equal. f_equal.
  rewrite !join_cons2. f_equal. f_equal. unfold indent at 1. rewrite <- !app_assoc. f_equal. f_equal. f_equal. f_equal. f_equal. unfold indent at 1. rewrite <- !app_assoc. f_equal. f_equal. f_equal.
  rewrite (J1 (txt "incoming links:")) by (destruct (map indent (i_links i)); discriminate). f_equal. f_equal.
  rewrite join_app by (try discriminate; intro X; apply map_eq_nil in X; auto). rewrite <- join_indent by exact Nk. rewrite <- !app_assoc. f_equal. f_equal. f_equal.
  rewrite join_cons2. f_equal. f_equal. unfold indent, join. cbn [flat_map]. rewrite app_nil_r. reflexivity.
Qed.
Lemma line_end : forall a a' t t', one_line a -> one_line a' -> (t = [] \/ exists r, t = 10%N :: r) -> (t' = [] \/ exists r, t' = 10%N :: r) ->
  a ++ t = a' ++ t' -> a = a' /\ t = t'.
Proof.
  unfold one_line. induction a as [|c a IH]; intros [|c' a'] t t' O O' T T' E; cbn [app] in E; auto.
  - destruct T as [->|(r & ->)]; [discriminate|]. injection E as E _. exfalso. apply O'. left. auto.
  - destruct T' as [->|(r & ->)]; [discriminate|]. injection E as E _. exfalso. apply O. left. auto.
  - injection E as <- E. destruct (IH a' t t') as [-> ->]; auto; intro I; [apply O|apply O']; right; exact I.
Qed.
Lemma lines_inj : forall l l', Forall one_line l -> Forall one_line l' -> l <> [] -> l' <> [] -> join nl l = join nl l' -> l = l'.
Proof.
  assert (H : forall p l, exists t, join nl (p :: l) = p ++ t /\ (l = [] /\ t = [] \/ l <> [] /\ t = 10%N :: join nl l)).
  { intros p [|q l]; [exists []; cbn; auto|]. exists (nl ++ join nl (q :: l)). split; [apply join_cons2|]. right. split; [discriminate | reflexivity]. }
  induction l as [|p l IH]; intros [|p' l'] F F' Ne Ne' E; try congruence. inversion F; inversion F'; subst.
  destruct (H p l) as (t & Et & Ht), (H p' l') as (t' & Et' & Ht'). rewrite Et, Et' in E.
  destruct (line_end p p' t t') as [-> ->]; auto.
  { destruct Ht as [[_ ->]|[_ ->]]; eauto. } { destruct Ht' as [[_ ->]|[_ ->]]; eauto. }
  f_equal. destruct Ht as [[-> ->]|[N ->]], Ht' as [[-> X]|[N' X]]; try congruence. injection X as X. apply IH; auto.
Qed.
Lemma section_end h : (forall t, indent t <> h) -> forall l l' r r', map indent l ++ h :: r = map indent l' ++ h :: r' -> l = l' /\ r = r'.
Proof.
  intros Hh. induction l as [|x l IH]; intros [|x' l'] r r' E; cbn [map app] in E.
  - injection E as E. auto.
  - exfalso. injection E as E _. exact (Hh x' (eq_sym E)).
  - exfalso. injection E as E _. exact (Hh x E).
  - assert (Ex : indent x = indent x') by congruence. assert (El : map indent l ++ h :: r = map indent l' ++ h :: r') by congruence.
    unfold indent in Ex. apply app_inv_head in Ex. destruct (IH l' r r' El) as [-> ->]. subst. auto.
Qed.
Definition info_lines (i : info) : Prop :=
  one_line (i_domain i) /\ Forall one_line (i_partitions i) /\ one_line (join (txt ", ") (i_weights i)) /\ Forall one_line (i_links i) /\ one_line (i_created i).
Lemma indent_one t : one_line t -> one_line (indent t).
Proof. unfold one_line, indent. intros O I. apply in_app_iff in I. destruct I as [I|I]; [vm_compute in I; intuition discriminate | exact (O I)]. Qed.
Lemma lines_one first i a : one_line first -> one_line a -> info_lines i -> Forall one_line (lines_of first i a).
Proof.
  intros Of Oa (Od & Op & Ow & Ok & Oc). unfold lines_of.
  assert (T : forall t, existsb (N.eqb 10) t = false -> one_line t).
  { intros t E I. assert (X : existsb (N.eqb 10) t = true) by (apply existsb_exists; exists 10%N; split; [exact I | reflexivity]). congruence. }
  assert (M : forall l, Forall one_line l -> Forall one_line (map indent l)).
  { intros l F. apply Forall_forall. intros x I. apply in_map_iff in I. destruct I as (y & <- & I). rewrite Forall_forall in F. apply indent_one. auto. }
  repeat (first [apply Forall_cons | apply Forall_app; split]); auto using indent_one; apply T; vm_compute; reflexivity.
Qed.
Lemma repr_readable first first' i i' a a' : one_line first -> one_line first' -> one_line a -> one_line a' -> info_lines i -> info_lines i' ->
  i_partitions i <> [] -> i_links i <> [] -> i_partitions i' <> [] -> i_links i' <> [] ->
  repr_text first i a = repr_text first' i' a' ->
  first = first' /\ i_domain i = i_domain i' /\ i_partitions i = i_partitions i' /\ join (txt ", ") (i_weights i) = join (txt ", ") (i_weights i') /\
  a = a' /\ i_links i = i_links i' /\ i_created i = i_created i'.
Proof.
  intros Of Of' Oa Oa' Oi Oi' N1 N2 N3 N4 E. rewrite !repr_lines in E by assumption.
  apply lines_inj in E; [| apply lines_one; assumption | apply lines_one; assumption | discriminate | discriminate].
  unfold lines_of in E.
  assert (E0 : first = first') by congruence. assert (E1 : indent (i_domain i) = indent (i_domain i')) by congruence. apply app_inv_head in E1.
  apply (f_equal (skipn 4)) in E. cbn [skipn] in E. apply section_end in E; [|intros t X; discriminate]. destruct E as [E2 E].
  assert (E3 : indent (join (txt ", ") (i_weights i)) = indent (join (txt ", ") (i_weights i'))) by congruence. apply app_inv_head in E3.
  assert (E4 : indent a = indent a') by congruence. apply app_inv_head in E4.
  apply (f_equal (skipn 4)) in E. cbn [skipn] in E. apply section_end in E; [|intros t X; discriminate]. destruct E as [E5 E].
  assert (E6 : indent (i_created i) = indent (i_created i')) by congruence. apply app_inv_head in E6. auto 10.
Qed.
