(** Proofs for C68: weights and links. *)
From Coq Require Import Sorting.Sorted Sorting.Permutation.
From Verif Require Import Prelude Selectors_Model SelectorParse_Model LinkRef_Model PartSort_Model PartSort_Spec PartSort_Proofs FormatGran_Model FormatGran_Spec Info_Model Info_Spec.
From Verif Require Json_Model Json_Spec Json_Proofs2 Json_Proofs3 Db_Model FileOpen_Proofs.
Local Open Scope nat_scope.
Local Open Scope list_scope.

Lemma lt_ltb a b : Json_Spec.text_lt a b -> Json_Model.text_ltb a b = true.
Proof.
  intros (p & H). revert a b H. induction p as [|c p IH]; intros a b [[-> (c' & r & ->)]|(x & y & r & r' & -> & -> & L)]; cbn [app Json_Model.text_ltb]; auto.
  - apply N.ltb_lt in L. rewrite L. reflexivity.
  - rewrite N.ltb_irrefl, N.eqb_refl. cbn [orb andb]. apply IH. left. split; [reflexivity|]. eauto.
  - rewrite N.ltb_irrefl, N.eqb_refl. cbn [orb andb]. apply IH. right. eauto 10.
Qed.
Lemma ltb_asym a b : Json_Model.text_ltb a b = true -> Json_Model.text_ltb b a = false.
Proof.
  intro H. destruct (Json_Model.text_ltb b a) eqn:E; [|reflexivity]. pose proof (Json_Proofs2.ltb_trans _ _ _ H E) as X. rewrite Json_Proofs2.ltb_irrefl in X. discriminate.
Qed.
(** "Not greater" is transitive. *)
Lemma ltb_le_trans a b c : Json_Model.text_ltb b a = false -> Json_Model.text_ltb c b = false -> Json_Model.text_ltb c a = false.
Proof.
  intros H1 H2. destruct (Json_Model.text_ltb c a) eqn:E; [|reflexivity].
  destruct (list_eq_dec N.eq_dec b c) as [->|D]; [congruence|].
  assert (X : Json_Model.text_ltb b c = true) by (apply Json_Proofs2.ltb_total; congruence).
  rewrite (Json_Proofs2.ltb_trans _ _ _ X E) in H1. discriminate.
Qed.
Lemma not_lt a b : Json_Model.text_ltb a b = false -> ~ Json_Spec.text_lt a b.
Proof. intros H L. apply lt_ltb in L. congruence. Qed.

Section Sorted.
Context {A K : Type} (ltb : K -> K -> bool) (key : A -> K).
Context (asym : forall a b, ltb a b = true -> ltb b a = false).
Context (trans : forall a b c, ltb b a = false -> ltb c b = false -> ltb c a = false).
Lemma sorted_perm l : Permutation (sorted ltb key l) l.
Proof.
  unfold sorted. eapply Permutation_trans; [apply Permutation_map, sort_by_perm|]. rewrite map_map. cbn [fst]. rewrite map_id. apply Permutation_refl.
Qed.
Lemma sorted_sorted l : StronglySorted (fun a b => ltb (key b) (key a) = false) (sorted ltb key l).
Proof.
  unfold sorted. apply sorted_map.
  assert (F : forall p, In p (sort_by ltb (map (fun a => (a, key a)) l)) -> snd p = key (fst p)).
  { intros p I. apply (Permutation_in _ (sort_by_perm ltb _)) in I. apply in_map_iff in I. destruct I as (a & <- & _). reflexivity. }
  eapply sorted_impl; [|apply (sort_by_sorted ltb); [exact asym|exact trans]].
  intros a b Ia Ib H. rewrite <- (F a Ia), <- (F b Ib). exact H.
Qed.
End Sorted.

(** *** Weights *)
Lemma group_text s d g : default_group_id s = Ok d -> In g (s_groups s) ->
  group_entry s g (Db_Model.g_name g ++ group_note d g).
Proof.
  unfold default_group_id, group_note. intros E I.
  assert (X : (match d with Some i => (Db_Model.g_id g =? i)%Z | None => false end = true <-> is_default s g)).
  { unfold is_default. destruct (s_default s) as [[i|]|]; [|discriminate|].
    - destruct (existsb _ _); [|discriminate]. injection E as <-. rewrite Z.eqb_eq. split; [intros ->; reflexivity | intro H; injection H; auto].
    - injection E as <-. split; discriminate. }
  destruct (match d with Some i => (Db_Model.g_id g =? i)%Z | None => false end); destruct (Db_Model.g_complete g) eqn:C.
  - apply ge_default; [apply X; reflexivity | exact C].
  - apply ge_default_incomplete; [apply X; reflexivity | exact C].
  - rewrite app_nil_r. apply ge_plain; [intro H; apply X in H; discriminate | exact C].
  - apply ge_incomplete; [intro H; apply X in H; discriminate | exact C].
Qed.
Lemma strict_names (l : list Db_Model.group) : NoDup (map Db_Model.g_name l) ->
  StronglySorted (fun a b => Json_Model.text_ltb (Db_Model.g_name b) (Db_Model.g_name a) = false) l ->
  StronglySorted (fun a b => Json_Spec.text_lt (Db_Model.g_name a) (Db_Model.g_name b)) l.
Proof.
  intros N H. induction H as [|g l Hs IH F]; [constructor|]. cbn [map] in N. inversion N as [|? ? Ni N']; subst. constructor; [auto|].
  rewrite Forall_forall in *. intros g' I. apply Json_Proofs3.ltb_lt, Json_Proofs2.ltb_total; [auto|]. intro E. apply Ni. rewrite <- E. apply in_map. exact I.
Qed.
Lemma info_weights s i : get_info s = Ok i -> weights_list s = Ok (i_weights i).
Proof.
  unfold get_info. destruct (partition_list s); cbn [bind]; [|discriminate]. destruct (weights_list s); cbn [bind]; [|discriminate].
  destruct (s_created s); [|discriminate]. intro H. injection H as <-. reflexivity.
Qed.
Lemma weights_spec s i : get_info s = Ok i -> NoDup (map Db_Model.g_name (s_groups s)) -> s_groups s <> [] ->
  exists order, Permutation order (s_groups s) /\
    StronglySorted (fun a b => Json_Spec.text_lt (Db_Model.g_name a) (Db_Model.g_name b)) order /\
    Forall2 (group_entry s) order (i_weights i).
Proof.
  intros E N Ne. apply info_weights in E. unfold weights_list in E. destruct (s_groups s) as [|g0 l0] eqn:G; [congruence|]. rewrite <- G in *. clear G g0 l0 Ne.
  destruct (default_group_id s) as [d|] eqn:D; cbn [bind] in E; [|discriminate]. injection E as E. exists (sorted Json_Model.text_ltb Db_Model.g_name (s_groups s)).
  pose proof (sorted_perm Json_Model.text_ltb Db_Model.g_name (s_groups s)) as P. split; [exact P|]. split.
  - apply strict_names; [|apply sorted_sorted; [apply ltb_asym | apply ltb_le_trans]].
    eapply Permutation_NoDup; [apply Permutation_sym, Permutation_map, P | exact N].
  - rewrite <- E. assert (H : forall l, incl l (s_groups s) -> Forall2 (group_entry s) l (map (fun g => Db_Model.g_name g ++ group_note d g) l)).
    { induction l as [|g l IH]; intro I; cbn [map]; constructor; [apply group_text; [exact D | apply I; left; reflexivity]|]. apply IH. intros x Ix. apply I. right. exact Ix. }
    apply H. intros x Ix. exact (Permutation_in _ P Ix).
Qed.
Lemma weights_none s i : get_info s = Ok i -> s_groups s = [] -> i_weights i = [txt "None"].
Proof. intros E G. apply info_weights in E. unfold weights_list in E. rewrite G in E. injection E as <-. reflexivity. Qed.
Lemma default_iff s : s_groups s <> [] -> ((exists l, weights_list s = Ok l) <-> default_known s).
Proof.
  intro Ne. unfold weights_list, default_known, default_group_id, is_default. destruct (s_groups s) as [|g0 l0] eqn:G; [congruence|]. rewrite <- G. clear G Ne g0 l0.
  destruct (s_default s) as [[i|]|]; cbn [bind].
  - destruct (existsb (fun g => (Db_Model.g_id g =? i)%Z) (s_groups s)) eqn:X; cbn [bind].
    + split; [intros _|eauto]. right. apply existsb_exists in X. destruct X as (g & I & H). apply Z.eqb_eq in H. exists g. subst. auto.
    + split; [intros (l & H); discriminate|]. intros [H|(g & I & H)]; [discriminate|]. injection H as ->. exfalso.
      assert (Y : existsb (fun x => (Db_Model.g_id x =? Db_Model.g_id g)%Z) (s_groups s) = true) by (apply existsb_exists; exists g; split; [exact I | apply Z.eqb_refl]). congruence.
  - split; [intros (l & H); discriminate|]. intros [H|(g & I & H)]; discriminate.
  - split; [auto | eauto].
Qed.
Lemma weights_error s e : weights_list s = Err e -> (e = TypeError /\ s_default s = Some None) \/
  (e = KeyError /\ exists i, s_default s = Some (Some i) /\ forall g, In g (s_groups s) -> Db_Model.g_id g <> i).
Proof.
  unfold weights_list, default_group_id. destruct (s_groups s) as [|g0 l0] eqn:G; [discriminate|]. rewrite <- G. clear G g0 l0.
  destruct (s_default s) as [[i|]|]; cbn [bind]; [|intro H; injection H as <-; auto|discriminate].
  destruct (existsb _ _) eqn:X; cbn [bind]; [discriminate|]. intro H. injection H as <-. right. split; [reflexivity|]. exists i. split; [reflexivity|]. intros g I E.
  assert (Y : existsb (fun x => (Db_Model.g_id x =? i)%Z) (s_groups s) = true) by (apply existsb_exists; exists g; split; [exact I | apply Z.eqb_eq; exact E]). congruence.
Qed.

(** *** Links *)
Lemma space_ref_name k : space_name k (space_ref k).
Proof. unfold space_ref. destruct (k_hint k) as [[|c h]|] eqn:E; [apply sn_id; auto | apply sn_file; [exact E | discriminate] | apply sn_id; auto]. Qed.
Lemma link_text k : link_entry k (k_name k ++ link_note k).
Proof.
  unfold link_note. destruct (k_default k) eqn:D, (k_complete k) eqn:C.
  - apply le_default; assumption.
  - apply le_default_incomplete; assumption.
  - rewrite app_nil_r. apply le_plain; assumption.
  - apply le_incomplete; assumption.
Qed.
Definition block (g : link * list link) : list link := fst g :: snd g.
Lemma link_line_spec g : link_line_of (block g) (link_line g).
Proof.
  exists (fst g), (snd g), (space_ref (fst g)), (map (fun x => k_name x ++ link_note x) (block g)), (sorted Json_Model.text_ltb (fun x => x) (map (fun x => k_name x ++ link_note x) (block g))).
  split; [reflexivity|]. split; [apply space_ref_name|]. split.
  { induction (block g) as [|k l IH]; cbn [map]; constructor; [apply link_text | exact IH]. }
  split; [apply Permutation_sym, sorted_perm|]. split; [|reflexivity].
  eapply sorted_impl; [|apply (sorted_sorted Json_Model.text_ltb (fun x => x)); [apply ltb_asym | apply ltb_le_trans]].
  intros a b _ _ H. apply not_lt. exact H.
Qed.
Lemma group_concat l : concat (map block (group_links l)) = l.
Proof.
  induction l as [|k l IH]; [reflexivity|]. cbn [group_links]. destruct (group_links l) as [|[k' rest] gs] eqn:G.
  - cbn in IH. subst l. reflexivity.
  - destruct (text_eqb (k_other k) (k_other k')); cbn [map concat block fst snd app] in *; rewrite <- IH; reflexivity.
Qed.
Definition link_le (a b : link) : Prop := link_key_ltb (k_other b, k_id b) (k_other a, k_id a) = false.
Definition link_lt (a b : link) : Prop := Json_Spec.text_lt (k_other a) (k_other b) \/ (k_other a = k_other b /\ (k_id a < k_id b)%Z).
Lemma key_asym a b : link_key_ltb a b = true -> link_key_ltb b a = false.
Proof.
  unfold link_key_ltb. intro H. apply orb_prop in H. destruct H as [H|H].
  - rewrite (ltb_asym _ _ H). cbn [orb]. destruct (text_eqb (fst b) (fst a)) eqn:E; [|reflexivity]. apply FileOpen_Proofs.teqb_iff in E. rewrite E, Json_Proofs2.ltb_irrefl in H. discriminate.
  - apply andb_prop in H. destruct H as [E L]. apply FileOpen_Proofs.teqb_iff in E. rewrite E, Json_Proofs2.ltb_irrefl. cbn [orb]. apply Z.ltb_lt in L.
    destruct (Z.ltb_spec (snd b) (snd a)); [lia|]. apply andb_false_r.
Qed.
Lemma key_false a b : link_key_ltb b a = false <-> Json_Model.text_ltb (fst b) (fst a) = false /\ (fst a = fst b -> (snd a <= snd b)%Z).
Proof.
  unfold link_key_ltb. rewrite orb_false_iff, andb_false_iff. split; intros [H1 H2]; split; auto.
  - intro E. destruct H2 as [H2|H2]; [|apply Z.ltb_ge in H2; exact H2]. rewrite E, FileOpen_Proofs.teqb_refl in H2. discriminate.
  - destruct (text_eqb (fst b) (fst a)) eqn:E; [|auto]. right. apply FileOpen_Proofs.teqb_iff in E. apply Z.ltb_ge. auto.
Qed.
Lemma key_trans a b c : link_key_ltb b a = false -> link_key_ltb c b = false -> link_key_ltb c a = false.
Proof.
  rewrite !key_false. intros [A1 A2] [B1 B2]. split; [eapply ltb_le_trans; eassumption|]. intro E.
  assert (X : fst a = fst b).
  { destruct (list_eq_dec N.eq_dec (fst b) (fst a)) as [D|D]; [congruence|]. exfalso. apply Json_Proofs2.ltb_total in A1; [|exact D]. rewrite E in A1. congruence. }
  specialize (A2 X). rewrite X in E. specialize (B2 E). lia.
Qed.
Lemma link_strict l : NoDup (map k_id l) -> StronglySorted link_le l -> StronglySorted link_lt l.
Proof.
  intros N H. induction H as [|k l Hs IH F]; [constructor|]. cbn [map] in N. inversion N as [|? ? Ni N']; subst. constructor; [auto|].
  rewrite Forall_forall in *. intros k' I. specialize (F k' I). unfold link_le in F. apply (proj1 (key_false _ _)) in F. cbn [fst snd] in F. destruct F as [F1 F2]. unfold link_lt.
  destruct (list_eq_dec N.eq_dec (k_other k') (k_other k)) as [E|D].
  - right. split; [congruence|]. assert (D : k_id k <> k_id k') by (intro X; apply Ni; rewrite X; apply in_map; exact I). specialize (F2 (eq_sym E)). lia.
  - left. apply Json_Proofs3.ltb_lt, Json_Proofs2.ltb_total; auto.
Qed.
Lemma group_spec l : StronglySorted link_lt l ->
  Forall (fun g => one_space (k_other (fst g)) (block g)) (group_links l) /\
  StronglySorted (fun a b => Json_Spec.text_lt (k_other (fst a)) (k_other (fst b))) (group_links l).
Proof.
  intro H. induction H as [|k l Hs IH F]; [split; constructor|]. destruct IH as [IH1 IH2].
  pose proof (group_concat l) as C. cbn [group_links]. destruct (group_links l) as [|[k' rest] gs] eqn:G.
  - split; [|repeat constructor]. constructor; [|constructor]. split; [discriminate|]. split; [intros x [<-|[]]; reflexivity | repeat constructor].
  - assert (I' : In k' l) by (rewrite <- C; left; reflexivity). rewrite Forall_forall in F. inversion IH1 as [|? ? [_ [O S1]] IH1']; subst. cbn [fst] in *. inversion IH2 as [|? ? IH2' F2]; subst.
    destruct (text_eqb (k_other k) (k_other k')) eqn:E.
    + apply FileOpen_Proofs.teqb_iff in E. split.
      * constructor; [|exact IH1']. split; [discriminate|]. unfold block in *. cbn [fst snd] in *. split; [intros x [<-|Ix]; [reflexivity | rewrite (O x Ix); congruence]|].
        constructor; [exact S1|]. apply Forall_forall. intros x Ix. assert (Ixl : In x (concat (map block ((k', rest) :: gs)))) by (cbn [map concat]; apply in_app_iff; left; exact Ix).
        destruct (F x Ixl) as [L|[_ L]]; [|exact L]. exfalso. rewrite (O x Ix), <- E in L. apply lt_ltb in L. rewrite Json_Proofs2.ltb_irrefl in L. discriminate.
      * constructor; [exact IH2'|]. rewrite Forall_forall in *. intros x Ix. cbn [fst]. rewrite E. exact (F2 x Ix).
    + split; [constructor; [|exact IH1]|].
      * split; [discriminate|]. split; [intros x [<-|[]]; reflexivity | repeat constructor].
      * assert (L : Json_Spec.text_lt (k_other k) (k_other k')).
        { destruct (F k') as [L|[L _]]; [exact I' | exact L | rewrite L, FileOpen_Proofs.teqb_refl in E; discriminate]. }
        constructor; [exact IH2|]. constructor; [exact L|]. rewrite Forall_forall in *. intros x Ix. cbn [fst].
        apply Json_Proofs3.ltb_lt. eapply Json_Proofs2.ltb_trans; apply lt_ltb; [exact L | exact (F2 x Ix)].
Qed.
Lemma info_links s i : get_info s = Ok i -> i_links i = links_list s.
Proof.
  unfold get_info. destruct (partition_list s); cbn [bind]; [|discriminate]. destruct (weights_list s); cbn [bind]; [|discriminate].
  destruct (s_created s); [|discriminate]. intro H. injection H as <-. reflexivity.
Qed.
Lemma links_spec s i : get_info s = Ok i -> NoDup (map k_id (s_links s)) -> s_links s <> [] ->
  exists blocks, Permutation (concat (map snd blocks)) (s_links s) /\
    StronglySorted (fun a b => Json_Spec.text_lt (fst a) (fst b)) blocks /\
    Forall (fun b => one_space (fst b) (snd b)) blocks /\
    Forall2 (fun b line => link_line_of (snd b) line) blocks (i_links i).
Proof.
  intros E N Ne. rewrite (info_links _ _ E). unfold links_list. destruct (s_links s) as [|k0 l0] eqn:G; [congruence|]. rewrite <- G in *. clear G k0 l0 Ne.
  set (l := sorted link_key_ltb (fun k => (k_other k, k_id k)) (s_links s)).
  assert (P : Permutation l (s_links s)) by (apply sorted_perm).
  assert (L : StronglySorted link_lt l).
  { apply link_strict; [eapply Permutation_NoDup; [apply Permutation_sym, Permutation_map, P | exact N]|].
    apply (sorted_sorted link_key_ltb (fun k => (k_other k, k_id k))); [apply key_asym | apply key_trans]. }
  destruct (group_spec l L) as [F1 F2]. exists (map (fun g => (k_other (fst g), block g)) (group_links l)).
  split; [|split; [|split]].
  - rewrite map_map. cbn [snd]. change (Permutation (concat (map (fun x => block x) (group_links l))) (s_links s)). rewrite group_concat. exact P.
  - apply sorted_map. exact F2.
  - apply Forall_forall. intros b Ib. apply in_map_iff in Ib. destruct Ib as (g & <- & Ig). rewrite Forall_forall in F1. exact (F1 g Ig).
  - clear F1 F2. induction (group_links l) as [|g gs IH]; cbn [map]; constructor; [apply link_line_spec | exact IH].
Qed.
