(** Proofs about the administration commands: weight groups. *)
From Coq Require Import NArith String Permutation.
From Verif Require Import Prelude Selectors_Model LinkRef_Model Db_Model Db_ProofsLocal Json_Model Json_Spec Json_Proofs3 FileOpen_Model FileOpen_Proofs Csv_Model
  AdminCli_Model AdminCli_Spec.

(** ** Finding and replacing one group *)

Lemma by_name_some n s g : w_by_name n s = Some g -> In g (w_groups s) /\ w_name g = n.
Proof. unfold w_by_name. intro H. apply find_some in H as [H1 H2]. split; [exact H1|]. now apply (proj1 (teqb_iff _ _)). Qed.
Lemma by_name_none n s : w_by_name n s = None <-> ~ In n (map w_name (w_groups s)).
Proof.
  unfold w_by_name. split.
  - intros H Hi. apply in_map_iff in Hi as (g & <- & Hg). apply (find_none _ _ H) in Hg. rewrite teqb_refl in Hg. discriminate.
  - intro H. destruct (find _ _) as [g|] eqn:E; [|reflexivity]. apply find_some in E as [E1 E2]. apply (proj1 (teqb_iff _ _)) in E2.
    exfalso. apply H. rewrite <- E2. now apply in_map.
Qed.
Lemma by_name_unique n s g : NoDup (map w_name (w_groups s)) -> In g (w_groups s) -> w_name g = n -> w_by_name n s = Some g.
Proof.
  unfold w_by_name. induction (w_groups s) as [|x l IH]; intros N H E; [destruct H|]. cbn [find map] in *. apply NoDup_cons_iff in N as [N1 N2].
  destruct H as [->|H]; [rewrite E, teqb_refl; reflexivity|]. destruct (text_eqb (w_name x) n) eqn:Ex; [|auto].
  exfalso. apply N1. apply (proj1 (teqb_iff _ _)) in Ex. rewrite Ex, <- E. now apply in_map.
Qed.

(** [g] is replaced by [g'], which has its id and name. *)
Definition replaced (g g' : wgroup) (l : list wgroup) : list wgroup := map (fun x => if (w_id x =? w_id g)%Z then g' else x) l.
Lemma replaced_ids g g' l : w_id g' = w_id g -> map w_id (replaced g g' l) = map w_id l.
Proof.
  intro E. unfold replaced. rewrite map_map. apply map_ext. intro x. destruct (Z.eqb_spec (w_id x) (w_id g)); congruence.
Qed.
Lemma id_unique (l : list wgroup) x y : NoDup (map w_id l) -> In x l -> In y l -> w_id x = w_id y -> x = y.
Proof.
  induction l as [|z l IH]; intros N Hx Hy E; [destruct Hx|]. cbn [map] in N. apply NoDup_cons_iff in N as [N1 N2].
  destruct Hx as [->|Hx], Hy as [->|Hy]; auto.
  - exfalso. apply N1. rewrite E. now apply in_map.
  - exfalso. apply N1. rewrite <- E. now apply in_map.
Qed.
Lemma replaced_names g g' l : NoDup (map w_id l) -> In g l -> w_id g' = w_id g -> w_name g' = w_name g -> map w_name (replaced g g' l) = map w_name l.
Proof.
  intros N Hg Ei En. unfold replaced. rewrite map_map. apply map_ext_in. intros x Hx. destruct (Z.eqb_spec (w_id x) (w_id g)) as [E|E]; [|reflexivity].
  rewrite (id_unique l x g N Hx Hg E). exact En.
Qed.
Lemma replaced_in g g' l : In g l -> In g' (replaced g g' l).
Proof. intro H. unfold replaced. apply in_map_iff. exists g. rewrite Z.eqb_refl. auto. Qed.
Lemma replaced_twice g g' g'' l : w_id g' = w_id g -> replaced g' g'' (replaced g g' l) = replaced g g'' l.
Proof.
  intro E. unfold replaced. rewrite map_map. apply map_ext. intro x. destruct (Z.eqb_spec (w_id x) (w_id g)) as [X|X].
  - rewrite Z.eqb_refl. reflexivity.
  - destruct (Z.eqb_spec (w_id x) (w_id g')); [congruence|reflexivity].
Qed.
Lemma replaced_self g l : NoDup (map w_id l) -> In g l -> replaced g g l = l.
Proof.
  intros N Hg. unfold replaced. rewrite <- (map_id l) at 2. apply map_ext_in. intros x Hx. destruct (Z.eqb_spec (w_id x) (w_id g)) as [E|E]; [|reflexivity].
  symmetry. exact (id_unique l x g N Hx Hg E).
Qed.

(** ** Selectors *)

Lemma occurs_in x l : In x l <-> (0 < occurs x l)%nat.
Proof.
  induction l as [|y l IH]; cbn [In occurs]; [lia|]. destruct (list_eq_dec N.eq_dec y x) as [->|E].
  - split; [lia|auto].
  - rewrite IH. split; [intros [H|H]; [contradiction|lia]|right; lia].
Qed.
Lemma occurs_remove x y l : occurs x (list_remove y l) = (occurs x l - if list_eq_dec N.eq_dec y x then 1 else 0)%nat.
Proof.
  induction l as [|z l IH]; cbn [list_remove occurs]; [reflexivity|]. destruct (text_eqb z y) eqn:E.
  - apply (proj1 (teqb_iff _ _)) in E. subst z. destruct (list_eq_dec N.eq_dec y x); lia.
  - cbn [occurs]. rewrite IH. destruct (list_eq_dec N.eq_dec z x) as [->|]; [|lia].
    destruct (list_eq_dec N.eq_dec y x) as [->|]; [rewrite teqb_refl in E; discriminate|lia].
Qed.
Lemma existsb_teqb x l : existsb (text_eqb x) l = true <-> In x l.
Proof.
  rewrite existsb_exists. split.
  - intros (y & Hy & E). apply (proj1 (teqb_iff _ _)) in E. now subst.
  - intro H. exists x. split; [exact H|apply teqb_refl].
Qed.
Lemma occurs_fold x : forall removed l,
  occurs x (fold_left (fun l x => if existsb (text_eqb x) l then list_remove x l else l) removed l) = (occurs x l - occurs x removed)%nat.
Proof.
  induction removed as [|y removed IH]; intros l; cbn [fold_left occurs]; [lia|]. rewrite IH.
  destruct (existsb (text_eqb y) l) eqn:E.
  - rewrite occurs_remove. lia.
  - assert (H : ~ In y l) by (intro H; apply existsb_teqb in H; congruence). destruct (list_eq_dec N.eq_dec y x) as [->|]; [|lia].
    rewrite occurs_in in H. lia.
Qed.

Definition lf (c : N) : N := if (c =? 10)%N then 32%N else c.
Lemma replace_crlf_none : forall n t, (List.length t <= n)%nat -> ~ In 10%N t -> replace_crlf t = t.
Proof.
  induction n as [|n IH]; intros t Hn H; (destruct t as [|c [|d r]]; [reflexivity|reflexivity|]); cbn [List.length] in Hn; [lia|].
  change (replace_crlf (c :: d :: r)) with (if (c =? 13)%N && (d =? 10)%N then 32%N :: replace_crlf r else c :: replace_crlf (d :: r)).
  destruct (N.eqb_spec d 10) as [->|E]; [exfalso; apply H; right; left; reflexivity|]. rewrite andb_false_r. f_equal. apply IH; [cbn [List.length]; lia|].
  intro X. apply H. right. exact X.
Qed.
Lemma unbroken_map t : unbroken t = map lf t.
Proof.
  unfold unbroken. change (replace_lf t) with (map lf t). apply (replace_crlf_none (List.length (map lf t))); [lia|].
  intro H. apply in_map_iff in H as (c & E & _). unfold lf in E. destruct (N.eqb_spec c 10); congruence.
Qed.
Lemma unbroken_one_line t : one_line t -> unbroken t = t.
Proof.
  rewrite unbroken_map. unfold one_line. induction t as [|c t IH]; cbn [map In]; intro H; [reflexivity|]. rewrite IH by auto. unfold lf.
  destruct (N.eqb_spec c 10) as [->|]; [exfalso; auto|reflexivity].
Qed.

Lemma new_selectors_left old added removed : exists new, selectors_left (listed old) added removed new /\
  new_selectors old added removed = map unbroken new.
Proof.
  unfold new_selectors. fold (listed old). eexists. split; [|reflexivity].
  match goal with |- selectors_left _ _ _ (sort_texts ?l) => destruct (sort_texts_spec l (NoDup_nodup _ _)) as [H1 H2] end.
  split; [exact H1|]. intro x. rewrite H2, nodup_In, occurs_in, occurs_fold. lia.
Qed.

(** ** The update *)

Definition after_desc (a : update_args) (g : wgroup) : wgroup :=
  match u_desc a with
  | None | Some [] => g
  | Some d => {| w_id := w_id g; w_name := w_name g; w_desc := Some d; w_sel := match w_sel g with Some [] => None | x => x end; w_complete := w_complete g |}
  end.
Definition after_sel (a : update_args) (g g1 : wgroup) : wgroup :=
  match u_add a, u_remove a with
  | [], [] => g1
  | _, _ => {| w_id := w_id g1; w_name := w_name g1; w_desc := w_desc g1;
               w_sel := match new_selectors (w_sel g) (u_add a) (u_remove a) with [] => None | l => Some l end; w_complete := w_complete g1 |}
  end.
Definition after_update (a : update_args) (g : wgroup) : wgroup := after_sel a g (after_desc a g).

Lemma after_desc_same a g : w_id (after_desc a g) = w_id g /\ w_name (after_desc a g) = w_name g.
Proof. unfold after_desc. destruct (u_desc a) as [[|]|]; auto. Qed.
Lemma after_update_same a g : w_id (after_update a g) = w_id g /\ w_name (after_update a g) = w_name g.
Proof.
  unfold after_update, after_sel. destruct (after_desc_same a g). destruct (u_add a), (u_remove a); auto.
Qed.

Lemma update_weight_eq a s g : weights_ok s -> w_by_name (u_weight a) s = Some g ->
  update_weight a s = ({| w_groups := replaced g (after_update a g) (w_groups s);
                          w_default := if u_default a then Some (w_id g) else w_default s |}, Exit 0).
Proof.
  intros [N1 N2 _ _] E. destruct (by_name_some _ _ _ E) as [Hg Hn]. unfold update_weight. rewrite E. cbv zeta.
  set (s1 := match u_desc a with None | Some [] => s | Some d => edit_description (u_weight a) d s end).
  assert (E1 : s1 = {| w_groups := replaced g (after_desc a g) (w_groups s); w_default := w_default s |}).
  { unfold s1, after_desc. destruct (u_desc a) as [[|c d]|].
    - rewrite replaced_self by assumption. destruct s; reflexivity.
    - unfold edit_description. rewrite E. reflexivity.
    - rewrite replaced_self by assumption. destruct s; reflexivity. }
  clearbody s1.
  destruct (after_desc_same a g) as [Ai An].
  assert (B1 : w_by_name (u_weight a) s1 = Some (after_desc a g)).
  { apply by_name_unique; [| |congruence]; rewrite E1; cbn [w_groups]; [rewrite replaced_names by assumption; exact N2|now apply replaced_in]. }
  set (s2 := match u_add a with [] => match u_remove a with [] => s1 | _ => edit_selectors (u_weight a) (new_selectors (w_sel g) (u_add a) (u_remove a)) s1 end
             | _ => edit_selectors (u_weight a) (new_selectors (w_sel g) (u_add a) (u_remove a)) s1 end).
  assert (E2 : s2 = {| w_groups := replaced g (after_update a g) (w_groups s); w_default := w_default s |}).
  { assert (K : edit_selectors (u_weight a) (new_selectors (w_sel g) (u_add a) (u_remove a)) s1 =
       {| w_groups := replaced g {| w_id := w_id (after_desc a g); w_name := w_name (after_desc a g); w_desc := w_desc (after_desc a g);
               w_sel := match new_selectors (w_sel g) (u_add a) (u_remove a) with [] => None | l => Some l end; w_complete := w_complete (after_desc a g) |} (w_groups s);
          w_default := w_default s |}).
    { unfold edit_selectors. rewrite B1, E1. unfold w_update. cbn [w_groups w_default w_id w_name w_desc w_sel w_complete].
      destruct (new_selectors (w_sel g) (u_add a) (u_remove a)) as [|l0 ls]; f_equal; exact (replaced_twice _ _ _ _ Ai). }
    unfold s2, after_update, after_sel. destruct (u_add a) as [|x l]; [destruct (u_remove a) as [|y r]|]; [exact E1|exact K|exact K]. }
  clearbody s2.
  destruct (after_update_same a g) as [Ui Un].
  assert (B2 : w_by_name (u_weight a) s2 = Some (after_update a g)).
  { apply by_name_unique; [| |congruence]; rewrite E2; cbn [w_groups]; [rewrite replaced_names by assumption; exact N2|now apply replaced_in]. }
  destruct (u_default a); [rewrite B2|]; rewrite E2; cbn [w_groups w_default]; [rewrite Ui|]; reflexivity.
Qed.

Lemma after_update_updated a g : updated a g (after_update a g).
Proof.
  destruct (after_update_same a g) as [Ui Un]. split; [exact Ui|exact Un| | |].
  - unfold after_update, after_sel, after_desc. destruct (u_add a), (u_remove a), (u_desc a) as [[|]|]; reflexivity.
  - unfold after_update, after_sel, after_desc. destruct (u_add a), (u_remove a), (u_desc a) as [[|]|]; reflexivity.
  - split.
    + intros Ea Er. unfold after_update, after_sel, after_desc. rewrite Ea, Er.
      destruct (u_desc a) as [[|c d]|]; [left; reflexivity| |left; reflexivity]. cbn [w_sel]. destruct (w_sel g) as [[|]|]; auto.
    + intro H.
      assert (E : w_sel (after_update a g) = match new_selectors (w_sel g) (u_add a) (u_remove a) with [] => None | l => Some l end).
      { unfold after_update, after_sel. destruct (u_add a); [destruct (u_remove a)|]; [destruct H as [[]|[]]; reflexivity|reflexivity|reflexivity]. }
      destruct (new_selectors_left (w_sel g) (u_add a) (u_remove a)) as (new & L & En). rewrite E, En. split.
      { destruct (map unbroken new); discriminate. }
      exists new. split; [exact L|].
      assert (El : listed (match map unbroken new with [] => None | l => Some l end) = map unbroken new) by (destruct (map unbroken new); reflexivity).
      rewrite El. clear. induction new as [|x new IH]; cbn [map]; constructor; [|exact IH]. rewrite unbroken_map. split; [now rewrite map_length|].
      intros i c Hc. rewrite nth_error_map, Hc. reflexivity.
Qed.

(** ** Histories *)

Lemma NoDup_snoc {A} (x : A) l : NoDup l -> ~ In x l -> NoDup (l ++ [x]).
Proof.
  intros N H. apply (NoDup_Add (a := x) (l := l)); [|split; assumption]. pose proof (Add_app x l []) as K. rewrite app_nil_r in K. exact K.
Qed.

Lemma add_weight_ok n desc sel d s : weights_ok s -> weights_ok (fst (add_weight n desc sel d s)).
Proof.
  intros [N1 N2 D1 D2]. unfold add_weight. destruct (w_by_name n s) as [g|] eqn:E; [split; assumption|]. apply by_name_none in E.
  cbn [fst]. split; cbn [w_groups w_default].
  - rewrite map_app. cbn [map w_id]. apply NoDup_snoc; [exact N1|apply zmax_fresh].
  - rewrite map_app. cbn [map w_name]. apply NoDup_snoc; assumption.
  - intros i Hi. rewrite map_app, in_app_iff. cbn [map In w_id]. destruct (d || _); [right; left; congruence|left; auto].
  - intros _. destruct (w_groups s) eqn:Eg; [rewrite orb_true_r; discriminate|]. destruct d; cbn [orb]; [discriminate|]. apply D2. discriminate.
Qed.
Lemma update_weight_ok a s : weights_ok s -> weights_ok (fst (update_weight a s)).
Proof.
  intro W. destruct (w_by_name (u_weight a) s) as [g|] eqn:E.
  - rewrite (update_weight_eq a s g W E). destruct W as [N1 N2 D1 D2]. destruct (by_name_some _ _ _ E) as [Hg Hn]. destruct (after_update_same a g) as [Ui Un].
    cbn [fst]. split; cbn [w_groups w_default].
    + now rewrite replaced_ids.
    + now rewrite replaced_names.
    + intros i Hi. rewrite replaced_ids by exact Ui. destruct (u_default a); [injection Hi as <-; now apply in_map|auto].
    + intro H. destruct (u_default a); [discriminate|]. apply D2. intro Z. apply H. rewrite Z. reflexivity.
  - unfold update_weight. rewrite E. exact W.
Qed.
Lemma wrun_ok ops : weights_ok (wrun ops).
Proof.
  unfold wrun. assert (K : forall ops s, weights_ok s -> weights_ok (fold_left (fun s o => fst (wcommand o s)) ops s)).
  { clear ops. induction ops as [|o ops IH]; intros s W; [exact W|]. cbn [fold_left]. apply IH.
    destruct o; cbn [wcommand]; [now apply add_weight_ok|now apply update_weight_ok]. }
  apply K. split; cbn [wspace_new w_groups w_default map]; [constructor|constructor|discriminate|contradiction].
Qed.

Lemma update_weight_spec a s : weights_ok s ->
  (~ In (u_weight a) (map w_name (w_groups s)) -> update_weight a s = (s, Exit 1)) /\
  (forall g, In g (w_groups s) -> w_name g = u_weight a ->
     let out := update_weight a s in
     snd out = Exit 0 /\
     Forall2 (fun x y => if (w_id x =? w_id g)%Z then x = g /\ updated a g y else y = x) (w_groups s) (w_groups (fst out)) /\
     w_default (fst out) = if u_default a then Some (w_id g) else w_default s).
Proof.
  intro W. split.
  - intro H. apply by_name_none in H. unfold update_weight. rewrite H. reflexivity.
  - intros g Hg Hn out. assert (E : w_by_name (u_weight a) s = Some g) by (destruct W; now apply by_name_unique).
    unfold out. rewrite (update_weight_eq a s g W E). cbn [fst snd w_groups w_default]. split; [reflexivity|]. split; [|reflexivity].
    assert (Ix : forall x, In x (w_groups s) -> w_id x = w_id g -> x = g) by (intros x Hx; destruct W; now apply (id_unique (w_groups s))).
    revert Ix. unfold replaced. generalize (w_groups s) as l. induction l as [|x l IH]; intro Ix; cbn [map]; constructor.
    + destruct (Z.eqb_spec (w_id x) (w_id g)) as [Ei|Ei]; [|reflexivity]. split; [apply Ix; [left; reflexivity|exact Ei]|apply after_update_updated].
    + apply IH. intros y Hy. apply Ix. right. exact Hy.
Qed.
