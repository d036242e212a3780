(** Proofs about the administration commands: links and new files. *)
From Coq Require Import NArith String.
From Verif Require Import Prelude Selectors_Model LinkRef_Model LinkRef_Spec LinkRef_Proofs Db_Model Db_Spec Db_ProofsLocal Db_ProofsInv Db_ProofsInv3
  Db_ProofsRun Db_ProofsOps Db_ProofsOps2 Db_ProofsOps6 FileOpen_Model FileOpen_Proofs FileOpen_Proofs3 Csv_Model Csv_Proofs2 AdminCli_Model AdminCli_Spec.

(** ** Links *)

Definition new_link (tail : file) (a : link_args) : link :=
  {| k_id := 0; k_other := f_uid tail; k_hint := f_hint tail; k_name := a_link a;
     k_selectors := a_selectors a; k_default := false; k_hash := None; k_complete := false |}.

Lemma get_link_error ref name ad links e : get_link ref name ad links = Err e -> e = ToronError.
Proof.
  unfold get_link. destruct (get_links_by_ref ref links) as [m|x] eqn:E; cbn [bind].
  - destruct (truthy name).
    + destruct name as [n|]; [destruct (find _ m); [discriminate|]|]; congruence.
    + destruct m as [|k [|k2 m]]; cbn [bind].
      * destruct (negb ad); [congruence|]. cbn. congruence.
      * discriminate.
      * destruct (negb ad); [congruence|]. destruct (find k_default _); congruence.
  - intro H. injection H as <-. exact (get_links_err _ _ _ E).
Qed.

Lemma do_add_spec tail head a ops : f_db head = Db_Model.run ops fresh ->
  (name_is_free tail a (f_db head) /\ exists s', do_add tail head a = (s', None) /\ link_added tail a (f_db head) s') \/
  (~ name_is_free tail a (f_db head) /\ do_add tail head a = (f_db head, Some ToronError)).
Proof.
  intro E0. destruct (run_state ops) as [I R]. rewrite <- E0 in I, R. unfold do_add. fold (new_link tail a).
  set (s := f_db head) in *. clearbody s. clear E0.
  set (dflt := if a_default a then Some true else None).
  pose proof (step_add_link (new_link tail a) dflt s I R) as (A1 & A2 & A3). cbn [step] in A1, A2, A3.
  destruct (add_link_effect (new_link tail a) dflt s (i_links _ I)) as [((k & Hk & Eo & En) & E)|(Hn & i & s' & E & Hi & Es)].
  - right. split; [intro H; exact (H k Hk Eo En)|]. unfold transact. rewrite E. reflexivity.
  - left. split; [exact Hn|]. exists s'.
    assert (T : transact (add_link (new_link tail a) dflt) s = (s', None)).
    { pose proof (proj2 A1 Hn) as T. unfold transact in T |- *. rewrite E in *. destruct (d_fk s' && negb (fk_ok s')); [discriminate T|reflexivity]. }
    split; [exact T|]. rewrite T in A3. cbn [fst snd] in A3. destruct (A3 eq_refl) as (k' & Hk' & Hid & K1 & K2 & K3 & K4 & K5).
    set (d := match dflt with Some b => b | None => nil_b (find_by_other_unique_id (k_other (new_link tail a)) (d_links s)) end) in *.
    assert (Ek : k' = with_id i (with_default d (new_link tail a))).
    { rewrite Es in Hk'. cbn [set_links d_links] in Hk'. apply in_app_iff in Hk' as [Hk'|[<-|[]]]; [|reflexivity].
      exfalso. apply Hid. apply in_map_iff in Hk' as (x & Ex & Hx). apply in_map_iff. exists x. split; [|exact Hx].
      subst k'. destruct (d && _); reflexivity. }
    exists k'. split; [exact Hid|]. split; [exact K1|]. split; [rewrite Ek; reflexivity|]. split; [exact K2|].
    split; [rewrite Ek; reflexivity|]. split; [rewrite Ek; reflexivity|]. split; [rewrite Ek; reflexivity|].
    split; [|split; [exact K4|exact K5]]. rewrite K3. unfold dflt. cbn [new_link k_other]. destruct (a_default a).
    + split; [left; reflexivity|left; reflexivity].
    + split; [intros [H|[_ H]]; [discriminate|right; exact H]|intros [H|H]; [discriminate|right; auto]].
Qed.

Lemma do_remove_spec tail head name ops : f_db head = Db_Model.run ops fresh ->
  (exists s', do_remove tail head name = (s', None) /\ link_dropped tail name (f_db head) s') \/
  (link_missing tail name (f_db head) /\ do_remove tail head name = (f_db head, Some ToronError)).
Proof.
  intro E0. destruct (run_state ops) as [I R]. rewrite <- E0 in I, R. unfold do_remove.
  set (s := f_db head) in *. clearbody s. clear E0.
  destruct (get_link (f_uid tail) (Some name) true (d_links s)) as [k|e] eqn:E.
  - left. assert (M : meant (d_links s) (f_uid tail) (Some name) true k) by (apply get_link_iff; [exact (i_links _ I)|exact E]).
    pose proof (step_drop_link (f_uid tail) name k s I R M) as D. cbv zeta in D. cbn [step] in D.
    destruct (transact (drop_link (f_uid tail) name) s) as [s' e]. cbn [fst snd] in D. destruct D as (-> & D1 & D2 & D3).
    exists s'. split; [reflexivity|]. exists k. auto.
  - right. split.
    + intros k M. apply get_link_iff in M; [|exact (i_links _ I)]. congruence.
    + unfold transact, drop_link. rewrite E. cbn [bind]. rewrite (get_link_error _ _ _ _ _ E). reflexivity.
Qed.

Lemma named_link_meant tail name s k c t : link_table (d_links s) -> In k (d_links s) -> k_other k = f_uid tail -> f_uid tail <> [] ->
  name = c :: t -> k_name k = name -> forall k2, meant (d_links s) (f_uid tail) (Some name) true k2 <-> k2 = k.
Proof.
  intros T Hk Eo Hu -> En k2. assert (M : meant (d_links s) (f_uid tail) (Some (c :: t)) true k).
  { split; [exact Hu|]. assert (B : forall x, mentions (d_links s) (f_uid tail) x -> k_other x = f_uid tail).
    { intros x (_ & [H|[H _]]); [exact H|]. destruct (H k Hk Eo). }
    split; [intros x y Hx Hy; rewrite (B x Hx), (B y Hy); reflexivity|]. split; [split; [exact Hk|left; exact Eo]|exact En]. }
  split; [|intros ->; exact M]. intro M2. apply (get_link_iff _ _ _ _ _ T) in M. apply (get_link_iff _ _ _ _ _ T) in M2. congruence.
Qed.

(** ** New files *)

Lemma basename_spec p : last_part p (basename p).
Proof.
  unfold basename. destruct (path_split p) as [d t] eqn:E. destruct (path_split_spec _ _ _ E) as (T & H). cbn [snd]. split; [exact T|].
  assert (K : forall n, repeat 47%N (S n) = repeat 47%N n ++ [47%N]) by (induction n as [|n IH]; [reflexivity|]; cbn [repeat] in *; rewrite IH at 1; reflexivity).
  destruct H as [(-> & ->)|[(n & Hn & -> & ->)|(n & _ & Hn & -> & _)]]; [left; reflexivity| |].
  - right. destruct n as [|n]; [lia|]. exists (repeat 47%N n). rewrite K, <- app_assoc. reflexivity.
  - right. destruct n as [|n]; [lia|]. exists (d ++ repeat 47%N n). rewrite K, <- !app_assoc. reflexivity.
Qed.

Lemma leading_dots_split t : exists r, t = repeat 46%N (leading_dots t) ++ r /\ (forall c x, r = c :: x -> c <> 46%N).
Proof.
  induction t as [|c t (r & E & H)]; cbn [leading_dots]; [exists []; split; [reflexivity|discriminate]|].
  destruct (N.eqb_spec c 46) as [->|Hc].
  - exists r. cbn [repeat app]. split; [now rewrite <- E|exact H].
  - exists (c :: t). split; [reflexivity|]. intros d x X. injection X as <- _. exact Hc.
Qed.
Lemma last_dot_some : forall t n, last_dot t = Some n -> exists b, t = firstn n t ++ 46%N :: b /\ ~ In 46%N b /\ List.length (firstn n t) = n.
Proof.
  induction t as [|c t IH]; intros n H; cbn [last_dot] in H; [discriminate|]. destruct (last_dot t) as [m|] eqn:E.
  - injection H as <-. destruct (IH m eq_refl) as (b & E1 & E2 & E3). exists b. cbn [firstn app List.length]. rewrite <- E1, E3. auto.
  - destruct (N.eqb_spec c 46) as [->|]; [|discriminate]. injection H as <-. exists t. cbn [firstn app List.length]. split; [reflexivity|]. split; [|reflexivity].
    clear IH. induction t as [|x t IH]; [intros []|]. cbn [last_dot] in E. destruct (last_dot t); [discriminate|]. destruct (N.eqb_spec x 46); [discriminate|].
    intros [H|H]; [congruence|exact (IH eq_refl H)].
Qed.
Lemma last_dot_none : forall t, last_dot t = None -> ~ In 46%N t.
Proof.
  induction t as [|x t IH]; intro E; [intros []|]. cbn [last_dot] in E. destruct (last_dot t); [discriminate|]. destruct (N.eqb_spec x 46); [discriminate|].
  intros [H|H]; [congruence|exact (IH eq_refl H)].
Qed.
Lemma last_dot_unique : forall a b c d : text, a ++ 46%N :: b = c ++ 46%N :: d -> ~ In 46%N b -> ~ In 46%N d -> a = c.
Proof.
  induction a as [|x a IH]; intros b [|y c] d E Hb Hd; cbn [app] in E.
  - reflexivity.
  - injection E as <- E. exfalso. apply Hb. rewrite E. apply in_or_app. right. left. reflexivity.
  - injection E as -> E. exfalso. apply Hd. rewrite <- E. apply in_or_app. right. left. reflexivity.
  - injection E as <- E. f_equal. exact (IH _ _ _ E Hb Hd).
Qed.

Lemma splitext_root_spec t : without_extension t (splitext_root t).
Proof.
  unfold splitext_root. destruct (leading_dots_split t) as (r & E & H). set (k := leading_dots t) in *. clearbody k.
  assert (Es : skipn k t = r). { rewrite E. rewrite skipn_app, repeat_length, Nat.sub_diag. rewrite <- (repeat_length 46%N k) at 1. rewrite skipn_all. reflexivity. }
  rewrite Es. destruct (last_dot r) as [n|] eqn:L.
  - destruct (last_dot_some _ _ L) as (b & E1 & E2 & E3).
    assert (Ef : firstn (k + n) t = repeat 46%N k ++ firstn n r).
    { rewrite E, firstn_app, repeat_length. replace (k + n - k)%nat with n by lia. rewrite firstn_all2 by (rewrite repeat_length; lia). reflexivity. }
    rewrite Ef. left. exists b. split; [|split; [exact E2|]].
    + rewrite <- app_assoc, <- E1. exact E.
    + destruct r as [|c x]; [discriminate L|]. pose proof (H c x eq_refl) as Hc. destruct n as [|n].
      * cbn [firstn app] in E1. injection E1 as E1 _. contradiction.
      * exists c. split; [|exact Hc]. apply in_or_app. right. cbn [firstn]. left. reflexivity.
  - right. split; [reflexivity|]. apply last_dot_none in L. intros root ext (X1 & X2 & c & X3 & X4).
    assert (Y : repeat 46%N k ++ r = root ++ 46%N :: ext) by congruence. clear - Y L X3 X4 X2.
    revert root Y X3. induction k as [|k IH]; intros root Y X3; cbn [repeat app] in Y.
    + apply L. rewrite Y. apply in_or_app. right. left. reflexivity.
    + destruct root as [|y root]; [destruct X3|]. cbn [app] in Y. injection Y as <- Y. destruct X3 as [X3|X3]; [congruence|]. exact (IH root Y X3).
Qed.
(** The extension and the root are determined. *)
Lemma without_extension_unique b r1 r2 : without_extension b r1 -> without_extension b r2 -> r1 = r2.
Proof.
  intros [(e1 & H1)|(-> & H1)] [(e2 & H2)|(-> & H2)].
  - destruct H1 as (E1 & N1 & _), H2 as (E2 & N2 & _). eapply last_dot_unique; [rewrite <- E1; exact E2|exact N1|exact N2].
  - destruct (H2 _ _ H1).
  - destruct (H1 _ _ H2).
  - reflexivity.
Qed.
Lemma last_part_unique p b1 b2 : last_part p b1 -> last_part p b2 -> b1 = b2.
Proof.
  assert (U : forall (a b c d : text), a ++ 47%N :: b = c ++ 47%N :: d -> ~ In 47%N b -> ~ In 47%N d -> b = d).
  { induction a as [|x a IH]; intros b [|y c] d E Hb Hd; cbn [app] in E.
    - congruence.
    - injection E as <- E. exfalso. apply Hb. rewrite E. apply in_or_app. right. left. reflexivity.
    - injection E as -> E. exfalso. apply Hd. rewrite <- E. apply in_or_app. right. left. reflexivity.
    - injection E as <- E. exact (IH _ _ _ E Hb Hd). }
  intros (N1 & H1) (N2 & H2). destruct H1 as [E1|(d1 & E1)], H2 as [E2|(d2 & E2)]; rewrite E1 in E2.
  - exact E2.
  - exfalso. apply N1. rewrite E2. apply in_or_app. right. left. reflexivity.
  - exfalso. apply N2. rewrite <- E2. apply in_or_app. right. left. reflexivity.
  - exact (U _ _ _ _ E2 N1 N2).
Qed.

Lemma lstrip_nil t : lstrip t = [] <-> blank t.
Proof.
  unfold blank. induction t as [|c t IH]; cbn [lstrip]; [split; [constructor|reflexivity]|]. destruct (space c) eqn:E.
  - rewrite IH. split; [constructor; assumption|intro H; now inversion H].
  - split; [discriminate|]. intro H. inversion H. congruence.
Qed.
Lemma strip_nil t : strip t = [] <-> blank t.
Proof.
  unfold strip. split; intro H.
  - apply (f_equal (@rev N)) in H. rewrite rev_involutive in H. cbn [rev] in H. apply lstrip_nil in H. apply lstrip_nil.
    destruct (lstrip t) as [|c r] eqn:E; [reflexivity|]. exfalso. apply Forall_rev in H. rewrite rev_involutive in H. inversion H. subst.
    rewrite (lstrip_head t c r E) in *. discriminate.
  - apply lstrip_nil in H. rewrite H. reflexivity.
Qed.

Lemma lookup_cons p q e fs : lookup p ((q, e) :: fs) = if text_eqb q p then Some e else lookup p fs.
Proof. unfold lookup. cbn [find fst]. destruct (text_eqb q p); reflexivity. Qed.

Lemma create_file_spec path domain writable fs b : last_part path b ->
  let out := create_file path domain writable fs in
  (blank b \/ lookup path fs <> None \/ writable = false -> out = (fs, Exit 1)) /\
  (~ blank b -> lookup path fs = None -> writable = true ->
   snd out = Exit 0 /\ (forall p, p <> path -> lookup p (fst out) = lookup p fs) /\
   exists d, lookup path (fst out) = Some (Space {| ns_domain := d |}) /\
     ((exists c t, domain = Some (c :: t) /\ d = c :: t) \/ ((domain = None \/ domain = Some []) /\ without_extension b d))).
Proof.
  intros L out. assert (Eb : basename path = b) by (eapply last_part_unique; [apply basename_spec|exact L]).
  unfold out, create_file. rewrite Eb. split.
  - intro H. destruct (strip b) as [|c0 t0] eqn:Es; [reflexivity|].
    destruct H as [H|[H| ->]]; [apply strip_nil in H; congruence|destruct (lookup path fs); [reflexivity|contradiction]|].
    destruct (lookup path fs); reflexivity.
  - intros H1 H2 ->. destruct (strip b) as [|c0 t0] eqn:Es; [apply strip_nil in Es; contradiction|]. rewrite H2. cbn [fst snd].
    split; [reflexivity|]. split.
    + intros p Hp. rewrite lookup_cons. destruct (text_eqb path p) eqn:E; [apply (proj1 (teqb_iff _ _)) in E; congruence|reflexivity].
    + eexists. rewrite lookup_cons, teqb_refl. split; [reflexivity|]. destruct domain as [[|c t]|].
      * right. split; [right; reflexivity|apply splitext_root_spec].
      * left. exists c, t. auto.
      * right. split; [left; reflexivity|apply splitext_root_spec].
Qed.
