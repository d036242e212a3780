(** C41: link references resolve without guessing. *)
From Verif Require Import Prelude Selectors_Model Selectors_Spec Selectors_Proofs
  SelectorParse_Model LinkRef_Model LinkRef_Spec LinkRef_Proofs.

(** get_link returns [k] exactly when [k] is the link that is meant. *)
Theorem C41_get_link ref name ad links k : link_table links ->
  (get_link ref name ad links = Ok k <-> meant links ref name ad k).
Proof. exact (get_link_iff ref name ad links k). Qed.
Print Assumptions C41_get_link.

(** Two different links are never both meant. *)
Theorem C41_meant_unique links ref name ad x y : link_table links ->
  meant links ref name ad x -> meant links ref name ad y -> x = y.
Proof. exact (meant_unique links ref name ad x y). Qed.
Print Assumptions C41_meant_unique.

(** Every failure is a ToronError. *)
Theorem C41_get_link_error ref name ad links e :
  get_link ref name ad links = Err e -> e = ToronError.
Proof. exact (get_link_err ref name ad links e). Qed.
Print Assumptions C41_get_link_error.

(** A space is found by its own unique id: the choice made for a row during a
    translation is among the current, complete links with selectors of that very
    space, by greatest unique specificity, with its current default as fallback. *)
Theorem C41_translation_choice uid links h d dflt :
  link_table links -> (exists k, In k links /\ k_other k = uid) ->
  make_get_link_id uid links h = Ok (d, dflt) ->
  (exists k, current links uid h k /\ k_default k = true /\ k_id k = dflt) /\
  NoDup (map fst d) /\
  (forall i sels, In (i, sels) d <->
     exists k l, eligible links uid h k /\ k_id k = i /\ sels = Some l /\
       Forall2 (fun t s => parse_selector t = Ok s) (k_selectors k) l).
Proof. exact (link_choice uid links h d dflt). Qed.
Print Assumptions C41_translation_choice.

Definition mklink id other hint name dflt : link :=
  {| k_id := id; k_other := txt other; k_hint := hint; k_name := txt name; k_selectors := [];
     k_default := dflt; k_hash := Some [0; 1]%Z; k_complete := true |}.

Definition links1 : list link :=
  [mklink 1 "11111111-2222" (Some (txt "a.toron")) "pop" true;
   mklink 2 "11111111-2222" (Some (txt "a.toron")) "land" false;
   mklink 3 "33333333-4444" (Some (txt "b")) "pop" true;
   mklink 4 "33333333-5555" None "pop" true].

Example C41_case :
  link_table links1 /\
  meant links1 (txt "a") None true (mklink 1 "11111111-2222" (Some (txt "a.toron")) "pop" true) /\
  get_link (txt "a") (Some (txt "land")) true links1
    = Ok (mklink 2 "11111111-2222" (Some (txt "a.toron")) "land" false) /\
  get_link (txt "11111111") None false links1 = Err ToronError /\
  get_link (txt "111111") None true links1 = Err ToronError /\
  get_link (txt "33333333") None true links1 = Err ToronError /\
  get_link (txt "33333333-5") None false links1 = Ok (mklink 4 "33333333-5555" None "pop" true) /\
  make_get_link_id (txt "33333333-4444") links1 [0; 1]%Z = Ok ([], 3%Z).
Proof.
  assert (T : link_table links1).
  { split; [|split].
    - cbn. repeat constructor; cbn; intuition congruence.
    - intros x y. cbn [In links1].
      intros [<-|[<-|[<-|[<-|[]]]]] [<-|[<-|[<-|[<-|[]]]]]; cbn; auto; intros; discriminate.
    - intros x y. cbn [In links1].
      intros [<-|[<-|[<-|[<-|[]]]]] [<-|[<-|[<-|[<-|[]]]]]; cbn; auto; intros; discriminate. }
  split; [exact T|]. split.
  - apply (get_link_iff _ _ _ _ _ T). reflexivity.
  - vm_compute. intuition discriminate.
Qed.

(** Finding: the two reference searches disagree.  For a link recorded with file name
    hint "a" the reference "a.toron" is resolved by find_links_by_ref but rejected by
    get_links_by_ref, and find_links_by_ref silently returns links to several spaces
    for an ambiguous prefix that get_links_by_ref refuses. *)
Theorem C41_same_search_refuted :
  (exists links ref, link_table links /\ ref <> [] /\
     length (find_links_by_ref ref links) = 1 /\ get_links_by_ref ref links = Err ToronError) /\
  (exists links ref x y, link_table links /\
     In x (find_links_by_ref ref links) /\ In y (find_links_by_ref ref links) /\
     k_other x <> k_other y).
Proof.
  split.
  - exists [mklink 1 "11111111" (Some (txt "a")) "pop" true], (txt "a.toron").
    repeat split; try discriminate.
    + cbn. repeat constructor; cbn; tauto.
    + intros x y [<-|[]] [<-|[]]; auto.
    + intros x y [<-|[]] [<-|[]]; auto.
  - exists [mklink 3 "33333333-4444" None "pop" true; mklink 4 "33333333-5555" None "pop" true],
      (txt "33333333"),
      (mklink 3 "33333333-4444" None "pop" true), (mklink 4 "33333333-5555" None "pop" true).
    repeat split.
    + cbn. repeat constructor; cbn; intuition congruence.
    + intros x y [<-|[<-|[]]] [<-|[<-|[]]]; cbn; auto; intros; discriminate.
    + intros x y [<-|[<-|[]]] [<-|[<-|[]]]; cbn; auto; intros; discriminate.
    + vm_compute. auto.
    + vm_compute. auto.
    + discriminate.
Qed.
Print Assumptions C41_same_search_refuted.
