From Verif Require Import Prelude Selectors_Model Quote_Model Quote_Spec Quote_Proofs.

(** Definitions of columns. *)
Definition index_text c := q34 c ++ txt " TEXT NOT NULL CHECK (" ++ q34 c ++ txt " != '') DEFAULT '-'".
Definition location_text c := q34 c ++ txt " TEXT NOT NULL DEFAULT ''".
Definition structure_text c := q34 c ++ txt " INTEGER NOT NULL CHECK (" ++ q34 c ++ txt " IN (0, 1)) DEFAULT 0".
Ltac flush := apply good_lit; repeat constructor.
Lemma good_open c a p g : hd 0%N a <> 34%N -> a <> [] -> snd (run Between a) = Between -> good p g ->
  good (q34 c ++ a ++ p) (col c ++ lex Between a ++ g).
Proof.
  intros H N A G b S. rewrite <- !app_assoc. rewrite lex_name; [|destruct a; [congruence|exact H]].
  unfold col. cbn [app]. f_equal. rewrite lex_seg; [now rewrite G|]. right. rewrite A. unfold flushes. cbn. now destruct (start _).
Qed.
Lemma good_index c : good (index_text c) (index_col c).
Proof.
  unfold index_text, index_col. change (sql "TEXT NOT NULL CHECK (") with (lex Between (txt " TEXT NOT NULL CHECK (")).
  apply good_open; [discriminate|discriminate|reflexivity|]. apply good_name_then; [discriminate|discriminate|].
  change (sql "!= '' ) DEFAULT '-'") with (lex Between (txt " != '') DEFAULT '-'")). flush.
Qed.
Lemma good_location c : good (location_text c) (location_col c).
Proof.
  apply good_name_then; [discriminate|discriminate|].
  change (sql "TEXT NOT NULL DEFAULT ''") with (lex Between (txt " TEXT NOT NULL DEFAULT ''")). flush.
Qed.
Lemma good_structure c : good (structure_text c) (structure_col c).
Proof.
  unfold structure_text, structure_col. change (sql "INTEGER NOT NULL CHECK (") with (lex Between (txt " INTEGER NOT NULL CHECK (")).
  apply good_open; [discriminate|discriminate|reflexivity|]. apply good_name_then; [discriminate|discriminate|].
  change (sql "IN ( 0 , 1 ) ) DEFAULT 0") with (lex Between (txt " IN (0, 1)) DEFAULT 0")). flush.
Qed.
Lemma defs_cases (f : text -> res text) g l :
  (forall c, (usable c /\ f c = Ok (g c)) \/ (~ usable c /\ f c = Err ValueError)) ->
  (Forall usable l /\ traverse f l = Ok (map g l)) \/ (~ Forall usable l /\ traverse f l = Err ValueError).
Proof.
  intro H. induction l as [|c l IH]; cbn; [left; auto|]. destruct (H c) as [[U E]|[U E]]; rewrite E; cbn.
  - destruct IH as [[F G]|[F G]]; rewrite G; cbn; [left; auto|right]. split; auto. intro X. inversion X; auto.
  - right. split; auto. intro X. inversion X; auto.
Qed.
Lemma index_cases c : (usable c /\ column_def_label_index c = Ok (index_text c)) \/ (~ usable c /\ column_def_label_index c = Err ValueError).
Proof. unfold column_def_label_index. destruct (format_cases c) as [[U E]|[U E]]; rewrite E; cbn [bind]; [left|right]; split; auto. Qed.
Lemma location_cases c : (usable c /\ column_def_location c = Ok (location_text c)) \/ (~ usable c /\ column_def_location c = Err ValueError).
Proof. unfold column_def_location. destruct (format_cases c) as [[U E]|[U E]]; rewrite E; cbn [bind]; [left|right]; split; auto. Qed.
Lemma structure_cases c : (usable c /\ column_def_structure c = Ok (structure_text c)) \/ (~ usable c /\ column_def_structure c = Err ValueError).
Proof. unfold column_def_structure. destruct (format_cases c) as [[U E]|[U E]]; rewrite E; cbn [bind]; [left|right]; split; auto. Qed.


Ltac frame P G :=
  match goal with |- context [lex Between (?a ++ ?p ++ ?z)] => unify p P;
    let A := fresh in let S := fresh in assert (A : snd (run Between a) = Between) by (vm_compute; reflexivity);
    assert (S : stop z) by (right; cbn; tauto); rewrite (lex_frame a p _ z A G S); clear A S end.
Definition three (i l s : list token) : list (list token) := [i; l; s].

Lemma add_tokens c : usable c -> exists l, add_sql c = Ok l /\ map tokens l =
  [sql "ALTER TABLE main . label_index ADD COLUMN" ++ index_col c;
   sql "ALTER TABLE main . label_location ADD COLUMN" ++ location_col c;
   sql "ALTER TABLE main . label_structure ADD COLUMN" ++ structure_col c].
Proof.
  intro U. unfold add_sql. destruct (index_cases c) as [[_ E]|[N _]]; [rewrite E|now elim N].
  destruct (location_cases c) as [[_ E2]|[N _]]; [rewrite E2|now elim N]. destruct (structure_cases c) as [[_ E3]|[N _]]; [rewrite E3|now elim N].
  cbn [bind]. eexists. split; [reflexivity|]. cbn [map]. change tokens with (lex Between).
  frame (index_text c) (good_index c). frame (location_text c) (good_location c). frame (structure_text c) (good_structure c).
  change (lex Between (txt "
            ")) with (@nil token). rewrite !app_nil_r. reflexivity.
Qed.
Lemma add_error c : ~ usable c -> add_sql c = Err ValueError.
Proof. intro U. unfold add_sql. destruct (index_cases c) as [[N _]|[_ E]]; [now elim U|now rewrite E]. Qed.
Lemma rename_tokens a b : usable a -> usable b -> exists l, rename_sql a b = Ok l /\ map tokens l =
  [sql "ALTER TABLE main . label_index RENAME COLUMN" ++ col a ++ sql "TO" ++ col b;
   sql "ALTER TABLE main . label_location RENAME COLUMN" ++ col a ++ sql "TO" ++ col b;
   sql "ALTER TABLE main . label_structure RENAME COLUMN" ++ col a ++ sql "TO" ++ col b].
Proof.
  intros A B. unfold rename_sql. destruct (format_cases a) as [[_ E]|[N _]]; [rewrite E|now elim N].
  destruct (format_cases b) as [[_ E2]|[N _]]; [rewrite E2|now elim N]. cbn [bind]. eexists. split; [reflexivity|]. cbn [map].
  change tokens with (lex Between).
  assert (G : good (q34 a ++ txt " TO " ++ q34 b) (col a ++ sql "TO" ++ col b)).
  { change (sql "TO") with (lex Between (txt " TO ")). apply good_open; [discriminate|discriminate|reflexivity|apply good_name]. }
  assert (X : forall pre, snd (run Between pre) = Between -> lex Between (pre ++ q34 a ++ txt " TO " ++ q34 b ++ txt "
            ") = lex Between pre ++ col a ++ sql "TO" ++ col b).
  { intros pre P. replace (q34 a ++ txt " TO " ++ q34 b ++ txt "
            ") with ((q34 a ++ txt " TO " ++ q34 b) ++ txt "
            ") by (now rewrite <- !app_assoc). rewrite (lex_frame pre _ _ _ P G) by (right; cbn; tauto).
    change (lex Between (txt "
            ")) with (@nil token). now rewrite app_nil_r. }
  pose proof (fun t u => app_assoc (txt "
                ALTER TABLE main.") t u) as Y. 
  rewrite !Y, (app_assoc (_ ++ txt "label_index")), (app_assoc (_ ++ txt "label_location")), (app_assoc (_ ++ txt "label_structure")).
  rewrite !X by reflexivity. reflexivity.
Qed.
Lemma rename_error a b : ~ (usable a /\ usable b) -> rename_sql a b = Err ValueError.
Proof.
  intro U. unfold rename_sql. destruct (format_cases a) as [[A E]|[_ E]]; rewrite E; cbn [bind]; auto.
  destruct (format_cases b) as [[B E2]|[_ E2]]; rewrite E2; cbn [bind]; auto. now elim U.
Qed.
(** A literal text before a good part, at the end. *)
Lemma lex_end a p g : snd (run Between a) = Between -> good p g -> lex Between (a ++ p) = lex Between a ++ g.
Proof.
  intros A G. replace (a ++ p) with (a ++ p ++ []) by (now rewrite app_nil_r). rewrite (lex_frame _ _ _ _ A G) by (now left).
  unfold lex at 2. cbn. now rewrite app_nil_r.
Qed.
Lemma drop_tokens c : usable c -> exists l, drop_sql c = Ok l /\ map tokens l =
  [sql "ALTER TABLE main . label_index DROP COLUMN" ++ col c;
   sql "ALTER TABLE main . label_location DROP COLUMN" ++ col c;
   sql "ALTER TABLE main . label_structure DROP COLUMN" ++ col c].
Proof.
  intros U. unfold drop_sql. destruct (format_cases c) as [[_ E]|[N _]]; [rewrite E|now elim N]. cbn [bind].
  eexists. split; [reflexivity|]. cbn [map]. change tokens with (lex Between).
  pose proof (fun t u => app_assoc (txt "ALTER TABLE main.") t u) as Y.
  rewrite !Y, (app_assoc (_ ++ txt "label_index")), (app_assoc (_ ++ txt "label_location")), (app_assoc (_ ++ txt "label_structure")).
  rewrite !(fun a A => lex_end a _ _ A (good_name c)) by reflexivity. reflexivity.
Qed.
Lemma drop_error c : ~ usable c -> drop_sql c = Err ValueError.
Proof. intro U. unfold drop_sql. destruct (format_cases c) as [[N _]|[_ E]]; [now elim U|now rewrite E]. Qed.

Lemma index_tokens cs : Forall usable cs -> exists l, index_sql cs = Ok l /\ map tokens l =
  [sql "CREATE UNIQUE INDEX IF NOT EXISTS main . unique_index_label_columns ON label_index (" ++ cols cs ++ sql ")";
   sql "CREATE UNIQUE INDEX IF NOT EXISTS main . unique_location_label_columns ON label_location (" ++ cols cs ++ sql ")";
   sql "CREATE UNIQUE INDEX IF NOT EXISTS main . unique_structure_label_columns ON label_structure (" ++ cols cs ++ sql ")"].
Proof.
  intro U. unfold index_sql. destruct (format_all_cases cs) as [[_ E]|[N _]]; [rewrite E|now elim N]. cbn [bind].
  eexists. split; [reflexivity|]. cbn [map fst snd]. change tokens with (lex Between).
  assert (X : forall a b c, snd (run Between (a ++ b ++ txt " ON " ++ c ++ txt "(")) = Between ->
    lex Between (a ++ b ++ txt " ON " ++ c ++ txt "(" ++ join_text comma (map q34 cs) ++ txt ")
        ") = lex Between (a ++ b ++ txt " ON " ++ c ++ txt "(") ++ cols cs ++ sql ")").
  { intros a b c A. pose proof (lex_frame _ _ _ (txt ")
        ") A (good_cols cs) ltac:(right; cbn; tauto)) as H. rewrite <- !app_assoc in H. rewrite H. reflexivity. }
  rewrite !X by reflexivity. reflexivity.
Qed.
Lemma create_tokens cs : Forall usable cs -> exists l, create_sql cs = Ok l /\ map tokens l =
  [sql "CREATE TABLE main . new_label_index ( index_id INTEGER PRIMARY KEY AUTOINCREMENT ," ++
     between (sql ",") (map index_col cs) ++ sql ")";
   sql "CREATE TABLE main . new_location ( _location_id INTEGER PRIMARY KEY ," ++
     between (sql ",") (map location_col cs) ++ sql ")";
   sql "CREATE TABLE main . new_structure ( _structure_id INTEGER PRIMARY KEY , _granularity REAL ," ++
     between (sql ",") (map structure_col cs) ++ sql ")"].
Proof.
  intro U. unfold create_sql.
  destruct (defs_cases _ index_text cs index_cases) as [[_ E]|[N _]]; [rewrite E|now elim N].
  destruct (defs_cases _ location_text cs location_cases) as [[_ E2]|[N _]]; [rewrite E2|now elim N].
  destruct (defs_cases _ structure_text cs structure_cases) as [[_ E3]|[N _]]; [rewrite E3|now elim N]. cbn [bind].
  eexists. split; [reflexivity|]. cbn [map]. change tokens with (lex Between).
  frame (join_text comma (map index_text cs)) (good_commas _ _ (Forall2_map index_text index_col cs good_index)).
  frame (join_text comma (map location_text cs)) (good_commas _ _ (Forall2_map location_text location_col cs good_location)).
  frame (join_text comma (map structure_text cs)) (good_commas _ _ (Forall2_map structure_text structure_col cs good_structure)).
  reflexivity.
Qed.
Lemma copy_tokens cs : Forall usable cs -> exists l, copy_sql cs = Ok l /\ map tokens l =
  [sql "INSERT INTO main . new_label_index SELECT index_id ," ++ cols cs ++ sql "FROM main . label_index";
   sql "INSERT INTO main . new_location SELECT _location_id ," ++ cols cs ++ sql "FROM main . label_location";
   sql "INSERT INTO main . new_structure SELECT _structure_id , _granularity ," ++ cols cs ++ sql "FROM main . label_structure"].
Proof.
  intro U. unfold copy_sql. destruct (format_all_cases cs) as [[_ E]|[N _]]; [rewrite E|now elim N]. cbn [bind].
  eexists. split; [reflexivity|]. cbn [map]. change tokens with (lex Between).
  do 3 frame (join_text comma (map q34 cs)) (good_cols cs). reflexivity.
Qed.
Lemma lists_error cs : ~ Forall usable cs -> 
  index_sql cs = Err ValueError /\ create_sql cs = Err ValueError /\ copy_sql cs = Err ValueError.
Proof.
  intro U. unfold index_sql, create_sql, copy_sql.
  destruct (format_all_cases cs) as [[N _]|[_ E]]; [now elim U|rewrite E].
  destruct (defs_cases _ index_text cs index_cases) as [[N _]|[_ E2]]; [now elim U|rewrite E2]. auto.
Qed.

(** Queries. *)
Lemma distinct_tokens cs u : Forall usable cs -> exists t, distinct_sql cs u = Ok t /\ tokens t =
  sql "SELECT DISTINCT" ++ cols cs ++ sql "FROM main . label_index" ++ (if u then [] else sql "WHERE index_id != 0").
Proof.
  intro U. unfold distinct_sql. destruct (format_all_cases cs) as [[_ E]|[N _]]; [rewrite E|now elim N]. cbn [bind].
  eexists. split; [reflexivity|]. change tokens with (lex Between). 
  frame (join_text comma (map q34 cs)) (good_cols cs). destruct u; reflexivity.
Qed.
Lemma good_criterion c : good (q34 c ++ txt "=?") (criterion c).
Proof. apply good_name_then; [discriminate|discriminate|]. change (sql "= ?") with (lex Between (txt "=?")). flush. Qed.
Lemma filter_tokens what keys u : good (txt what) (sql what) -> Forall usable keys ->
  exists t, filter_sql (txt what) keys u = Ok t /\ tokens t =
  sql "SELECT" ++ sql what ++ sql "FROM main . label_index" ++
  match map criterion keys ++ (if u then [] else [sql "index_id != 0"]) with
  | [] => []
  | l => sql "WHERE" ++ between (sql "AND") l end.
Proof.
  intros W U. unfold filter_sql. destruct (format_all_cases keys) as [[_ E]|[N _]]; [rewrite E|now elim N]. cbn [bind].
  rewrite map_map. eexists. split; [reflexivity|]. change tokens with (lex Between).
  assert (F : Forall2 good (map (fun c => q34 c ++ txt "=?") keys ++ (if u then [] else [txt "index_id != 0"]))
    (map criterion keys ++ (if u then [] else [sql "index_id != 0"]))).
  { apply Forall2_app; [apply Forall2_map, good_criterion|]. destruct u; constructor; [|constructor].
    change (sql "index_id != 0") with (lex Between (txt "index_id != 0")). flush. }
  revert F. generalize (map (fun c => q34 c ++ txt "=?") keys ++ (if u then [] else [txt "index_id != 0"])).
  generalize (map criterion keys ++ (if u then [] else [sql "index_id != 0"])). intros gs ps F.
  assert (X : forall z, stop z -> lex Between (txt "SELECT " ++ txt what ++ z) = sql "SELECT" ++ sql what ++ lex Between z).
  { intros z Z. rewrite (lex_frame (txt "SELECT ") _ _ _ eq_refl W Z). reflexivity. }
  destruct F as [|p g ps gs P F].
  - rewrite X by (right; cbn; tauto). reflexivity.
  - rewrite <- app_assoc, <- app_assoc. rewrite X by (right; cbn; tauto). do 2 f_equal.
    rewrite app_assoc. rewrite (lex_end (txt " FROM main.label_index" ++ txt " WHERE ") _ _ eq_refl (good_ands _ _ (Forall2_cons _ _ P F))). reflexivity.
Qed.
Lemma filter_error what keys u : ~ Forall usable keys -> filter_sql what keys u = Err ValueError.
Proof. intro U. unfold filter_sql. destruct (format_all_cases keys) as [[N _]|[_ E]]; [now elim U|now rewrite E]. Qed.
Lemma location_tokens keys : keys <> [] -> Forall usable keys -> exists t, location_sql keys = Ok t /\ tokens t =
  sql "SELECT * FROM main . label_location WHERE" ++ between (sql "AND") (map criterion keys).
Proof.
  intros N U. unfold location_sql. destruct keys as [|k keys]; [congruence|].
  destruct (format_all_cases (k :: keys)) as [[_ E]|[F _]]; [rewrite E|now elim F]. cbn [bind].
  eexists. split; [reflexivity|]. rewrite map_map. change tokens with (lex Between).
  etransitivity; [exact (lex_end (txt "SELECT * FROM main.label_location WHERE ") _ _ eq_refl (good_ands _ _ (Forall2_map _ _ (k :: keys) good_criterion)))|reflexivity].
Qed.
Lemma zip_cases (f : text * bool -> list N) l :
  (Forall usable (map fst l) -> traverse (fun p : text * bool => do c <- format_identifier (fst p); Ok (f (c, snd p))) l =
     Ok (map (fun p => f (q34 (fst p), snd p)) l)) /\
  (~ Forall usable (map fst l) -> traverse (fun p : text * bool => do c <- format_identifier (fst p); Ok (f (c, snd p))) l = Err ValueError).
Proof.
  induction l as [|[c b] l [IH1 IH2]]; cbn; [split; [reflexivity|intro H; elim H; constructor]|].
  destruct (format_cases c) as [[U E]|[U E]]; rewrite E; cbn [bind].
  - split; intro H.
    + inversion H; subst. rewrite IH1 by auto. reflexivity.
    + rewrite IH2; [reflexivity|]. intro X. apply H. constructor; auto.
  - split; intro H; [inversion H; now elim U|reflexivity].
Qed.
Lemma location_structure_tokens names bits : Forall usable (map fst (combine names bits)) ->
  exists t, location_structure_sql names bits = Ok t /\ tokens t =
  sql "SELECT * FROM main . label_location WHERE" ++ between (sql "AND") (map filled (combine names bits)).
Proof.
  intro U. unfold location_structure_sql, zip_bits.
  pose proof (zip_cases (fun q => fst q ++ txt " " ++ (if snd q then txt "!=" else txt "=") ++ txt " ''") (combine names bits)) as [Z _].
  cbn [fst snd] in Z. rewrite Z by exact U. cbn [bind]. eexists. split; [reflexivity|]. change tokens with (lex Between).
  rewrite (lex_end (txt "SELECT * FROM main.label_location WHERE ") _ (between (sql "AND") (map filled (combine names bits))) eq_refl); [reflexivity|].
  apply good_ands, Forall2_map. intros [c []]; unfold filled; cbn [fst snd].
  - apply good_name_then; [discriminate|discriminate|]. change (sql "!= ''") with (lex Between (txt " " ++ txt "!=" ++ txt " ''")). flush.
  - apply good_name_then; [discriminate|discriminate|]. change (sql "= ''") with (lex Between (txt " " ++ txt "=" ++ txt " ''")). flush.
Qed.
Lemma update_tokens cs n : Forall usable cs -> exists t, structure_update_sql cs n = Ok t /\ tokens t =
  sql "UPDATE main . label_structure SET ( _granularity ," ++ cols cs ++ sql ") = ( ? ," ++ marks n ++ sql ") WHERE _structure_id = ?".
Proof.
  intro U. unfold structure_update_sql. destruct (format_all_cases cs) as [[_ E]|[N _]]; [rewrite E|now elim N]. cbn [bind].
  eexists. split; [reflexivity|]. change tokens with (lex Between).
  frame (join_text comma (map q34 cs)) (good_cols cs). frame (qmarks n) (good_marks n). reflexivity.
Qed.
Lemma quantity_tokens names bits m : Forall usable (map fst (combine names bits)) ->
  exists t, quantity_structure_sql names bits m = Ok t /\ tokens t =
  sql "SELECT a . quantity_id , a . _location_id , a . attribute_group_id , a . quantity_value FROM main . quantity a JOIN main . label_location b USING ( _location_id ) WHERE"
  ++ between (sql "AND") (map filled_b (combine names bits) ++
       match m with Some n => [sql "a . attribute_group_id IN (" ++ marks n ++ sql ")"] | None => [] end)
  ++ sql "ORDER BY a . _location_id".
Proof.
  intro U. unfold quantity_structure_sql, zip_bits.
  pose proof (zip_cases (fun q => txt "b." ++ fst q ++ (if snd q then txt "!=" else txt "=") ++ txt "''") (combine names bits)) as [Z _].
  cbn [fst snd] in Z. rewrite Z by exact U. cbn [bind]. eexists. split; [reflexivity|]. change tokens with (lex Between).
  assert (F : Forall2 good (map (fun p : text * bool => txt "b." ++ q34 (fst p) ++ (if snd p then txt "!=" else txt "=") ++ txt "''") (combine names bits)
     ++ match m with Some n => [txt "a.attribute_group_id IN (" ++ qmarks n ++ txt ")"] | None => [] end)
     (map filled_b (combine names bits) ++ match m with Some n => [sql "a . attribute_group_id IN (" ++ marks n ++ sql ")"] | None => [] end)).
  { apply Forall2_app.
    - apply Forall2_map. intros [c b]. cbn [fst snd]. unfold filled_b. cbn [fst snd]. intros z S. rewrite <- app_assoc.
      assert (G : good (q34 c ++ (if b then txt "!=" else txt "=") ++ txt "''") (col c ++ (if b then sql "!= ''" else sql "= ''"))).
      { destruct b; (apply good_name_then; [discriminate|discriminate|]).
        - change (sql "!= ''") with (lex Between (txt "!=" ++ txt "''")). flush.
        - change (sql "= ''") with (lex Between (txt "=" ++ txt "''")). flush. }
      rewrite (lex_frame (txt "b.") _ _ _ eq_refl G S). rewrite <- !app_assoc. reflexivity.
    - destruct m as [n|]; constructor; [|constructor]. intros z S. rewrite <- !app_assoc.
      rewrite lex_frame with (g := marks n); [|reflexivity|apply good_marks|right; cbn; tauto].
      rewrite lex_seg; [reflexivity|]. right. unfold flushes. cbn. now destruct (start _). }
  frame (join_text and_ (map (fun p : text * bool => txt "b." ++ q34 (fst p) ++ (if snd p then txt "!=" else txt "=") ++ txt "''") (combine names bits)
     ++ match m with Some n => [txt "a.attribute_group_id IN (" ++ qmarks n ++ txt ")"] | None => [] end)) (good_ands _ _ F).
  reflexivity.
Qed.
Lemma granularity_tokens cs : Forall usable cs -> exists t, granularity_sql cs = Ok t /\ tokens t =
  sql "WITH block ( cardinality ) AS ( SELECT CAST ( COUNT ( * ) AS REAL ) FROM main . label_index WHERE index_id > 0 GROUP BY" ++ cols cs ++
  sql ") , summand ( partition_coarseness ) AS ( SELECT SUM ( ( block . cardinality / :total_cardinality ) * LOG2 ( block . cardinality ) ) FROM block ) SELECT LOG2 ( :total_cardinality ) - partition_coarseness FROM summand".
Proof.
  intro U. unfold granularity_sql. destruct (format_all_cases cs) as [[_ E]|[N _]]; [rewrite E|now elim N]. cbn [bind].
  eexists. split; [reflexivity|]. change tokens with (lex Between). rewrite app_assoc.
  frame (join_text comma (map q34 cs)) (good_cols cs). reflexivity.
Qed.
Lemma queries_error cs : ~ Forall usable cs -> (forall u, distinct_sql cs u = Err ValueError) /\
  location_sql cs = Err ValueError /\ (forall n, structure_update_sql cs n = Err ValueError) /\ granularity_sql cs = Err ValueError.
Proof.
  intro U. unfold distinct_sql, location_sql, structure_update_sql, granularity_sql.
  destruct (format_all_cases cs) as [[N _]|[_ E]]; [now elim U|rewrite E]. repeat split. destruct cs; reflexivity.
Qed.
Lemma zipped_error names bits : ~ Forall usable (map fst (combine names bits)) ->
  location_structure_sql names bits = Err ValueError /\ forall m, quantity_structure_sql names bits m = Err ValueError.
Proof.
  intro U. unfold location_structure_sql, quantity_structure_sql, zip_bits.
  pose proof (zip_cases (fun q => txt "b." ++ fst q ++ (if snd q then txt "!=" else txt "=") ++ txt "''") (combine names bits)) as [_ Z].
  pose proof (zip_cases (fun q => fst q ++ txt " " ++ (if snd q then txt "!=" else txt "=") ++ txt " ''") (combine names bits)) as [_ Z2].
  cbn [fst snd] in Z, Z2. rewrite Z, Z2 by exact U. split; reflexivity.
Qed.
