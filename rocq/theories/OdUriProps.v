(** Theorems about the URIs of OData services. *)
From Verif Require Import Py Iso Dec Shapes XmlChars Xsd Imscp Uri UriSpec UriProofs2 OdExpr OdExprSpec OdExprProofs6 OdExprProps.
From Verif Require Import OdUri OdUriSpec OdUriProofs OdUriProofs2 OdUriProofs3 OdUriProofs4 OdUriProofs5.
Open Scope Z_scope.
Open Scope list_scope.

(** ** C186: $expand and $select *)
Theorem C186_expand start id ps t : classes start id -> expand_text start id ps t ->
  exists d, ParseExpandOption start id t = Ok d /\ tidy d /\ holds_just d ps.
Proof. intros H. now apply expand_reads. Qed.
Theorem C186_expand_refuses start id t : (forall ps, ~ expand_text start id ps t) ->
  ParseExpandOption start id t = Err ValueError.
Proof. now apply expand_refuses. Qed.
Theorem C186_select start id ps t : classes start id -> start 42 = false -> select_text start id ps t ->
  exists d, ParseSelectOption start id t = Ok d /\ tidy d /\ holds_just d ps.
Proof. intros H1 H2. now apply select_reads. Qed.
Theorem C186_select_refuses start id t : classes start id -> start 42 = false -> (forall ps, ~ select_text start id ps t) ->
  ParseSelectOption start id t = Err ValueError.
Proof. intros H1 H2. now apply select_refuses. Qed.
Theorem C186_expand_written start id d : classes start id -> d <> [] -> (forall p n, holds d p -> In n p -> identifier start id n) ->
  exists d', ParseExpandOption start id (FormatExpand d) = Ok d' /\ tidy d' /\ forall p, holds d' p <-> holds d p.
Proof. intros H. now apply expand_round. Qed.
Theorem C186_select_written start id d : classes start id -> start 42 = false -> d <> [] ->
  (forall p, holds d p -> exists q n, p = q ++ [n] /\ Forall (identifier start id) q /\ (identifier start id n \/ n = lit "*")) ->
  exists d', ParseSelectOption start id (FormatSelect d) = Ok d' /\ tidy d' /\ forall p, holds d' p <-> holds d p.
Proof. intros H. now apply select_round. Qed.
Theorem C186_canonical d d' : tidy d -> tidy d' -> (forall p, holds d p <-> holds d' p) -> FormatExpand d = FormatExpand d'.
Proof. apply format_canonical. Qed.

Example C186_nonvacuous :
  expand_text demo_letter demo_id [[lit "Orders"; lit "Lines"]; [lit "Owner"]; [lit "Orders"; lit "Payer"]] (lit "Orders/Lines,Owner,Orders/Payer") /\
  ParseExpandOption demo_letter demo_id (lit "Orders/Lines,Owner,Orders/Payer") =
    Ok [(lit "Orders", Branch [(lit "Lines", Leaf); (lit "Payer", Leaf)]); (lit "Owner", Leaf)] /\
  select_text demo_letter demo_id [[lit "Name"]; [lit "Orders"; lit "*"]] (lit " Name , Orders/*") /\
  (forall ps, ~ expand_text demo_letter demo_id ps (lit "Orders//Lines")) /\
  FormatExpand [(lit "Orders", Branch [(lit "Payer", Leaf); (lit "Lines", Leaf)]); (lit "Boss", Leaf)] = lit "Boss,Orders/Lines,Orders/Payer".
Proof.
  assert (forall s, forallb demo_letter s = true -> s <> [] -> identifier demo_letter demo_id s) as K by exact demo_ident.
  split; [|split; [vm_compute; reflexivity|split; [|split; [|vm_compute; reflexivity]]]].
  - apply (ETn _ _ _ (lit "Orders/Lines") _ (lit "Owner,Orders/Payer")).
    + apply (PTn _ _ (lit "Orders") _ (lit "Lines")); [apply K; [reflexivity|discriminate]|]. apply PT1. apply K; [reflexivity|discriminate].
    + apply (ETn _ _ _ (lit "Owner") _ (lit "Orders/Payer")); [apply PT1, K; [reflexivity|discriminate]|]. apply ET1.
      apply (PTn _ _ (lit "Orders") _ (lit "Payer")); [apply K; [reflexivity|discriminate]|]. apply PT1. apply K; [reflexivity|discriminate].
  - assert (spaces [32]) as Sp by (constructor; [now left|constructor]).
    apply (STn _ _ _ (lit " Name") [32] _ (lit " Orders/*")); [|exact Sp|].
    + apply (IT1 _ _ (lit "Name") [32]); [apply K; [reflexivity|discriminate]|exact Sp].
    + apply (ST1 _ _ _ (lit " Orders/*") []); [|constructor].
      apply (ITn _ _ (lit "Orders") _ [32] (lit "*")); [apply K; [reflexivity|discriminate]|exact Sp|]. apply (ITs _ _ []). constructor.
  - intros ps H. destruct (C186_expand _ _ _ _ demo_classes H) as (d & E & _). vm_compute in E. discriminate E.
Qed.

Section Uris.
Context {X : Type}.
Variable number : edm_type -> numeric -> result X.
Variable quoted : edm_type -> str -> result (X * str).
Variable show : edm_type -> X -> str.
Variable start id : Z -> bool.
Variable V : Type.
Variable read_option : sysopt -> str -> result V.
Notation ODataURI := (ODataURI X number quoted start id V read_option).
Notation ODataURI_text := (ODataURI_text X number quoted start id V read_option).
Notation server_request := (server_request X number quoted start id V read_option).
Notation location_path := (location_path X show).
Notation read_path := (read_path X number quoted start id).
Notation mkPath := (mkPath X).
Notation mkQuery := (mkQuery V).
Notation mkRequest := (mkRequest X V).

(** ** C183: keys *)
(** Missing: keys of several parts and keys with other characters *)
Theorem C183_location_partial prefix n k v : classes start id -> service_path prefix -> set_name n ->
  literal_ok number quoted show v -> Forall simple_char (literal_text X show v) ->
  ODataURI_text (location_path prefix n [(k, v)]) prefix =
    UOk (mkRequest (Some (47 :: n ++ 40 :: literal_text X show v ++ [41])) (mkPath [(n, Some [([], v)])] None None) (mkQuery [] [] [])).
Proof. intros H. now apply location_read. Qed.
(** Over HTTP the web server takes the escapes away *)
Theorem C183_served_partial prefix n d script path_info : classes start id -> service_path prefix -> set_name n -> keys_ok number quoted show d ->
  script ++ path_info = UnescapeData (location_path prefix n d) ->
  server_request script path_info None prefix =
    UOk (mkRequest (Some (47 :: n ++ key_text X show d)) (mkPath [(n, Some (as_read d))] None None) (mkQuery [] [] [])).
Proof. intros H H1 H2 H3 H4. apply location_served; auto. constructor. Qed.

(** ** C184: the paths *)
(** Missing: $metadata and $batch stand alone, $links comes after a path, and the error *)
Theorem C184_paths_partial l p : Forall (fun s => ~ In 47 s) l -> l <> [[]] ->
  (read_path (slashes l) = UOk p <-> path_form number quoted start id l p).
Proof. apply path_iff. Qed.

(** ** C185: options *)
Theorem C185_options u prefix r resource : ODataURI u prefix = UOk r -> r_resource X V r = Some resource ->
  forall o v, In (o, v) (q_sys V (r_query X V r)) -> allowed (r_path X V r) o.
Proof.
  unfold OdUri.ODataURI. destruct (match absPath u with Some _ => UOk u | None => _ end) as [u'|]; cbn [ubind]; [|discriminate].
  destruct (absPath u') as [a|]; [|discriminate]. destruct (negb _); [intros [= <-]; discriminate|].
  destruct (read_query start id V read_option (Uri.query u')) as [q|]; cbn [ubind]; [|discriminate].
  destruct (read_path _) as [p|]; cbn [ubind]; [|discriminate].
  destruct (check_options X V p q) as [[]|] eqn:C; cbn [ubind]; [|discriminate]. intros [= <-] _. cbn [r_query r_path]. now apply options_iff.
Qed.
Theorem C185_refused p (q : uquery V) o v : In (o, v) (q_sys V q) -> ~ allowed p o -> check_options X V p q = UErr InvalidSystemQueryOption.
Proof.
  intros I N. destruct (check_options X V p q) as [[]|e] eqn:E.
  - rewrite options_iff in E. now apply E in I.
  - apply options_err in E. now subst.
Qed.
Theorem C185_accepted p (q : uquery V) : (forall o v, In (o, v) (q_sys V q) -> allowed p o) -> check_options X V p q = UOk tt.
Proof. apply options_iff. Qed.

(** ** C187: options that are written *)
Theorem C187_options prefix n l xs : service_path prefix -> set_name n -> last n 0 <> 41 -> l <> [] -> NoDup (map fst l) ->
  Forall2 (fun p x => code_points (snd p) /\ option_value start id V read_option (fst p) (snd p) = Ok x) l xs ->
  ODataURI_text (prefix ++ 47 :: n ++ 63 :: FormatSysQueryOptions l) prefix =
    UOk (mkRequest (Some (47 :: n)) (mkPath [(n, None)] None None) (mkQuery (combine (map fst l) xs) [] [])).
Proof. apply options_read. Qed.

(** ** C188: URIs of others *)
(** Missing: a URI that begins with the text of the root, without a slash after it *)
Theorem C188_others_partial u prefix a : absPath u = Some a -> (forall r, a <> prefix ++ r) ->
  exists r, ODataURI u prefix = UOk r /\ r_resource X V r = None.
Proof.
  intros E N. unfold OdUri.ODataURI. rewrite E. cbn [ubind]. rewrite E. destruct (str_eqb (firstn (length prefix) a) prefix) eqn:S; cbn [negb].
  - exfalso. apply str_eqb_eq in S. apply (N (skipn (length prefix) a)). rewrite <- S at 1. now rewrite firstn_skipn.
  - eexists. split; reflexivity.
Qed.
Theorem C188_ours u prefix r resource a : absPath u = Some a -> ODataURI u prefix = UOk r -> r_resource X V r = Some resource -> a = prefix ++ resource.
Proof.
  intros E. unfold OdUri.ODataURI. rewrite E. cbn [ubind]. rewrite E. destruct (str_eqb (firstn (length prefix) a) prefix) eqn:S; cbn [negb]; [|intros [= <-]; discriminate].
  destruct (read_query _ _ _ _ _) as [q|]; cbn [ubind]; [|discriminate]. destruct (read_path _) as [p|]; cbn [ubind]; [|discriminate].
  destruct (check_options X V p q); cbn [ubind]; [|discriminate]. intros [= <-] [= <-]. apply str_eqb_eq in S. rewrite <- S at 1. now rewrite firstn_skipn.
Qed.
End Uris.

(** ** The instance of the examples *)
Definition demo_option (o : sysopt) (s : str) : result str := Ok s.
Notation uri_read := (ODataURI_text str demo_number demo_quoted demo_letter demo_id str demo_option).
Notation http_read := (server_request str demo_number demo_quoted demo_letter demo_id str demo_option).
Notation place := (location_path str demo_show).
Notation demo_ok := (literal_ok demo_number demo_quoted demo_show).
Definition text_value (s : string) : value str := mkV (Some TString) (Some (PStr (lit s))).
Definition int_value (n : Z) : value str := mkV (Some TInt32) (Some (PInt n)).
Lemma text_ok s : demo_ok (text_value s). Proof. now apply plain_literal. Qed.
Lemma int_ok n : -2147483648 <= n <= 2147483647 -> demo_ok (int_value n). Proof. intros H. now apply plain_literal. Qed.
Lemma svc : service_path (lit "/x.svc").
Proof. right. exists 120, (lit ".svc"). split; [reflexivity|]. split; [discriminate|]. repeat constructor; try discriminate. Qed.
Lemma products : set_name (lit "Products").
Proof. split; [discriminate|]. split; [repeat constructor|]. cbn. intuition discriminate. Qed.

Example C183_nonvacuous :
  demo_ok (text_value "It's") /\ Forall simple_char (literal_text str demo_show (text_value "It's")) /\
  place (lit "/x.svc") (lit "Products") [([], text_value "It's")] = lit "/x.svc/Products('It''s')" /\
  keys_ok demo_number demo_quoted demo_show [(lit "Id", int_value 3); (lit "Code", text_value "A+B")] /\
  UnescapeData (place (lit "/x.svc") (lit "Products") [(lit "Id", int_value 3); (lit "Code", text_value "A+B")]) = lit "/x.svc" ++ lit "/Products(Id=3,Code='A+B')".
Proof.
  assert (forall s, forallb (fun c => (IsUnreserved c || IsReserved c) && negb (mem c (lit "/?,="))) s = true -> Forall key_char s) as K.
  { intros s H. apply Forall_forall. intros c I. rewrite forallb_forall in H. apply H in I. apply andb_prop in I. destruct I as [A B].
    apply orb_prop in A. split; [exact A|]. intros I. apply mem_In in I. rewrite I in B. discriminate. }
  split; [apply text_ok|]. split; [repeat constructor|]. split; [vm_compute; reflexivity|]. split; [|vm_compute; reflexivity].
  split; [repeat constructor; cbn; intuition discriminate|]. constructor; [|constructor; [|constructor]]; (split; [discriminate|]); cbn [fst snd].
  - split; [apply K; reflexivity|]. split; [apply int_ok; lia|apply K; vm_compute; reflexivity].
  - split; [apply K; reflexivity|]. split; [apply text_ok|apply K; vm_compute; reflexivity].
Qed.
(** What clients and the server itself rely on: the location of an entity is read as its key *)
Definition location_law (d : list (str * value str)) : Prop :=
  NoDup (map fst d) -> Forall (fun p => demo_ok (snd p)) d ->
  exists r, uri_read (place (lit "/x.svc") (lit "Products") d) (lit "/x.svc") = UOk r /\ r_path str str r = mkPath str [(lit "Products", Some (as_read d))] None None.
Theorem C183_refuted : ~ forall d, location_law d.
Proof.
  intros H. destruct (H [(lit "Code", text_value "A B")]) as (r & E & P).
  - constructor; [easy|constructor].
  - constructor; [apply text_ok|constructor].
  - vm_compute in E. injection E as <-. vm_compute in P. discriminate P.
Qed.
Theorem C183_parts_refuted : exists d, (forall p, In p d -> plain (snd p)) /\ ~ location_law d /\
  uri_read (place (lit "/x.svc") (lit "Products") d) (lit "/x.svc") = UErr (Other ValueError).
Proof.
  exists [(lit "A", int_value 1); (lit "B", int_value 2)]. split; [|split].
  - intros p [<- |[<- |[]]]; cbn; lia.
  - intros H. destruct H as (r & E & _).
    + repeat constructor; cbn; intuition discriminate.
    + constructor; [apply int_ok; lia|constructor; [apply int_ok; lia|constructor]].
    + vm_compute in E. discriminate E.
  - vm_compute. reflexivity.
Qed.
(** Nor over HTTP, with a comma in the key *)
Theorem C183_http_refuted : let d := [(lit "Code", text_value "a,b")] in
  UnescapeData (place (lit "/x.svc") (lit "Products") d) = lit "/x.svc/Products('a,b')" /\
  http_read (lit "/x.svc") (lit "/Products('a,b')") None (lit "/x.svc") = UErr (Other ValueError).
Proof. split; vm_compute; reflexivity. Qed.

Notation demo_path := (read_path str demo_number demo_quoted demo_letter demo_id).
Example C184_nonvacuous :
  let l := [lit "Products(1)"; lit "$Links"; lit "Orders"] in
  Forall (fun s => ~ In 47 s) l /\ l <> [[]] /\
  path_form demo_number demo_quoted demo_letter demo_id l
    (mkPath str [(lit "Products", Some [([], int_value 1)]); (lit "Orders", None)] (Some PLinks) (Some (lit "Orders"))).
Proof.
  assert (Forall (fun s => ~ In 47 s) [lit "Products(1)"; lit "$Links"; lit "Orders"]) as A.
  { repeat constructor; cbn; intuition discriminate. }
  split; [exact A|]. split; [discriminate|]. apply C184_paths_partial; [exact A|discriminate|]. vm_compute. reflexivity.
Qed.
(** $metadata and $batch are for the service, $links for an entity, and a bad path is an InvalidPathOption *)
Theorem C184_refuted :
  (exists p, demo_path (lit "/Products/$metadata") = UOk p) /\ (exists p, demo_path (lit "/Products/$batch") = UOk p) /\
  (exists p, demo_path (lit "/$links/Orders") = UOk p) /\ demo_path (lit "/Products/$foo") = UErr (Other ValueError).
Proof. repeat split; try (eexists; vm_compute; reflexivity); vm_compute; reflexivity. Qed.

Example C185_nonvacuous :
  let p := mkPath str [(lit "Products", None)] (Some PCount) None in
  let q := mkQuery str [(SFilter, OV str (lit "a"))] [] [] in
  (forall o v, In (o, v) (q_sys str q) -> allowed p o) /\ ~ allowed p SSelect /\
  (exists r, uri_read (lit "/x.svc/Products/$count?$filter=a") (lit "/x.svc") = UOk r) /\
  uri_read (lit "/x.svc/Products/$count?$select=a") (lit "/x.svc") = UErr InvalidSystemQueryOption.
Proof.
  split; [intros o v [[= <- <-]|[]]; cbn; auto|]. split; [cbn; intuition discriminate|]. split; [eexists|]; vm_compute; reflexivity.
Qed.
Example C187_nonvacuous :
  let l := [(SFilter, lit "Name eq 'A & B'"); (STop, lit "10"); (SSkiptoken, [233; 8364; 38])] in
  Forall2 (fun p x => code_points (snd p) /\ option_value demo_letter demo_id str demo_option (fst p) (snd p) = Ok x) l
    [OV str (lit "Name eq 'A & B'"); ONum str 10; OStr str [233; 8364; 38]] /\ NoDup (map fst l) /\
  FormatSysQueryOptions l = lit "$filter=Name%20eq%20'A%20%26%20B'&$top=10&$skiptoken=%C3%A9%E2%82%AC%26".
Proof.
  assert (forall s, forallb (fun c => (0 <=? c) && (c <? 0x110000)) s = true -> code_points s) as K.
  { intros s H. apply Forall_forall. intros c I. rewrite forallb_forall in H. apply H in I. lia. }
  split; [|split; [repeat constructor; cbn; intuition discriminate|vm_compute; reflexivity]].
  do 3 (constructor; [split; [apply K; vm_compute; reflexivity|vm_compute; reflexivity]|]). constructor.
Qed.
Example C188_nonvacuous : exists u, Uri.URI (lit "/other/Products") = Ok u /\ absPath u = Some (lit "/other/Products") /\
  forall r, lit "/other/Products" <> lit "/x.svc" ++ r.
Proof. eexists. split; [vm_compute; reflexivity|]. split; [reflexivity|]. intros r. discriminate. Qed.
(** The path of another service is served *)
Theorem C188_refuted : ~ forall s r, uri_read s (lit "/x.svc") = UOk r -> (forall t, s <> lit "/x.svc/" ++ t) -> s <> lit "/x.svc" -> r_resource str str r = None.
Proof.
  intros H. destruct (uri_read (lit "/x.svc2/Products") (lit "/x.svc")) as [r|e] eqn:E; [|vm_compute in E; discriminate E].
  specialize (H _ _ E). vm_compute in E. injection E as <-. cbv beta iota in H. assert (forall t, lit "/x.svc2/Products" <> lit "/x.svc/" ++ t) as K by (intros t; discriminate).
  specialize (H K ltac:(discriminate)). discriminate H.
Qed.

Print Assumptions C183_location_partial.
Print Assumptions C183_served_partial.
Print Assumptions C183_refuted.
Print Assumptions C183_parts_refuted.
Print Assumptions C183_http_refuted.
Print Assumptions C184_paths_partial.
Print Assumptions C184_refuted.
Print Assumptions C185_options.
Print Assumptions C185_refused.
Print Assumptions C185_accepted.
Print Assumptions C186_expand.
Print Assumptions C186_expand_refuses.
Print Assumptions C186_select.
Print Assumptions C186_select_refuses.
Print Assumptions C186_expand_written.
Print Assumptions C186_select_written.
Print Assumptions C186_canonical.
Print Assumptions C187_options.
Print Assumptions C188_others_partial.
Print Assumptions C188_ours.
Print Assumptions C188_refuted.
