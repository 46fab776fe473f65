(** Source positions and source text of nodes: C26, C27, C28, C47.
    The vocabulary is in SpecPos.v and SpecChunks.v.  Locations are stored in
    32 bits (ast/mod.rs, [Loc]), hence the bound on the length of the source. *)
From Coq Require Import List NArith Bool String Lia.
From Coq.Strings Require Import Byte.
From Verif Require Import Bytes Token Lexer Ast SpecLexer SpecTokens SpecRead SpecTree SpecChunks SpecPos Parser
  LexerFacts ConsumeFacts LexProps StateFacts ChunkText PosFacts NodeText.
Import ListNotations.
Open Scope nat_scope.
Open Scope list_scope.

(** ** C26: every node is a part of the source *)
Theorem C26_nodes_in_source : forall (alnum : N -> bool) (src : str) (m : module) (a : any),
  (N.of_nat (List.length src) < 4294967296)%N ->
  parses_to alnum src (ParseOk m) -> in_module a m -> located src a.
Proof. intros alnum src m a S H I. exact (proj1 (parse_located alnum src m a S H I)). Qed.
Print Assumptions C26_nodes_in_source.

(** ** C27: the claim that every child lies inside its parent is false: a call
    starts at its opening parenthesis, after the function it calls. *)
Theorem C27_nest_refuted : forall alnum : N -> bool, exists m a c,
  parses_to alnum (bs "a(b)") (ParseOk m) /\ in_module a m /\ In c (children a) /\ ~ inside c a /\
  start_of a = 1%N /\ start_of c = 0%N.
Proof.
  intros alnum. eexists. do 2 eexists. split; [exists 100; vm_compute; reflexivity|]. split.
  { eexists. split; [left; reflexivity|]. eapply within_child; [left; reflexivity|]. apply within_refl. }
  split; [left; reflexivity|]. split; [|split; reflexivity].
  intros [K _]. vm_compute in K. now apply K.
Qed.
Print Assumptions C27_nest_refuted.
(** All other children lie inside their parents, and no child ends after its parent. *)
Theorem C27_nest_partial : forall (alnum : N -> bool) (src : str) (m : module) (a c : any),
  (N.of_nat (List.length src) < 4294967296)%N ->
  parses_to alnum src (ParseOk m) -> in_module a m -> In c (children a) ->
  (inside c a \/ callee_of c a) /\ (end_of c <= end_of a)%N.
Proof. intros alnum src m a c S H I. exact (proj2 (parse_located alnum src m a S H I) c). Qed.
Print Assumptions C27_nest_partial.

(** The statements of a module are in the order of their starts. *)
Theorem C27_statement_order : forall (alnum : N -> bool) (src : str) (m : module),
  (N.of_nat (List.length src) < 4294967296)%N ->
  parses_to alnum src (ParseOk m) -> ascending (map (@n_start statement) m).
Proof. intros alnum src m S H. exact (proj2 (parse_positions alnum src m S H)). Qed.
Print Assumptions C27_statement_order.

(** ** C28: the text a name or literal spans.  The name of a property access is
    located at the token that follows it. *)
Theorem C28_names_refuted : forall alnum : N -> bool, exists m a i,
  parses_to alnum (bs "a.b+c") (ParseOk m) /\ in_module a m /\ In (A_Ident i) (children a) /\
  n_item i = bs "b" /\ source_of (bs "a.b+c") (A_Ident i) = bs "+".
Proof.
  intros alnum. eexists. do 2 eexists. split; [exists 100; vm_compute; reflexivity|]. split.
  { eexists. split; [left; reflexivity|]. eapply within_child; [left; reflexivity|].
    eapply within_child; [left; reflexivity|]. apply within_refl. }
  split; [right; left; reflexivity|]. split; vm_compute; reflexivity.
Qed.
Print Assumptions C28_names_refuted.
(** Every identifier expression, identifier pattern, shorthand property and
    literal spans exactly its own text. *)
Theorem C28_spelled : forall (alnum : N -> bool) (src : str) (m : module) (a : any) (s : str),
  (N.of_nat (List.length src) < 4294967296)%N ->
  parses_to alnum src (ParseOk m) -> in_module a m -> spelled a = Some s -> source_of src a = s.
Proof. intros alnum src m a s S H I. exact (proj1 (parse_spelled alnum src m a S H I) s). Qed.
Print Assumptions C28_spelled.
(** So does every name held by a node (function and class names, labels, ...),
    except those of property accesses, of [new.target] and template chunks. *)
Theorem C28_names_partial : forall (alnum : N -> bool) (src : str) (m : module) (a : any) (i : node str),
  (N.of_nat (List.length src) < 4294967296)%N ->
  parses_to alnum src (ParseOk m) -> in_module a m -> In (A_Ident i) (children a) -> ~ names_elsewhere a ->
  source_of src (A_Ident i) = n_item i.
Proof. intros alnum src m a i S H I. exact (proj1 (proj2 (parse_spelled alnum src m a S H I)) i). Qed.
Print Assumptions C28_names_partial.

(** ** C47: template chunks and property names *)
(** The lexer: a template token is a backquote, the chunk and its delimiter ... *)
Theorem C47_template_token : forall (alnum : N -> bool) (src : str) (lx lx' : lexer),
  lexer_reach alnum src lx -> consume alnum lx = Done lx' ->
  In (lx_token lx') [T_TemplateOpen; T_TemplateClosed] ->
  chunk (lx_token lx') (bs "`") (lx_quasi lx') (token_as_str lx').
Proof.
  intros alnum src lx lx' R H I. apply consume_chunk in H; [|apply (li_ok _ _ (lexer_reach_inv _ _ _ R))].
  destruct I as [E|[E|[]]]; rewrite <- E; apply H; auto.
Qed.
Print Assumptions C47_template_token.
(** ... a later chunk begins with the token it was read at (the parser only reads one at a closing brace) ... *)
Theorem C47_template_rest : forall (alnum : N -> bool) (src : str) (lx lx' : lexer),
  lexer_reach alnum src lx -> read_template_kind lx = Done lx' ->
  lx_token lx' = T_UnexpectedEndOfProgram \/
  chunk (lx_token lx') (token_as_str lx) (lx_quasi lx') (token_as_str lx').
Proof.
  intros alnum src lx lx' R H. apply template_chunk in H; auto. apply (li_fwd _ _ (lexer_reach_inv _ _ _ R)).
Qed.
Print Assumptions C47_template_rest.
(** ... and an accessor token is a period, blanks and the name. *)
Theorem C47_accessor_token : forall (alnum : N -> bool) (src : str) (lx lx' : lexer),
  lexer_reach alnum src lx -> consume alnum lx = Done lx' -> lx_token lx' = T_Accessor ->
  accessor (accessor_as_str lx') (token_as_str lx').
Proof.
  intros alnum src lx lx' R H E. apply consume_chunk in H; [|apply (li_ok _ _ (lexer_reach_inv _ _ _ R))]. now apply H.
Qed.
Print Assumptions C47_accessor_token.
(** The tree: the chunks of every template, in order, with the text each of them spans. *)
Theorem C47_chunks : forall (alnum : N -> bool) (src : str) (m : module) (a : any) (es : list expr_node) (qs : list (node str)),
  (N.of_nat (List.length src) < 4294967296)%N ->
  parses_to alnum src (ParseOk m) -> in_module a m -> template_of a = Some (Template es qs) -> chunks src (bs "`") qs.
Proof. intros alnum src m a es qs S H I. exact (proj1 (proj2 (proj2 (parse_spelled alnum src m a S H I))) es qs). Qed.
Print Assumptions C47_chunks.
(** The name in [o.name] is the one written in front of the token the name is located at. *)
Theorem C47_member_name : forall (alnum : N -> bool) (src : str) (m : module) (n o : expr_node) (p : node str),
  (N.of_nat (List.length src) < 4294967296)%N ->
  parses_to alnum src (ParseOk m) -> in_module (A_Expr n) m -> n_item n = E_Member o p ->
  after_accessor src (n_item p) (n_start p).
Proof.
  intros alnum src m n o p S H I. exact (proj1 (proj2 (proj2 (proj2 (parse_spelled alnum src m _ S H I)))) n o p eq_refl).
Qed.
Print Assumptions C47_member_name.
Theorem C47_meta_name : forall (alnum : N -> bool) (src : str) (m : module) (n : expr_node) (o p : node str),
  (N.of_nat (List.length src) < 4294967296)%N ->
  parses_to alnum src (ParseOk m) -> in_module (A_Expr n) m -> n_item n = E_MetaProperty o p ->
  accessor (n_item p) (source_of src (A_Ident p)).
Proof.
  intros alnum src m n o p S H I. exact (proj2 (proj2 (proj2 (proj2 (parse_spelled alnum src m _ S H I)))) n o p eq_refl).
Qed.
Print Assumptions C47_meta_name.

(** ** The hypotheses are met *)
Definition positions_sample : str := bs "f(`a${x. y}\`b`, new.target)".
Example positions_nonvacuous : exists m f args n2 n3 es qs o p,
  parses_to (fun _ => true) positions_sample (ParseOk m) /\
  in_module (A_Expr n2) m /\ in_module (A_Expr n3) m /\
  n_item n2 = E_Call f args /\ callee_of (A_Expr f) (A_Expr n2) /\
  (exists a, In a args /\ template_of (A_Expr a) = Some (Template es qs) /\ map n_item qs = [bs "a"; bs "\`b"] /\ In n3 es) /\
  n_item n3 = E_Member o p /\ n_item p = bs "y" /\ source_of positions_sample (A_Expr o) = bs "x".
Proof.
  do 9 eexists. split; [exists 100; vm_compute; reflexivity|]. split.
  { eexists. split; [left; reflexivity|]. eapply within_child; [left; reflexivity|]. apply within_refl. }
  split.
  { eexists. split; [left; reflexivity|]. eapply within_child; [left; reflexivity|].
    eapply within_child; [right; left; reflexivity|]. eapply within_child; [left; reflexivity|]. apply within_refl. }
  split; [reflexivity|]. split; [do 3 eexists; split; [reflexivity|]; split; reflexivity|].
  split.
  { eexists. split; [left; reflexivity|]. split; [reflexivity|]. split; [reflexivity|left; reflexivity]. }
  split; [reflexivity|]. split; vm_compute; reflexivity.
Qed.
Example meta_nonvacuous : exists m n o p,
  parses_to (fun _ => true) (bs "new . target") (ParseOk m) /\ in_module (A_Expr n) m /\
  n_item n = E_MetaProperty o p /\ source_of (bs "new . target") (A_Ident p) = bs ". target".
Proof.
  do 4 eexists. split; [exists 100; vm_compute; reflexivity|]. split.
  { eexists. split; [left; reflexivity|]. eapply within_child; [left; reflexivity|]. apply within_refl. }
  split; [reflexivity|]. vm_compute. reflexivity.
Qed.
