(** A tokenizer and a parser for the texts of the built-in fixers, and a file, for
    the non-vacuity examples. *)
From Verif Require Import TemplateProofs Py PyFacts Subst ApplySpec Ast Template FromDiff Matcher MatchSpec MatcherProofs FindSpec FindProofs
  NavSpec NavProofs PatTok PatSpec PatTokProofs LexProofs Pattern PatternSpec EquivProofs PatternProofs PatternApi
  PyTemplate PyTemplateSpec PyTemplateProofs Search SearchSpec Removal OwnSpec SampleTrees PropsPattern
  PropsTemplate ExprSubSpec ExprSubProofs PropsExprSub Fixer FixerSpec FixerProofs PyCode BuiltinFixers BuiltinSpec CodeProofs BuiltinProofs BuiltinApply BuiltinTables BuiltinMain CorrectnessSpec CorrectnessProofs CorrectnessMain IdiomSpec.
From Coq Require Import Permutation.

(** *** Tokens *)
Definition q_tokenize (s : text) : res (list ptok) :=
  let gl := line_tokens (firstn (length s - 1) s) in
  if lineb (1, 0) gl && text_eqb (spelling gl) s then Ok (map snd gl) else Err SyntaxError.
Lemma q_plain s : plain_source q_tokenize s.
Proof.
  intros toks. unfold q_tokenize. set (s' := if negb (endswith [NL] s) then _ else _). clearbody s'.
  destruct (lineb _ _) eqn:L; [|discriminate]. destruct (text_eqb_spec (spelling (line_tokens (firstn (length s' - 1) s'))) s') as [E|]; [|discriminate].
  cbn [andb]. intros [= <-]. eexists. split; [reflexivity|]. split; [now apply lineb_spelled|exact E].
Qed.
Lemma q_tokens c : lexed c -> q_tokenize (source c ++ [NL]) = Ok (map snd (line_tokens (source c))).
Proof.
  intros L. unfold q_tokenize. rewrite app_length. cbn [length]. rewrite Nat.add_sub. rewrite firstn_app, firstn_all, Nat.sub_diag. cbn [firstn]. rewrite app_nil_r.
  rewrite (lx_line c L), (lx_text c L). rewrite (proj2 (text_eqb_eq _ _)); reflexivity.
Qed.

(** *** Trees *)
Definition q_node (id : Z) (ty : text) (fs : list (text * value)) : value := VNode (NI id ty (Some 1) None None) fs.
Definition q_name (id : Z) (store : bool) (n : text) : value :=
  q_node id (TX "Name") [(TX "id", ident (id + 1) n); (TX "ctx", q_node (id + 2) (if store then TX "Store" else TX "Load") [])].
Definition q_list {A} (b : A -> Z -> value * Z) : list A -> Z -> list value * Z :=
  fix go l k := match l with
                | [] => ([], k)
                | x :: r => let '(v, k1) := b x k in let '(vs, k2) := go r k1 in (v :: vs, k2)
                end.
Fixpoint build {A} (f : A -> text) (store : bool) (c : code A) (k : Z) : value * Z :=
  match c with
  | Var a => (q_name k store (f a), k + 3)
  | Name n => (q_name k store n, k + 3)
  | Int n => (q_node k (TX "Constant") [(TX "value", VConst (k + 1) (CNum KInt (2 * n))); (TX "kind", VConst (k + 2) CNone)], k + 3)
  | Attr e a =>
      let '(v, k1) := build f false e (k + 3) in
      (q_node k (TX "Attribute") [(TX "value", v); (TX "attr", ident (k + 1) a); (TX "ctx", load (k + 2))], k1)
  | Call g args =>
      let '(v, k1) := build f false g (k + 3) in
      let '(vs, k2) := q_list (build f false) args k1 in
      (q_node k (TX "Call") [(TX "func", v); (TX "args", VList (k + 1) vs); (TX "keywords", VList (k + 2) [])], k2)
  | Compare op l r =>
      let '(v, k1) := build f false l (k + 4) in
      let '(w, k2) := build f false r k1 in
      (q_node k (TX "Compare") [(TX "left", v); (TX "ops", VList (k + 1) [q_node (k + 2) (cmp_type op) []]); (TX "comparators", VList (k + 3) [w])], k2)
  | Not e =>
      let '(v, k1) := build f false e (k + 2) in
      (q_node k (TX "UnaryOp") [(TX "op", q_node (k + 1) (TX "Not") []); (TX "operand", v)], k1)
  | ListComp e t i | SetComp e t i =>
      let '(v, k1) := build f false e (k + 5) in
      let '(w, k2) := build f true t k1 in
      let '(u, k3) := build f false i k2 in
      (q_node k (match c with ListComp _ _ _ => TX "ListComp" | _ => TX "SetComp" end)
         [(TX "elt", v); (TX "generators", VList (k + 1)
            [q_node (k + 2) (TX "comprehension")
               [(TX "target", w); (TX "iter", u); (TX "ifs", VList (k + 3) []); (TX "is_async", VConst (k + 4) (CNum KInt 0))]])], k3)
  | Mod l r =>
      let '(v, k1) := build f false l (k + 2) in
      let '(w, k2) := build f false r k1 in
      (q_node k (TX "BinOp") [(TX "left", v); (TX "op", q_node (k + 1) (TX "Mod") []); (TX "right", w)], k2)
  | Tuple1 e =>
      let '(v, k1) := build f false e (k + 3) in
      (q_node k (TX "Tuple") [(TX "elts", VList (k + 1) [v]); (TX "ctx", load (k + 2))], k1)
  | CallKw g args n e =>
      let '(v, k1) := build f false g (k + 5) in
      let '(vs, k2) := q_list (build f false) args k1 in
      let '(w, k3) := build f false e k2 in
      (q_node k (TX "Call") [(TX "func", v); (TX "args", VList (k + 1) vs);
         (TX "keywords", VList (k + 2) [q_node (k + 3) (TX "keyword") [(TX "arg", ident (k + 4) n); (TX "value", w)]])], k3)
  | EmptyList => (q_node k (TX "List") [(TX "elts", VList (k + 1) []); (TX "ctx", load (k + 2))], k + 3)
  | EmptyDict => (q_node k (TX "Dict") [(TX "keys", VList (k + 1) []); (TX "values", VList (k + 2) [])], k + 3)
  | Assign t e =>
      let '(w, k1) := build f true t (k + 3) in
      let '(v, k2) := build f false e k1 in
      (q_node k (TX "Assign") [(TX "targets", VList (k + 1) [w]); (TX "value", v); (TX "type_comment", VConst (k + 2) CNone)], k2)
  | Do e => let '(v, k1) := build f false e (k + 1) in (q_node k (TX "Expr") [(TX "value", v)], k1)
  end.
Lemma q_name_is id store n : is_name (q_name id store n) n.
Proof. do 3 eexists. split; [reflexivity|]. split; reflexivity. Qed.
Lemma q_list_cons {A} (b : A -> Z -> value * Z) x r k :
  q_list b (x :: r) k = let '(v, k1) := b x k in let '(vs, k2) := q_list b r k1 in (v :: vs, k2).
Proof. reflexivity. Qed.
Lemma q_list_reads {A} (f : A -> text) R args : Forall (fun c => forall store k, reads R c (fst (build f store c k))) args ->
  forall k, Forall2 (stands R) (map tree_of args) (fst (q_list (build f false) args k)).
Proof.
  induction 1 as [|c args H _ IH]; intros k; [constructor|]. rewrite q_list_cons. cbn [map]. specialize (H false k).
  destruct (build f false c k) as [v k1]. specialize (IH k1).
  destruct (q_list (build f false) args k1) as [vs k2]. constructor; [exact H|exact IH].
Qed.
Ltac q_fields := repeat (apply Forall2_cons; [split; [reflexivity|cbn [fst snd]]|]); [..|apply Forall2_nil].
Lemma build_reads {A} (f : A -> text) (c : code A) : forall store k, reads (fun x v => is_name v (f x)) c (fst (build f store c k)).
Proof.
  unfold reads.
  assert (Sn : forall n store k, stands (fun x v => is_name v (f x)) (tree_of (Name n)) (q_name k store n)).
  { intros n store k. apply ST_node; [reflexivity|]. q_fields; [apply ST_const; cbn; now apply text_eqb_eq|apply ST_context; now destruct store]. }
  induction c as [a|n|n|e a IH|g args IHf IHa|o l r IHl IHr|e IH|e t i He Ht Hi|e t i He Ht Hi|l r IHl IHr|e IH|g args n e IHf IHa IH| | |t e Ht He|e IH] using code_ind'; intros store k; cbn [build].
  - apply ST_var. apply q_name_is.
  - apply Sn.
  - apply ST_node; [reflexivity|]. q_fields; apply ST_const; [apply Z.eqb_refl|reflexivity].
  - specialize (IH false (k + 3)). destruct (build f false e (k + 3)) as [v k1]. apply ST_node; [reflexivity|]. q_fields; [exact IH|apply ST_const; cbn; now apply text_eqb_eq|now apply ST_context].
  - specialize (IHf false (k + 3)). destruct (build f false g (k + 3)) as [v k1]. pose proof (q_list_reads f _ args IHa k1) as IHl.
    destruct (q_list (build f false) args k1) as [vs k2]. apply ST_node; [reflexivity|]. q_fields; [exact IHf|apply ST_list; exact IHl|apply ST_list; constructor].
  - specialize (IHl false (k + 4)). destruct (build f false l (k + 4)) as [v k1]. specialize (IHr false k1). destruct (build f false r k1) as [w k2].
    apply ST_node; [reflexivity|]. q_fields; [exact IHl|apply ST_list; constructor; [apply ST_node; [reflexivity|constructor]|constructor]|apply ST_list; constructor; [exact IHr|constructor]].
  - specialize (IH false (k + 2)). destruct (build f false e (k + 2)) as [v k1]. apply ST_node; [reflexivity|]. q_fields; [apply ST_node; [reflexivity|constructor]|exact IH].
  - specialize (He false (k + 5)). destruct (build f false e (k + 5)) as [v k1]. specialize (Ht true k1). destruct (build f true t k1) as [w k2].
    specialize (Hi false k2). destruct (build f false i k2) as [u k3]. apply ST_node; [reflexivity|]. q_fields; [exact He|]. apply ST_list. constructor; [|constructor].
    apply ST_node; [reflexivity|]. q_fields; [exact Ht|exact Hi|apply ST_list; constructor|now apply ST_const].
  - specialize (He false (k + 5)). destruct (build f false e (k + 5)) as [v k1]. specialize (Ht true k1). destruct (build f true t k1) as [w k2].
    specialize (Hi false k2). destruct (build f false i k2) as [u k3]. apply ST_node; [reflexivity|]. q_fields; [exact He|]. apply ST_list. constructor; [|constructor].
    apply ST_node; [reflexivity|]. q_fields; [exact Ht|exact Hi|apply ST_list; constructor|now apply ST_const].  - specialize (IHl false (k + 2)). destruct (build f false l (k + 2)) as [v k1]. specialize (IHr false k1). destruct (build f false r k1) as [w k2].
    apply ST_node; [reflexivity|]. q_fields; [exact IHl|apply ST_node; [reflexivity|constructor]|exact IHr].
  - specialize (IH false (k + 3)). destruct (build f false e (k + 3)) as [v k1]. apply ST_node; [reflexivity|].
    q_fields; [apply ST_list; constructor; [exact IH|constructor]|now apply ST_context].
  - specialize (IHf false (k + 5)). destruct (build f false g (k + 5)) as [v k1]. pose proof (q_list_reads f _ args IHa k1) as IHl.
    destruct (q_list (build f false) args k1) as [vs k2]. specialize (IH false k2). destruct (build f false e k2) as [w k3].
    apply ST_node; [reflexivity|]. q_fields; [exact IHf|apply ST_list; exact IHl|apply ST_list; constructor; [|constructor]].
    apply ST_node; [reflexivity|]. q_fields; [apply ST_const; cbn; now apply text_eqb_eq|exact IH].
  - apply ST_node; [reflexivity|]. q_fields; [apply ST_list; constructor|now apply ST_context].
  - apply ST_node; [reflexivity|]. q_fields; apply ST_list; constructor.
  - specialize (Ht true (k + 3)). destruct (build f true t (k + 3)) as [w k1]. specialize (He false k1). destruct (build f false e k1) as [v k2].
    apply ST_node; [reflexivity|]. q_fields; [apply ST_list; constructor; [exact Ht|constructor]|exact He|now apply ST_const].
  - specialize (IH false (k + 1)). destruct (build f false e (k + 1)) as [v k1]. apply ST_node; [reflexivity|]. q_fields. exact IH.
Qed.
(** *** Reading the new names *)
Definition is_gensym (w : text) : bool := text_eqb (firstn 6 w) (TX "gensym").
Definition flush (w : text) : text * list text := if is_gensym w then ([36], [w]) else (w, []).
Definition plus {A} (a b : text * list A) : text * list A := (fst a ++ fst b, snd a ++ snd b).
(** The text with a [$] in the place of the new names, and these. *)
Fixpoint scan (w : text) (s : text) : text * list text :=
  match s with
  | [] => flush w
  | c :: r => if is_ident_char c then scan (w ++ [c]) r else plus (flush w) (plus ([c], []) (scan [] r))
  end.
Definition chars {A} (ps : list (text + A)) : list (Z + A) :=
  flat_map (fun p => match p with inl s => map inl s | inr a => [inr a] end) ps.
Definition spell {A} (f : A -> text) (l : list (Z + A)) : text := flat_map (fun q => match q with inl z => [z] | inr a => f a end) l.
Lemma show_chars {A} (f : A -> text) c : show f c = spell f (chars (pieces c)).
Proof.
  unfold show, spell, chars. induction (pieces c) as [|[s|a] ps IH]; [reflexivity| |].
  - cbn [map concat flat_map]. rewrite flat_map_app. rewrite <- IH. f_equal. clear. induction s as [|z s IH]; [reflexivity|]. cbn. now rewrite <- IH.
  - cbn [map concat flat_map app]. now rewrite IH.
Qed.
Definition flush' {A} (st : text + A) : option (text * list A) :=
  match st with inl w => if is_gensym w then None else Some (w, []) | inr a => Some ([36], [a]) end.
Fixpoint sym {A} (st : text + A) (l : list (Z + A)) : option (text * list A) :=
  match l with
  | [] => flush' st
  | inl z :: r =>
      if is_ident_char z then match st with inl w => sym (inl (w ++ [z])) r | inr _ => None end
      else match flush' st, sym (inl []) r with Some a, Some b => Some (plus a (plus ([z], []) b)) | _, _ => None end
  | inr a :: r => match st with inl [] => sym (inr a) r | _ => None end
  end.
Definition named {A} (f : A -> text) (a : text * list A) : text * list text := (fst a, map f (snd a)).
Lemma named_plus {A} (f : A -> text) a b : named f (plus a b) = plus (named f a) (named f b).
Proof. unfold named, plus. cbn. now rewrite map_app. Qed.
Lemma scan_word n : forallb is_ident_char n = true -> forall w s, scan w (n ++ s) = scan (w ++ n) s.
Proof.
  induction n as [|c n IH]; intros H w s; [now rewrite app_nil_r|]. cbn [forallb] in H. apply andb_prop in H as [H1 H2].
  cbn [app scan]. rewrite H1, (IH H2). now rewrite <- app_assoc.
Qed.
Lemma variable_chars n : is_variable n = true -> forallb is_ident_char n = true.
Proof.
  destruct n as [|c n]; [discriminate|]. cbn [is_variable forallb]. intros H. apply andb_prop in H as [H1 H2]. rewrite H2, andb_true_r.
  unfold is_ident_char. now rewrite H1.
Qed.
Lemma invented_gensym n : invented n -> is_gensym n = true.
Proof. intros [_ (r & ->)]. reflexivity. Qed.
Lemma sym_scan {A} (f : A -> text) : (forall a, invented (f a)) -> forall l st a, sym st l = Some a ->
  scan (match st with inl w => w | inr a => f a end) (spell f l) = named f a.
Proof.
  intros Hf. assert (Fl : forall st a, flush' st = Some a -> flush (match st with inl w => w | inr a => f a end) = named f a).
  { intros [w|x] a; cbn [flush']; unfold flush.
    - destruct (is_gensym w); [discriminate|]. intros [= <-]. reflexivity.
    - intros [= <-]. now rewrite (invented_gensym _ (Hf x)). }
  induction l as [|[z|x] l IH]; intros st a H; cbn [sym] in H.
  - now apply Fl.
  - change (spell f (inl z :: l)) with (z :: spell f l). cbn [scan]. destruct (is_ident_char z).
    + destruct st as [w|]; [|discriminate H]. exact (IH _ _ H).
    + destruct (flush' st) as [b|] eqn:E; [|discriminate H]. destruct (sym (inl []) l) as [d|] eqn:E'; [|discriminate H]. injection H as <-.
      rewrite (Fl _ _ E), (IH _ _ E'). rewrite !named_plus. reflexivity.
  - destruct st as [[|]|]; try discriminate H. change (spell f (inr x :: l)) with (f x ++ spell f l).
    rewrite scan_word by apply variable_chars, Hf. exact (IH _ _ H).
Qed.

(** *** The parser *)
Definition q_codes : list (code label * code label) := all_codes ++ entry_codes.
Definition q_table : list (code label) :=
  flat_map (fun oc => [fst oc; snd oc]) q_codes ++ [Attr (Name (TX "attr")) (TX "ib"); EmptyList; EmptyDict; Call (Name (TX "set")) []]
  ++ flat_map (fun oc => [fst oc; snd oc]) constant_codes ++ [logging_error; Do logging_exception; logs_exception (TX "arg");
      Call (Var (TX "current_expr")) [Name (TX "e")];
      Call (Attr (Name (TX "self")) (TX "assertTrue")) [Var (TX "current_expr")]; Compare NotIn (Name (TX "a")) (Name (TX "b"))].
Definition q_key (c : code label) : text := fst (scan [] (show (fun _ => TX "gensym") c)).
Definition q_find (k : text) : option (code label) := find (fun c => text_eqb (q_key c) k) q_table.
Definition q_body (v : value) : value := q_node 1 (TX "Module") [(TX "body", VList 2 [v]); (TX "type_ignores", VList 4 [])].
Definition q_module (v : value) : value := q_body (q_node 3 (TX "Expr") [(TX "value", v)]).
Definition is_statement {A} (c : code A) : bool := match c with Assign _ _ | Do _ => true | _ => false end.
Definition q_program {A} (c : code A) (v : value) : value := if is_statement c then q_body v else q_module v.
Definition q_kind {A} (c : code A) : template_kind := if is_statement c then KStmt else KExpr.
Definition q_names (xs : list label) (ns : list text) (x : label) : text :=
  match dget (combine xs ns) x with Some n => n | None => [] end.
Definition q_parse (s : text) : res value :=
  let '(k, ns) := scan [] s in
  match q_find k with
  | Some c => Ok (q_program c (fst (build (q_names (left_open c) ns) false c 10)))
  | None => Err SyntaxError
  end.
Ltac each := repeat (apply Forall_cons; [vm_compute; reflexivity|]); apply Forall_nil.
Lemma q_found : Forall (fun c => exists c', q_find (q_key c) = Some c' /\ is_statement c' = is_statement c
  /\ forall rename, build (q_names (left_open c') (map rename (left_open c))) false c' 10 = build rename false c 10) q_table.
Proof. repeat (apply Forall_cons; [eexists; split; [vm_compute; reflexivity|split; [reflexivity|intros rename; vm_compute; reflexivity]]|]); apply Forall_nil. Qed.
Lemma q_syms : Forall (fun c => sym (inl []) (chars (pieces c)) = Some (q_key c, left_open c)) q_table.
Proof. each. Qed.
Lemma q_tree_as c : In c q_table -> forall rename module p, (forall x, invented (rename x)) ->
  q_parse (show rename c) = Ok module -> pull_of (q_kind c) module = Ok p -> reads (fun x v => is_name v (rename x)) c p.
Proof.
  intros Hc rename module p Hr H Hp. pose proof q_found as F. pose proof q_syms as S. rewrite Forall_forall in F, S.
  unfold q_parse in H. rewrite show_chars in H. pose proof (sym_scan rename Hr _ _ _ (S c Hc)) as E. cbn beta iota in E.
  rewrite E in H. unfold named in H. cbn [fst snd] in H. destruct (F c Hc) as (c' & Ef & Es & Eb). rewrite Ef in H. injection H as <-.
  unfold q_program in Hp. rewrite Es in Hp. unfold q_kind in Hp. destruct (is_statement c); cbn in Hp; injection Hp as <-; rewrite Eb; apply build_reads.
Qed.
Lemma q_tree c : In c q_table -> is_statement c = false -> forall rename module p, (forall x, invented (rename x)) ->
  q_parse (show rename c) = Ok module -> pull_expr module = Ok p -> reads (fun x v => is_name v (rename x)) c p.
Proof. intros Hc Hs. pose proof (q_tree_as c Hc) as K. unfold q_kind in K. now rewrite Hs in K. Qed.
Lemma q_expressions : Forall (fun oc : code label * code label => is_statement (fst oc) = false /\ is_statement (snd oc) = false) q_codes.
Proof. apply Forall_forall. intros oc Hin. assert (K : forallb (fun oc : code label * code label => negb (is_statement (fst oc)) && negb (is_statement (snd oc))) q_codes = true) by (vm_compute; reflexivity).
  rewrite forallb_forall in K. specialize (K _ Hin). apply andb_prop in K as [K1 K2]. now apply negb_true_iff in K1, K2. Qed.
Lemma q_understood_all : Forall (fun oc => lexed (fst oc) /\ lexed (snd oc)) q_codes ->
  Forall (fun oc => understood q_tokenize q_parse (fst oc) /\ understood q_tokenize q_parse (snd oc)) q_codes.
Proof.
  intros L. pose proof q_expressions as E. rewrite Forall_forall in *. intros oc Hoc. destruct (L _ Hoc) as [L1 L2], (E _ Hoc) as [E1 E2].
  split; (constructor; [now apply q_tokens|]; apply q_tree; [apply in_or_app; left; apply in_flat_map; exists oc; split; [exact Hoc|cbn; auto]|assumption]).
Qed.
Lemma q_understood : Forall (fun oc => understood q_tokenize q_parse (fst oc) /\ understood q_tokenize q_parse (snd oc)) all_codes.
Proof.
  pose proof all_lexed as L. pose proof entry_lexed as L'.
  assert (K : Forall (fun oc => lexed (fst oc) /\ lexed (snd oc)) q_codes) by (apply Forall_app; auto).
  apply q_understood_all in K. now apply Forall_app in K.
Qed.

(** *** The grammar *)
Definition q_classes : list (text * list (text * bool)) :=
  [(TX "Module", [(TX "body", true); (TX "type_ignores", true)]);
   (TX "Expr", [(TX "value", false)]);
   (TX "Name", [(TX "id", false); (TX "ctx", false)]);
   (TX "Constant", [(TX "value", false); (TX "kind", false)]);
   (TX "Attribute", [(TX "value", false); (TX "attr", false); (TX "ctx", false)]);
   (TX "Call", [(TX "func", false); (TX "args", true); (TX "keywords", true)]);
   (TX "Compare", [(TX "left", false); (TX "ops", true); (TX "comparators", true)]);
   (TX "UnaryOp", [(TX "op", false); (TX "operand", false)]);
   (TX "ListComp", [(TX "elt", false); (TX "generators", true)]);
   (TX "SetComp", [(TX "elt", false); (TX "generators", true)]);
   (TX "comprehension", [(TX "target", false); (TX "iter", false); (TX "ifs", true); (TX "is_async", false)]);
   (TX "BinOp", [(TX "left", false); (TX "op", false); (TX "right", false)]);
   (TX "Tuple", [(TX "elts", true); (TX "ctx", false)]);
   (TX "List", [(TX "elts", true); (TX "ctx", false)]);
   (TX "Dict", [(TX "keys", true); (TX "values", true)]);
   (TX "keyword", [(TX "arg", false); (TX "value", false)]);
   (TX "Assign", [(TX "targets", true); (TX "value", false); (TX "type_comment", false)]);
   (TX "Set", [(TX "elts", true)]);
   (TX "Return", [(TX "value", false)]);
   (TX "Try", [(TX "body", true); (TX "handlers", true); (TX "orelse", true); (TX "finalbody", true)]);
   (TX "ExceptHandler", [(TX "type", false); (TX "name", false); (TX "body", true)]);
   (TX "IfExp", [(TX "test", false); (TX "body", false); (TX "orelse", false)])].
Definition q_grammar (ty : text) : list (text * bool) := match dget q_classes ty with Some fs => fs | None => [] end.
Lemma q_class ty : In (q_grammar ty) (map snd q_classes) \/ q_grammar ty = [].
Proof. unfold q_grammar. destruct (dget q_classes ty) eqn:E; [left|now right]. apply dget_In in E. now apply (in_map snd) in E. Qed.
Lemma q_proper : proper q_grammar.
Proof.
  intros ty. destruct (q_class ty) as [H| ->]; [|constructor]. cbn [map snd q_classes] in H.
  repeat (destruct H as [<-|H]; [cbn [map fst]; repeat (constructor; [intros K; repeat destruct K as [K|K]; try discriminate K; destruct K|]); constructor|]). destruct H.
Qed.
Definition q_context (ty f : text) : option text :=
  Some (if text_eqb ty (TX "comprehension") && text_eqb f (TX "target") then TX "Store" else TX "Load").
Lemma q_context_ok : context_grammar q_grammar q_context.
Proof.
  split; [|discriminate]. intros ty pre post b H. destruct (q_class ty) as [K|K]; [|rewrite K in H; destruct pre; discriminate H].
  cbn [map snd q_classes] in K.
  repeat (destruct K as [K|K]; [rewrite <- K in H;
    repeat (destruct pre as [|? pre]; cbn in H; [try discriminate H; try (injection H; now intros)|injection H as _ H]);
    try discriminate H; destruct pre; discriminate H|]). destruct K.
Qed.
Fixpoint regularb (v : value) : bool :=
  match v with
  | VConst _ _ => true
  | VList _ l => forallb (fun x => negb (is_ctx x)) l && forallb (fun b => b) (map regularb l)
  | VNode i fs =>
      forallb (fun b => b) (map (fun kv =>
        if text_eqb (fst kv) (TX "ctx") then is_ctx (snd kv) && (length (vchildren (snd kv)) =? 0)%nat
        else negb (is_ctx (snd kv)) && regularb (snd kv)
             && match context_of (snd kv), q_context (n_type i) (fst kv) with None, _ => true | Some c, Some d => text_eqb c d | _, _ => false end) fs)
  end.
Lemma regularb_ok v : regularb v = true -> regular q_context v.
Proof.
  induction v as [i fs IH|id l IH|id k] using value_ind'; intros H; cbn [regularb] in H.
  - apply RG_node. rewrite Forall_forall in *. rewrite forallb_forall in H. intros kv Hk.
    specialize (H _ (in_map _ _ _ Hk)). cbn beta in H. destruct (text_eqb_spec (fst kv) (TX "ctx")) as [E|E].
    + left. apply andb_prop in H as [H1 H2]. split; [exact E|]. split; [exact H1|].
      apply Nat.eqb_eq in H2. now destruct (vchildren (snd kv)).
    + right. apply andb_prop in H as [H H3]. apply andb_prop in H as [H1 H2]. apply negb_true_iff in H1.
      split; [exact E|]. split; [exact H1|]. split; [now apply IH|].
      destruct (context_of (snd kv)) as [c|]; [right|now left]. destruct (q_context (n_type i) (fst kv)); [|discriminate H3]. apply text_eqb_eq in H3. now subst c.
  - apply andb_prop in H as [H1 H2]. apply RG_list. rewrite Forall_forall in *. rewrite forallb_forall in *. intros x Hx. split.
    + now apply negb_true_iff, H1.
    + apply IH; [exact Hx|]. apply H2. now apply in_map.
  - apply RG_const.
Qed.
Definition q_sample (root : value) : bool :=
  conformsb q_grammar root && distinct (map vid (everything root)) && negb (is_ctx root) && regularb root.
Lemma q_sample_ok root : q_sample root = true -> parsed_tree q_grammar root.
Proof.
  unfold q_sample. intros H. apply andb_prop in H as [H H4]. apply andb_prop in H as [H H3]. apply andb_prop in H as [H1 H2]. split.
  - now apply conformsb_ok.
  - now apply coherent_distinct, nodup_dec.
  - now apply negb_true_iff.
  - exists q_context. split; [apply q_context_ok|now apply regularb_ok].
Qed.
Lemma q_samples : Forall (fun c => forall f, q_sample (q_program c (fst (build f false c 10))) = true) q_table.
Proof. repeat (apply Forall_cons; [intros f; vm_compute; reflexivity|]); apply Forall_nil. Qed.
Lemma q_ast : python_ast q_grammar q_parse.
Proof.
  intros s m. unfold q_parse. destruct (scan [] s) as [k ns]. destruct (q_find k) as [c|] eqn:E; [|discriminate]. intros [= <-].
  unfold q_find in E. apply find_some in E as [Hc _]. pose proof q_samples as S. rewrite Forall_forall in S.
  split; [apply q_sample_ok, (S c Hc)|]. split; [unfold q_program; now destruct (is_statement c)|].
  assert (N : forall d k0, is_node (fst (build (q_names (left_open c) ns) false d k0)) = true).
  { generalize (q_names (left_open c) ns). intros f d k0. clear. destruct d; cbn [build];
      repeat match goal with |- context [let '(_, _) := ?x in _] => destruct x end; reflexivity. }
  intros kd p Hp. unfold q_program in Hp. destruct (is_statement c) eqn:Es.
  - destruct kd; cbn [pull_of] in Hp.
    + now injection Hp as <-.
    + cbn in Hp. injection Hp as <-. apply N.
    + destruct c; try discriminate Es; cbn [build] in Hp.
      * destruct (build _ true _ _) as [w k1]. destruct (build _ false _ _) as [v k2]. discriminate Hp.
      * pose proof (N c (10 + 1)) as N1. cbn [left_open] in *. destruct (build _ false _ _) as [v k1]. cbn in Hp. injection Hp as <-. exact N1.
  - destruct kd; cbn in Hp; injection Hp as <-; auto.
Qed.

(** *** The file [self.assertTrue(a is b)] *)
Definition q_after : code label := self_call (TX "assertIs") [Name (TX "a"); Name (TX "b")].
Definition q_env (parsed : parsed_file) (info : pyinfo) : env :=
  Env parsed (py_tree info) (py_tokens info) [] (fun c => 1000 + c) (fun c => 2000 + c) (fun _ _ => []).
Definition q_parse_env (s : text) : res env :=
  if tmem s [TX "self.assertIs((a), (b))"; TX "self.assertIs(a, (b))"; TX "self.assertIs(a, b)"]
  then let m := q_module (fst (build (fun x => x) false q_after 10)) in Ok (q_env (PF s [] [] (Some (PyInfo [] m))) (PyInfo [] m))
  else Err SyntaxError.
Lemma q_parser : python_parser q_grammar q_parse_env.
Proof.
  intros s e. unfold q_parse_env. destruct (tmem s _); [|discriminate]. intros [= <-]. split; [apply q_sample_ok; vm_compute; reflexivity|reflexivity].
Qed.
Definition q_text : text := TX "self.assertTrue(a is b)".
Definition q_tok (i a b : Z) : token := tk i a b (slice q_text a b).
Definition q_self := q_tok 0 0 4.
Definition q_assert := q_tok 2 5 15.
Definition q_a := q_tok 4 16 17.
Definition q_b := q_tok 6 21 22.
Definition q_close := q_tok 7 22 23.
Definition q_tokens_ : list token := [q_self; q_tok 1 4 5; q_assert; q_tok 3 15 16; q_a; q_tok 5 18 20; q_b; q_close].
Definition q_var (id : Z) (t : token) : value := name id t (id + 1).
Definition q_compare : value :=
  nd 40 (TX "Compare") q_a q_b [(TX "left", q_var 50 q_a); (TX "ops", VList 41 [q_node 42 (TX "Is") []]); (TX "comparators", VList 43 [q_var 60 q_b])].
Definition q_call : value :=
  nd 20 (TX "Call") q_self q_close
    [(TX "func", nd 30 (TX "Attribute") q_self q_assert [(TX "value", q_var 34 q_self); (TX "attr", ident 31 (TX "assertTrue")); (TX "ctx", load 32)]);
     (TX "args", VList 21 [q_compare]); (TX "keywords", VList 22 [])].
Definition q_file_tree : value :=
  nd 10 (TX "Module") q_self q_close
    [(TX "body", VList 11 [nd 12 (TX "Expr") q_self q_close [(TX "value", q_call)]]); (TX "type_ignores", VList 13 [])].
Definition q_info : pyinfo := PyInfo q_tokens_ q_file_tree.
Definition q_file : parsed_file := PF q_text (TX "x.py") [] (Some q_info).
Definition q_e : env := q_env q_file q_info.
Definition q_parse_file (data path : text) : res parsed_file := Ok q_file.
Lemma q_parsed : parsed_source q_parse_file q_env q_grammar q_text (TX "x.py") q_file q_e.
Proof.
  assert (L : laid_out q_file_tree q_file) by (apply laid_out_ok; vm_compute; reflexivity).
  constructor.
  - reflexivity.
  - exists q_info. auto.
  - reflexivity.
  - apply q_sample_ok. vm_compute. reflexivity.
  - intros v a b Hv Hs. apply (lo_start _ _ L _ _ _ Hv) in Hs. lia.
Qed.
Definition located_exprb (v : value) : bool := is_expr v && match lexical_tokens v with Some _ => true | None => false end.
Definition located_exprsb (root : value) : bool :=
  forallb (fun v => match v with
    | VNode i fs => forallb (fun kv =>
        (negb (existsb (fun x => text_eqb (fst x) (n_type i) && text_eqb (snd x) (fst kv)) expr_fields) || located_exprb (snd kv))
        && (negb (existsb (fun x => text_eqb (fst x) (n_type i) && text_eqb (snd x) (fst kv)) expr_lists) || forallb located_exprb (vchildren (snd kv)))) fs
    | _ => true
    end) (everything root).
Lemma located_exprs_ok root : located_exprsb root = true -> located_exprs root.
Proof.
  intros H i fs f v (q & Hq) Hin. apply inside_everything in Hq. unfold located_exprsb in H. rewrite forallb_forall in H. specialize (H _ Hq). cbn beta iota in H.
  rewrite forallb_forall in H. specialize (H _ Hin). cbn [fst snd] in H. apply andb_prop in H as [H1 H2].
  assert (B : forall w, located_exprb w = true -> located_expr w).
  { intros w Hw. apply andb_prop in Hw as [W1 W2]. split; [exact W1|]. now destruct (lexical_tokens w). }
  assert (E : forall l, In (n_type i, f) l -> existsb (fun x => text_eqb (fst x) (n_type i) && text_eqb (snd x) f) l = true).
  { intros l Hl. apply existsb_exists. exists (n_type i, f). split; [exact Hl|]. cbn [fst snd]. now rewrite !(proj2 (text_eqb_eq _ _)). }
  split.
  - intros K. rewrite (E _ K) in H1. now apply B.
  - intros K w Hw. rewrite (E _ K) in H2. cbn in H2. rewrite forallb_forall in H2. apply B, H2, Hw.
Qed.
Lemma q_located : located_exprs (e_tree q_e).
Proof. apply located_exprs_ok. vm_compute. reflexivity. Qed.
Definition q_order : list nat -> list nat := fun l => l.
Definition fixers_of (r : res (list fixer)) : list fixer := match r with Ok l => l | Err _ => [] end.
Definition q_unittest := fixers_of (unittest_fixers q_tokenize q_order q_parse q_parse_env).
Definition q_negation := fixers_of (negation_fixers q_tokenize q_order q_parse q_parse_env).
Definition q_comprehension := fixers_of (comprehension_fixers q_tokenize q_order q_parse q_parse_env).
Definition q_fixers := q_unittest ++ q_negation ++ q_comprehension.
Definition is_ok {X} (r : res X) : bool := match r with Ok _ => true | Err _ => false end.
Lemma fixers_ok r : is_ok r = true -> r = Ok (fixers_of r).
Proof. now destruct r. Qed.
Lemma q_accepted :
  unittest_fixers q_tokenize q_order q_parse q_parse_env = Ok q_unittest
  /\ negation_fixers q_tokenize q_order q_parse q_parse_env = Ok q_negation
  /\ comprehension_fixers q_tokenize q_order q_parse q_parse_env = Ok q_comprehension.
Proof. split; [|split]; apply fixers_ok; vm_compute; reflexivity. Qed.
Definition q_search := combining_fixer q_parse_file q_env (literal_template (TX "pass")) q_fixers.
Definition summary (r : res (list substitution)) : option (list (dict span * option (dict text))) :=
  match r with Ok l => Some (map (fun s => (matched_spans s, replacements s)) l) | Err _ => None end.
Definition find_with (r : res searcher) (parsed : parsed_file) : res (list substitution) := do s <- r; s_find s parsed.
Lemma one_found (r : res searcher) parsed x : summary (find_with r parsed) = Some [x] ->
  exists s sub, r = Ok s /\ s_find s parsed = Ok [sub] /\ (matched_spans sub, replacements sub) = x.
Proof.
  unfold find_with, summary. destruct r as [s|]; [|discriminate]. cbn [bind]. destruct (s_find s parsed) as [[|sub [|]]|] eqn:Es; try discriminate.
  cbn [map]. intros E. exists s, sub. split; [reflexivity|]. split; [exact Es|congruence].
Qed.
Lemma q_replaced : summary (find_with q_search q_file)
  = Some [([(TX "lhs", (16, 17)); (TX "rhs", (21, 22)); (TX "__root", (0, 23))], Some [(TX "__root", TX "self.assertIs(a, b)")])].
Proof. vm_compute. reflexivity. Qed.
Lemma q_run : exists s sub, q_search = Ok s /\ s_find s q_file = Ok [sub]
  /\ matched_spans sub = [(TX "lhs", (16, 17)); (TX "rhs", (21, 22)); (TX "__root", (0, 23))]
  /\ replacements sub = Some [(TX "__root", TX "self.assertIs(a, b)")].
Proof.
  pose proof (one_found q_search q_file _ q_replaced) as K. revert K. generalize q_search. intros r K. destruct K as (s & sub & A & B & C). exists s, sub. split; [exact A|]. split; [exact B|].
  split; [exact (f_equal fst C)|exact (f_equal snd C)].
Qed.
