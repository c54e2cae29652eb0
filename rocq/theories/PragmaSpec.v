(** What pragma comments mean, stated independently of Pragmas.v. *)
From Verif Require Import Py Ast.

(** *** The text of a pragma *)
Section Text.
  Variables name_char value_char : char -> bool.

  Definition all (p : char -> bool) (s : text) : Prop := Forall (fun c => p c = true) s.
  Definition spaces (s : text) : Prop := all is_space s.
  Definition name (s : text) : Prop := s <> [] /\ all name_char s.
  Definition value_text (s : text) : Prop := s <> [] /\ all value_char s.

  (** [key = value], with spaces around each word. *)
  Inductive declaration : text -> text * text -> Prop :=
    decl a k b c v d :
      spaces a -> name k -> spaces b -> spaces c -> value_text v -> spaces d ->
      declaration (a ++ k ++ b ++ TX "=" ++ c ++ v ++ d) (k, v).

  (** [explanation tag : k1=v1, k2=v2, ...,]: the tag is a whole word, there is at
      least one declaration, a trailing comma is allowed, and nothing follows. *)
  Inductive pragma_text : text -> text -> list (text * text) -> Prop :=
    pragma_intro pre tag a decls kvs tail :
      (pre = [] \/ exists pre' c, pre = pre' ++ [c] /\ name_char c = false) ->
      name tag -> spaces a ->
      decls <> [] -> Forall2 declaration decls kvs ->
      (tail = [] \/ exists w, tail = TX "," ++ w /\ spaces w) ->
      pragma_text (pre ++ tag ++ a ++ TX ":" ++ join (TX ",") decls ++ tail) tag kvs.
End Text.

(** The dictionary of a list of pairs: the last value of a repeated key wins. *)
Definition dict_of (kvs : list (text * text)) : dict text :=
  fold_left (fun d kv => dset d (fst kv) (snd kv)) kvs [].

(** *** Token streams with indented blocks *)

(** What [tokenize] produces for a program that parses: single tokens, and
    blocks.  A block starts at the newline that ends its header ("if x:"); then
    come blank lines and comment lines, the INDENT, the tokens of the block, and
    the DEDENT. *)
Inductive item :=
  | Single (t : token)
  | Block (newline : token) (fmt : list token) (indent : token) (body : list item) (dedent : token).

Definition ends_line (t : token) : Prop := tk_type t = T_NEWLINE \/ tk_type t = T_NL.

Fixpoint wf_item (i : item) : Prop :=
  match i with
  | Single t => tk_type t <> T_INDENT /\ tk_type t <> T_DEDENT /\ tk_type t <> T_ENDMARKER
  | Block nl fmt ind body ded =>
      tk_type nl = T_NEWLINE
      /\ Forall (fun t => tk_type t = T_NL \/ tk_type t = T_COMMENT) fmt
      /\ tk_type ind = T_INDENT
      /\ (fix go (l : list item) : Prop :=
            match l with [] => True | x :: r => wf_item x /\ go r end) body
      /\ tk_type ded = T_DEDENT
  end.

(** The tokens, each with the offset where its innermost block ends; [e] is the
    end of the block around the item. *)
Fixpoint annotate (e : Z) (i : item) : list (token * Z) :=
  match i with
  | Single t => [(t, e)]
  | Block nl fmt ind body ded =>
      let e' := tk_start ded in
      (nl, e) :: map (fun t => (t, e')) fmt ++ (ind, e') :: flat_map (annotate e') body ++ [(ded, e')]
  end.

(** A file: items up to the ENDMARKER, which ends the outermost block. *)
Definition file_tokens (l : list item) (endmarker : token) : list (token * Z) :=
  flat_map (annotate (tk_start endmarker)) l ++ [(endmarker, tk_start endmarker)].
Definition wf_file (l : list item) (endmarker : token) : Prop :=
  Forall wf_item l /\ tk_type endmarker = T_ENDMARKER
  /\ forall a x b y c,
       map fst (file_tokens l endmarker) = a ++ x :: b ++ y :: c ->
       ends_line x -> ends_line y -> tk_end x <> tk_end y.

(** Only a comment follows the last line end before the current token (DEDENT
    tokens are empty). *)
Definition on_own_line (before : list token) : Prop :=
  exists a b, before = a ++ b
    /\ (a = [] \/ exists a' t, a = a' ++ [t] /\ ends_line t)
    /\ Forall (fun t => tk_type t = T_COMMENT \/ tk_type t = T_DEDENT) b.

(** The offset where the current line starts. *)
Definition line_starts_at (before : list token) (p : Z) : Prop :=
  (p = 0 /\ Forall (fun t => ~ ends_line t) before)
  \/ (exists a t b, before = a ++ t :: b /\ ends_line t /\ Forall (fun t => ~ ends_line t) b
                    /\ p = tk_end t).

(** The pragmas of a token stream: [c] is a pragma comment with tag and data. *)
Definition pragma_in (text_of : text -> text -> list (text * text) -> Prop)
           (toks : list (token * Z)) (p : pragma) : Prop :=
  exists before c block_end after kvs,
    toks = before ++ (c, block_end) :: after
    /\ tk_type c = T_COMMENT
    /\ text_of (tk_string c) (p_tag p) kvs
    /\ p_data p = dict_of kvs
    /\ line_starts_at (map fst before) (p_start p)
    /\ (on_own_line (map fst before) -> p_end p = block_end)
    /\ (~ on_own_line (map fst before) -> p_end p = tk_end c).
