(** Specification for C81 with a single round: the layout of a file. *)
From Verif Require Import Py Subst Ast Template Matcher PatternSpec ExprSubSpec.

(** In addition to [laid_out]: what is part of a piece of code is written inside of
    it, and a keyword argument has a place in the file. *)
Record laid_out_file (tree : value) (parsed : parsed_file) : Prop := {
  lf_out : laid_out tree parsed;
  lf_nested : forall v w a b c d, PatternSpec.inside tree v -> PatternSpec.inside v w ->
    m_span (create_match parsed v) = Some (a, b) -> m_span (create_match parsed w) = Some (c, d) -> a <= c /\ d <= b;
  lf_keywords : forall i fs, PatternSpec.inside tree (VNode i fs) -> n_type i = TX "keyword" -> m_span (create_match parsed (VNode i fs)) <> None
}.
