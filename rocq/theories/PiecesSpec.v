(** Specification for C85: what a match says about the text of the file. *)
From Verif Require Import Py Subst Ast Template FromDiff Matcher PatternSpec.

(** A place in the text. *)
Definition in_text (t : text) (sp : span) : Prop := 0 <= fst sp /\ fst sp <= snd sp /\ snd sp <= tlen t.
(** The match has a place in the text and the string is what is written there; or
    it has no place (a plain string or object); or it is of a group of a regular
    expression that did not take part in the match. *)
Definition piece (t : text) (m : pymatch) : Prop :=
  forall sp, m_span m = Some sp -> sp = (-1, -1) \/ (in_text t sp /\ m_string m = Some (slice t (fst sp) (snd sp))).
(** The positions that the parser has given to the nodes are places in the text. *)
Definition positioned (parsed : parsed_file) (v : value) : Prop :=
  forall w sp, inside v w -> m_span (create_match parsed w) = Some sp -> in_text (pf_text parsed) sp.

(** What is expected of a regular expression engine: the named groups are places in
    the text, or (-1, -1). *)
Definition groups_ok (t : text) (r : crx) (regs : list span) : Prop :=
  forall l n, In (l, n) (cr_groups r) -> nth n regs (-1, -1) = (-1, -1) \/ in_text t (nth n regs (-1, -1)).
Definition engine_ok (t : text) (r : crx) : Prop :=
  (forall a b regs, cr_match r t a b = Some regs -> groups_ok t r regs) /\ (forall regs, cr_search r t = Some regs -> groups_ok t r regs).
(** Every regular expression in the matcher is run by such an engine, and there is
    no [RewriteFile] in it (C19 and C78 are about that). *)
Fixpoint engines_ok (t : text) (m : matcher) : Prop :=
  match m with
  | MMatchesRegex r m' => engine_ok t r /\ engines_ok t m'
  | MFileMatchesRegex r => engine_ok t r
  | MRewriteFile _ _ => False
  | MAllOf ms | MAnyOf ms | MItemsAre ms | MGlob ms => fold_right (fun m' P => engines_ok t m' /\ P) True ms
  | MUnless m' | MOnce _ m' | MBind _ m' _ _ | MRebind m' _ _ | MWithReplacements m' _ | MDebug m'
  | MHasItem _ m' | MContains m' | MConst _ m' | MHasParent m' | MIsOrHasAncestor m' | MHasChild m'
  | MIsOrHasDescendant m' | MHasPrevSibling m' | MHasNextSibling m' | MWithTopLevelImport m' _ _
  | MHasComments m' | MNoComments m' => engines_ok t m'
  | MNode _ fs => fold_right (fun (fm : text * matcher) P => engines_ok t (snd fm) /\ P) True fs
  | MHasFirstAncestor a b => engines_ok t a /\ engines_ok t b
  | _ => True
  end.
