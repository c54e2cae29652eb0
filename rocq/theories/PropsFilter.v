(** C61: regular expressions inside matchers; C62: comments; C63: imports;
    C64: the simple filters. *)
From Verif Require Import Py PyFacts Ast Template FromDiff Matcher MatchSpec MergeSpec MergeProofs MatcherProofs
  FilterSpec FilterProofs SampleTrees.

(** *** C61 *)

(** MatchesRegex matches iff the submatcher does, with a match that has a
    position, the engine finds a reading for that span, and the named groups can
    be merged with the submatcher's bindings.  The match and the replacements are
    those of the submatcher. *)
Theorem C61_matches_regex : forall R rx e m v s s' r,
  compiled_dollar R rx ->
  eval e (MMatchesRegex rx m) v s = (s', Ok (Some r)) <->
  exists rm rb t a b regs gb d,
    eval e m v s = (s', Ok (Some (RInfo rm (Some rb) t)))
    /\ m_span rm = Some (a, b)
    /\ cr_match rx (pf_text (e_parsed e)) a b = Some regs
    /\ binds_groups (cr_groups rx) (pf_text (e_parsed e)) regs gb
    /\ merge_bindings gb rb = Ok (Some d)
    /\ r = RInfo rm (Some d) t.
Proof. exact matches_regex_iff. Qed.
Print Assumptions C61_matches_regex.

(** It has fullmatch semantics on spans that do not end with a newline. *)
Theorem C61_full_match : forall R rx e m v s s' rm b0 t a b,
  compiled_dollar R rx ->
  eval e m v s = (s', Ok (Some (RInfo rm b0 t))) -> m_span rm = Some (a, b) ->
  slice (pf_text (e_parsed e)) (b - 1) b <> [10] ->
  match eval e (MMatchesRegex rx m) v s with
  | (_, Ok (Some _)) => exists regs, R (pf_text (e_parsed e)) b a b regs
  | (_, Ok None) => (forall regs, ~ R (pf_text (e_parsed e)) b a b regs)
                    \/ exists gb rb, b0 = Some rb /\ merge_bindings gb rb = Ok None
  | (_, Err _) => True
  end.
Proof.
  intros R rx e m v s s' rm b0 t a b C H Hs Hn. cbn [eval]. unfold mbind at 1. rewrite H.
  unfold mbind at 1, lift at 1. cbn [r_match]. rewrite Hs.
  specialize (C (pf_text (e_parsed e)) a b). destruct (cr_match rx _ a b) as [regs|].
  - destruct C as [(x & HR & [->|[Hx Hd]]) HF].
    + unfold mbind, lift, ret. cbn [r_bindings r_reps bind]. destruct b0 as [rb|]; cbn [not_none]; [|exact I].
      destruct (merge_bindings _ rb) as [[d|]|z] eqn:E; [eauto| |exact I]. right. eauto.
    + exfalso. apply Hn. replace (b - 1) with x by lia. exact Hd.
  - unfold ret. left. intros regs HR. apply (C b regs HR). now left.
Qed.
Print Assumptions C61_full_match.

(** FINDING: the documented fullmatch semantics fails when the span ends with a
    newline: the regular expression [a*] matches the span of [aa\n]. *)
Definition only_as (txt : text) (endp a b : Z) (regs : list span) : Prop :=
  0 <= a <= b /\ Forall (fun c => c = 97) (slice txt a b) /\ regs = [(a, b)].
Definition as_dollar : crx :=
  Crx [] (fun txt a b =>
            if forallb (Z.eqb 97) (slice txt a b) && (0 <=? a) && (a <=? b) then Some [(a, b)]
            else if forallb (Z.eqb 97) (slice txt a (b - 1)) && text_eqb (slice txt (b - 1) b) [10]
                    && (0 <=? a) && (a <=? b - 1) then Some [(a, b - 1)]
            else None) (fun _ => None).
Lemma forallb_as l : forallb (Z.eqb 97) l = true <-> Forall (fun c => c = 97) l.
Proof. rewrite forallb_forall, Forall_forall. split; intros H x Hx; specialize (H x Hx); [apply Z.eqb_eq in H; congruence | subst; reflexivity]. Qed.
Lemma as_dollar_compiled : compiled_dollar only_as as_dollar.
Proof.
  intros txt a b. cbn [cr_match as_dollar cr_groups].
  destruct (forallb (Z.eqb 97) (slice txt a b) && (0 <=? a) && (a <=? b)) eqn:E1.
  - apply andb_true_iff in E1 as [E1 E3]. apply andb_true_iff in E1 as [E1 E2].
    apply forallb_as in E1. apply Z.leb_le in E2, E3. split; [|constructor].
    exists b. split; [|now left]. unfold only_as. split; [lia|]. now split.
  - destruct (_ && _ && _ && _) eqn:E2.
    + apply andb_true_iff in E2 as [E2 E5]. apply andb_true_iff in E2 as [E2 E4]. apply andb_true_iff in E2 as [E2 E3].
      apply forallb_as in E2. apply text_eqb_eq in E3. apply Z.leb_le in E4, E5. split; [|constructor].
      exists (b - 1). split; [unfold only_as; split; [lia|]; now split|]. right. split; [lia | assumption].
    + intros x regs (Hx & HF & ->) [->|[Hb Hd]].
      * apply forallb_as in HF. rewrite HF in E1. destruct Hx as [H1 H2]. apply Z.leb_le in H1, H2. rewrite H1, H2 in E1. discriminate E1.
      * assert (x = b - 1) as -> by lia. apply forallb_as in HF. rewrite HF, Hd in E2. destruct Hx as [H1 H2].
        apply Z.leb_le in H1, H2. rewrite H1, H2, text_eqb_refl in E2. discriminate E2.
Qed.
Definition nl_env : env :=
  let t := Tok 1 (TX "aa
") 0 3 0 in
  Env (PF (TX "aa
") (TX "x.py") [] None) (nd 1 (TX "Module") t t []) [t] [] (fun c => c) (fun c => c) (fun _ _ => []).
Theorem C61_fullmatch_refuted :
  ~ (forall R rx e m v s s' r rm ob t a b,
       compiled_dollar R rx ->
       eval e m v s = (s', Ok (Some (RInfo rm ob t))) -> m_span rm = Some (a, b) ->
       eval e (MMatchesRegex rx m) v s = (s', Ok (Some r)) ->
       exists regs, R (pf_text (e_parsed e)) b a b regs).
Proof.
  intros H.
  destruct (H only_as as_dollar nl_env MAnything (e_tree nl_env) [] [] _ _ _ _ 0 3 as_dollar_compiled eq_refl eq_refl eq_refl)
    as [regs (_ & HF & _)].
  inversion HF as [|x l _ H1]; subst. inversion H1 as [|x2 l2 _ H2]; subst. inversion H2 as [|x3 l3 H3 _]; subst. discriminate H3.
Qed.
Print Assumptions C61_fullmatch_refuted.

(** FileMatchesRegex matches everything or nothing, depending on whether the
    regular expression matches somewhere in the file. *)
Theorem C61_file_matches_regex : forall R rx e v s s' o,
  compiled_plain R rx ->
  eval e (MFileMatchesRegex rx) v s = (s', o) ->
  s' = s /\
  match o with
  | Ok (Some r) => exists a b regs gb,
      0 <= a <= tlen (pf_text (e_parsed e))
      /\ R (pf_text (e_parsed e)) (tlen (pf_text (e_parsed e))) a b regs
      /\ binds_groups (cr_groups rx) (pf_text (e_parsed e)) regs gb
      /\ r = RInfo PMatch (Some gb) []
  | Ok None => forall a b regs, 0 <= a <= tlen (pf_text (e_parsed e)) ->
      ~ R (pf_text (e_parsed e)) (tlen (pf_text (e_parsed e))) a b regs
  | Err _ => False
  end.
Proof. exact file_matches_regex_iff. Qed.
Print Assumptions C61_file_matches_regex.

(** [(?P<x>.)] for one character, in a file [f(a, b)]. *)
Definition one_char : crx :=
  Crx [(TX "x", 1%nat)] (fun txt a b => if b =? a + 1 then Some [(a, b); (a, b)] else None)
      (fun txt => match txt with [] => None | _ => Some [(0, 1); (0, 1)] end).
Example C61_nonvacuous :
  eval s_env (MMatchesRegex one_char (m_bind (TX "y") MAnything)) s_a []
  = ([], Ok (Some (RInfo (create_match s_file s_a)
       (Some [(TX "x", Bound (PSpan (TX "a") (2, 3)) MERGE KEEP_LAST);
              (TX "y", Bound (create_match s_file s_a) MERGE KEEP_LAST)]) [])))
  /\ eval s_env (MMatchesRegex one_char MAnything) s_call [] = ([], Ok None)
  /\ eval s_env (MFileMatchesRegex one_char) s_call []
     = ([], Ok (Some (RInfo PMatch (Some [(TX "x", Bound (PSpan (TX "f") (0, 1)) MERGE KEEP_LAST)]) []))).
Proof. now vm_compute. Qed.

(** *** C62 *)

(** HasComments and NoComments split the matches of the submatcher: by whether a
    comment lies within the matched text. *)
Theorem C62_comments : forall e m v s s1 x txt f l ob t,
  token_stream (e_tokens e) -> In f (e_tokens e) -> In l (e_tokens e) ->
  eval e m v s = (s1, Ok (Some (RInfo (PLex x txt f l true true) ob t))) ->
  (comment_within (e_tokens e) (tk_start f) (tk_end l) ->
     eval e (MHasComments m) v s = eval e m v s /\ eval e (MNoComments m) v s = (s1, Ok None))
  /\ (~ comment_within (e_tokens e) (tk_start f) (tk_end l) ->
     eval e (MHasComments m) v s = (s1, Ok None) /\ eval e (MNoComments m) v s = eval e m v s).
Proof.
  intros e m v s s1 x txt f l ob t Ht Hf Hl H. cbn [eval]. unfold mbind, lift, ret. rewrite H.
  destruct (has_comments_within e x txt f l ob t Ht Hf Hl) as [H1 H2].
  split; intros C.
  - rewrite (H2 C). now split.
  - destruct (has_comments e _) as [[|]|z] eqn:E; [exfalso; apply C; now apply H1 | now split |].
    unfold has_comments in E. cbn [r_match bind] in E. discriminate E.
Qed.
Print Assumptions C62_comments.
(** What the submatcher does not match, they do not match; what is no piece of
    source code they refuse (with a TypeError). *)
Theorem C62_otherwise : forall e m v s,
  match eval e m v s with
  | (_, Ok None) | (_, Err _) =>
      eval e (MHasComments m) v s = eval e m v s /\ eval e (MNoComments m) v s = eval e m v s
  | (s1, Ok (Some (RInfo (PLex _ _ _ _ _ _) _ _))) => True
  | (s1, Ok (Some (RInfo _ _ _))) =>
      eval e (MHasComments m) v s = (s1, Err TypeError) /\ eval e (MNoComments m) v s = (s1, Err TypeError)
  | (s1, Ok (Some RFalse)) => True
  end.
Proof.
  intros e m v s. cbn [eval]. unfold mbind, lift, ret.
  destruct (eval e m v s) as [s1 [[[[] ob t|]|]|x]]; try exact I; now split.
Qed.
Print Assumptions C62_otherwise.

(** [(# c\n a)]: the parenthesised expression contains a comment, [a] does not. *)
Definition c_tokens := [Tok 1 (TX "(") 0 1 0; Tok T_COMMENT (TX "# c") 1 4 1; Tok 1 (TX "a") 6 7 2; Tok 1 (TX ")") 7 8 3].
Definition c_a := name 10 (nth 2 c_tokens tok_a) 11.
Definition c_tuple := nd 20 (TX "Tuple") (nth 0 c_tokens tok_a) (nth 3 c_tokens tok_a) [(TX "elts", VList 21 [c_a])].
Definition c_env : env :=
  Env (PF (TX "(# c
 a)") (TX "x.py") [] (Some (PyInfo c_tokens c_tuple))) c_tuple c_tokens [] (fun c => c) (fun c => c) (fun _ _ => []).
Example C62_nonvacuous :
  token_stream c_tokens
  /\ eval c_env (MHasComments MAnything) c_tuple [] = eval c_env MAnything c_tuple []
  /\ eval c_env (MNoComments MAnything) c_tuple [] = ([], Ok None)
  /\ eval c_env (MHasComments MAnything) c_a [] = ([], Ok None)
  /\ eval c_env (MNoComments MAnything) c_a [] = eval c_env MAnything c_a [].
Proof.
  split; [|now vm_compute].
  split; [|split; [|split]].
  - intros t u Ht Hu. cbn in Ht, Hu. intuition (subst; cbn in *; lia).
  - intros t u Ht Hu. cbn in Ht, Hu. intuition (subst; cbn in *; first [reflexivity | lia]).
  - repeat constructor; cbn; lia.
  - repeat constructor; cbn; intros; try discriminate; lia.
Qed.

(** *** C63 *)

(** WithTopLevelImport is the submatcher if the last import of the module makes
    it available under that name, and never matches otherwise. *)
Theorem C63_with_top_level_import : forall e m module name v mvs,
  file_gives (e_tree e) mvs ->
  (last_import mvs module name -> forall s, eval e (MWithTopLevelImport m module name) v s = eval e m v s)
  /\ (~ last_import mvs module name -> forall s, eval e (MWithTopLevelImport m module name) v s = (s, Ok None)).
Proof. exact with_top_level_import. Qed.
Print Assumptions C63_with_top_level_import.
(** So nothing matches unless there is such an import; if the module is imported
    once, that is enough; if moreover the variable is not imported again, it
    refers to that module. *)
Theorem C63_imports : forall e m module name v mvs s s' r,
  file_gives (e_tree e) mvs ->
  (eval e (MWithTopLevelImport m module name) v s = (s', Ok (Some r)) ->
     In (module, name) mvs
     /\ (~ (exists before other after, mvs = before ++ (other, name) :: after
                /\ In (module, name) before /\ other <> module) -> refers_to mvs name module))
  /\ (NoDup (map fst mvs) -> In (module, name) mvs ->
      eval e m v s = (s', Ok (Some r)) ->
      eval e (MWithTopLevelImport m module name) v s = (s', Ok (Some r))).
Proof.
  intros e m module name v mvs s s' r Hf.
  destruct (with_top_level_import e m module name v mvs Hf) as [Hy Hn]. split.
  - intros H.
    assert (L : last_import mvs module name).
    { apply dget_puts. rewrite <- (top_level_imports_gives _ _ Hf). cbn [eval] in H.
      destruct (dget (top_level_imports (e_tree e)) module) as [n|]; [|discriminate H].
      destruct (text_eqb n name) eqn:E; [|discriminate H]. apply text_eqb_eq in E. now subst. }
    destruct L as (b & a & -> & Ha). split; [apply in_or_app; right; now left|].
    intros Hno. clear Hy Hn H Hf.
    (* the last mention of the name *)
    assert (D : forall l : list (text * text), In name (map snd l) -> exists p o q, l = p ++ (o, name) :: q /\ ~ In name (map snd q)).
    { induction l as [|[o n] l IH]; [intros []|]. intros H.
      destruct (in_dec (list_eq_dec Z.eq_dec) name (map snd l)) as [Hin|Hnot].
      - destruct (IH Hin) as (p & o' & q & -> & Hq). exists ((o, n) :: p), o', q. now split.
      - destruct H as [H|H]; [|contradiction]. cbn [snd] in H. subst n. exists [], o, l. now split. }
    destruct (in_dec (list_eq_dec Z.eq_dec) name (map snd a)) as [Hin|Hnot].
    + destruct (D a Hin) as (p & o & q & -> & Hq).
      destruct (list_eq_dec Z.eq_dec o module) as [->|Ho].
      * exfalso. apply Ha. rewrite map_app. apply in_or_app. right. now left.
      * exfalso. apply Hno. exists (b ++ (module, name) :: p), o, q. split; [now rewrite <- app_assoc|].
        split; [|assumption]. apply in_or_app. right. now left.
    + exists b, a. now split.
  - intros Hd Hin H. rewrite Hy; [assumption|].
    apply in_split in Hin as (b & a & ->). exists b, a. split; [reflexivity|].
    rewrite map_app in Hd. apply NoDup_remove_2 in Hd. intros C. apply Hd. apply in_or_app. now right.
Qed.
Print Assumptions C63_imports.

(** A file
      import os.path
      import numpy as np, sys
      from os import path as p
      from . import rel
      import numpy as num
      import abc as sys *)
Definition i_alias (id : Z) (n : text) (a : option text) : value :=
  VNode (NI id (TX "alias") None None None)
    [(TX "name", VConst (id + 1) (CStr n)); (TX "asname", match a with Some a => VConst (id + 2) (CStr a) | None => VNone end)].
Definition i_import (id : Z) (l : list value) : value :=
  VNode (NI id (TX "Import") None None None) [(TX "names", VList (id + 1) l)].
Definition i_from (id : Z) (module : value) (level : Z) (l : list value) : value :=
  VNode (NI id (TX "ImportFrom") None None None)
    [(TX "module", module); (TX "names", VList (id + 1) l); (TX "level", VConst (id + 2) (CNum KInt (2 * level)))].
Definition i_module : value :=
  VNode (NI 1 (TX "Module") None None None)
    [(TX "body", VList 2
       [i_import 10 [i_alias 13 (TX "os.path") None];
        i_import 20 [i_alias 23 (TX "numpy") (Some (TX "np")); i_alias 27 (TX "sys") None];
        i_from 30 (VConst 34 (CStr (TX "os"))) 0 [i_alias 36 (TX "path") (Some (TX "p"))];
        i_from 40 VNone 1 [i_alias 46 (TX "rel") None];
        i_import 50 [i_alias 53 (TX "numpy") (Some (TX "num"))];
        i_import 60 [i_alias 63 (TX "abc") (Some (TX "sys"))]])].
Definition i_env : env :=
  Env (PF [] (TX "x.py") [] None) i_module [] [] (fun c => c) (fun c => c) (fun _ _ => []).
Definition i_gives : list (text * text) :=
  [(TX "os", TX "os"); (TX "numpy", TX "np"); (TX "sys", TX "sys"); (TX "os.path", TX "p"); (TX "numpy", TX "num"); (TX "abc", TX "sys")].
Lemma i_file_gives : file_gives i_module i_gives.
Proof.
  exists 2, (list_of (vfield i_module (TX "body"))), [[(TX "os", TX "os")]; [(TX "numpy", TX "np"); (TX "sys", TX "sys")]; [(TX "os.path", TX "p")]; []; [(TX "numpy", TX "num")]; [(TX "abc", TX "sys")]].
  split; [reflexivity|]. split; [|reflexivity].
  assert (P : forall x n i j, vfield x (TX "name") = VConst i (CStr n) -> vfield x (TX "asname") = VConst j CNone -> ~ In 46 n ->
              import_gives x (n, n)).
  { intros x n i j H1 H2 H3. exists n, None. split; [eapply Clause_plain; eassumption|]. split; [split; [assumption | now left] | reflexivity]. }
  assert (A : forall x n o i j, vfield x (TX "name") = VConst i (CStr n) -> vfield x (TX "asname") = VConst j (CStr o) ->
              import_gives x (n, o)).
  { intros x n o i j H1 H2. exists n, (Some o). split; [eapply Clause_as; eassumption | reflexivity]. }
  apply Forall2_cons.
  { eapply G_import; [reflexivity | reflexivity|]. apply Forall2_cons; [|apply Forall2_nil].
    exists (TX "os.path"), None. split; [eapply Clause_plain; reflexivity|]. split; [|reflexivity]. split.
    - vm_compute. intuition discriminate.
    - right. exists (TX "path"). reflexivity. }
  apply Forall2_cons.
  { eapply G_import; [reflexivity | reflexivity|]. apply Forall2_cons; [eapply A; reflexivity|].
    apply Forall2_cons; [|apply Forall2_nil]. eapply P; [reflexivity | reflexivity|]. vm_compute. intuition discriminate. }
  apply Forall2_cons.
  { eapply (G_from _ _ _ _ (TX "os")); [reflexivity | reflexivity | reflexivity | reflexivity|]. apply Forall2_cons; [|apply Forall2_nil].
    exists (TX "path"), (Some (TX "p")). split; [eapply Clause_as; reflexivity | reflexivity]. }
  apply Forall2_cons.
  { eapply G_relative; [reflexivity | reflexivity | discriminate]. }
  apply Forall2_cons; [|apply Forall2_cons; [|apply Forall2_nil]].
  all: eapply G_import; [reflexivity | reflexivity|]; apply Forall2_cons; [|apply Forall2_nil]; eapply A; reflexivity.
Qed.
Example C63_nonvacuous :
  file_gives (e_tree i_env) i_gives
  /\ eval i_env (MWithTopLevelImport MAnything (TX "numpy") (TX "num")) VNone [] = eval i_env MAnything VNone []
  /\ eval i_env (MWithTopLevelImport MAnything (TX "os.path") (TX "p")) VNone [] = eval i_env MAnything VNone []
  (* FINDINGS: imported as np, but not matched; matched, although [sys] is abc;
     [import os.path] does not count as an import of os.path *)
  /\ eval i_env (MWithTopLevelImport MAnything (TX "numpy") (TX "np")) VNone [] = ([], Ok None)
  /\ eval i_env (MWithTopLevelImport MAnything (TX "sys") (TX "sys")) VNone [] = eval i_env MAnything VNone []
  /\ eval i_env (MWithTopLevelImport MAnything (TX "os.path") (TX "path")) VNone [] = ([], Ok None).
Proof. split; [exact i_file_gives|]. now vm_compute. Qed.
(** The documented "if there is a top level import for the given module" is
    therefore not enough. *)
Theorem C63_any_import_refuted :
  ~ (forall e m module name v mvs s,
       file_gives (e_tree e) mvs -> In (module, name) mvs ->
       eval e (MWithTopLevelImport m module name) v s = eval e m v s).
Proof.
  intros H. specialize (H i_env MAnything (TX "numpy") (TX "np") VNone i_gives [] i_file_gives).
  discriminate H. right. now left.
Qed.
Print Assumptions C63_any_import_refuted.

(** *** C64 *)

(** TypeIs, InLines and Equals filter by class, line and [==]; they match the
    candidate itself and bind nothing.  StringMatch always matches, with the given text. *)
Theorem C64_filters : forall e v s,
  let accept := (s, Ok (Some (RInfo (create_match (e_parsed e) v) (Some []) []))) in
  let reject := (s, Ok None) in
  (forall ty, (vtype v = ty -> eval e (MTypeIs ty) v s = accept) /\ (vtype v <> ty -> eval e (MTypeIs ty) v s = reject))
  /\ (forall lines, ((exists i fs n, v = VNode i fs /\ n_line i = Some n /\ In n lines) -> eval e (MInLines lines) v s = accept)
                    /\ (~ (exists i fs n, v = VNode i fs /\ n_line i = Some n /\ In n lines) -> eval e (MInLines lines) v s = reject))
  /\ (forall w, (py_eq v w = true -> eval e (MEquals w) v s = accept) /\ (py_eq v w = false -> eval e (MEquals w) v s = reject))
  /\ (forall str, eval e (MStringMatch str) v s = (s, Ok (Some (RInfo (PString str) (Some []) [])))).
Proof.
  intros e v s accept reject. split; [|split; [|split]].
  - intros ty. cbn [eval]. split; intros H.
    + apply text_eqb_eq in H. rewrite H. reflexivity.
    + destruct (text_eqb (vtype v) ty) eqn:E; [apply text_eqb_eq in E; contradiction | reflexivity].
  - intros lines. cbn [eval].
    assert (Z1 : forall n, zmem n lines = true <-> In n lines).
    { intros n. unfold zmem. rewrite existsb_exists. split; [intros (x & H & E); apply Z.eqb_eq in E; now subst | intros H; exists n; split; [assumption | apply Z.eqb_refl]]. }
    split.
    + intros (i & fs & n & -> & H1 & H2). rewrite H1. apply Z1 in H2. now rewrite H2.
    + intros H. destruct v as [i fs| |]; try reflexivity. destruct (n_line i) as [n|] eqn:En; [|reflexivity].
      destruct (zmem n lines) eqn:E; [|reflexivity]. exfalso. apply H. exists i, fs, n. split; [reflexivity|]. split; [assumption | now apply Z1].
  - intros w. cbn [eval]. split; intros ->; reflexivity.
  - reflexivity.
Qed.
Print Assumptions C64_filters.
Lemma rebind_all c g (rb d : dict bound) :
  Forall2 (fun old new : label * bound =>
             fst new = fst old /\ b_value (snd new) = b_value (snd old)
             /\ b_conflict (snd new) = match c with Some c => c | None => b_conflict (snd old) end
             /\ b_merge (snd new) = match g with Some g => g | None => b_merge (snd old) end) rb d ->
  map (fun kv => (fst kv, rebind c g (snd kv))) rb = d.
Proof.
  induction 1 as [|[k b] [k' b'] rb d (E1 & E2 & E3 & E4) HF IH]; cbn [map fst snd]; [reflexivity|].
  f_equal; [|apply IH]. unfold rebind. cbn [fst snd] in *. subst k'. destruct b' as [bv bc bm].
  cbn [b_value b_conflict b_merge] in *. subst. reflexivity.
Qed.
(** Rebind changes nothing but the strategies of the bindings. *)
Theorem C64_rebind : forall e m c g v s s' r,
  eval e (MRebind m c g) v s = (s', Ok (Some r)) <->
  exists rm rb t d, eval e m v s = (s', Ok (Some (RInfo rm (Some rb) t)))
    /\ r = RInfo rm (Some d) t
    /\ Forall2 (fun old new : label * bound =>
                  fst new = fst old /\ b_value (snd new) = b_value (snd old)
                  /\ b_conflict (snd new) = match c with Some c => c | None => b_conflict (snd old) end
                  /\ b_merge (snd new) = match g with Some g => g | None => b_merge (snd old) end) rb d.
Proof.
  intros e m c g v s s' r. cbn [eval]. split.
  - intros H. apply mbind_Ok in H as (s1 & [[rm [rb|] t|]|] & H1 & H); cbn in H; try discriminate H.
    unfold mbind, lift, ret in H. injection H as <- <-.
    exists rm, rb, t, (map (fun kv => (fst kv, rebind c g (snd kv))) rb). split; [assumption|]. split; [reflexivity|].
    clear. induction rb as [|[k b] rb IH]; cbn [map]; constructor; [now repeat split | assumption].
  - intros (rm & rb & t & d & H1 & -> & HF). unfold mbind at 1. rewrite H1. unfold mbind, lift, ret. cbn.
    rewrite (rebind_all c g rb d HF). reflexivity.
Qed.
Print Assumptions C64_rebind.

Example C64_nonvacuous :
  eval s_env (MTypeIs (TX "Name")) s_a [] = eval s_env MAnything s_a []
  /\ eval s_env (MTypeIs (TX "Name")) s_call [] = ([], Ok None)
  /\ eval s_env (MInLines [2; 1]) s_a [] = eval s_env MAnything s_a []
  /\ eval s_env (MInLines [2]) s_a [] = ([], Ok None)
  /\ eval s_env (MInLines [1]) (load 3) [] = ([], Ok None)
  /\ eval s_env (MRebind (m_bind (TX "x") MAnything) (Some SKIP) None) s_a []
     = ([], Ok (Some (RInfo (create_match s_file s_a) (Some [(TX "x", Bound (create_match s_file s_a) SKIP KEEP_LAST)]) []))).
Proof. now vm_compute. Qed.
