(** C29: metavariables become fresh identifiers; C30: substitution into a
    tokenised template; C52: how a pattern's metavariables are read. *)
From Verif Require Import Py PyFacts Ast Template FromDiff PatTok PatSpec PatTokProofs LexProofs.
From Coq Require Import Permutation Lia.

(** *** C52 *)

(** The tokens and the metavariables of a pattern, or an exception unless every
    [$] is directly followed by an identifier. *)
Theorem C52_reading_metavariables : forall tokenize pattern toks,
  let added := negb (endswith [NL] pattern) in
  tokenize (if added then pattern ++ [NL] else pattern) = Ok toks -> ends toks ->
  ((exists ts metas, token_pattern tokenize pattern = Ok (ts, metas)) <-> exists l, marked toks l)
  /\ forall ts metas, token_pattern tokenize pattern = Ok (ts, metas) ->
     NoDup metas /\ exists l, marked toks l /\ ts = map fst (final_marks added l)
       /\ forall i, In i metas <-> meta_at (final_marks added l) i.
Proof. exact token_pattern_marks. Qed.
Print Assumptions C52_reading_metavariables.
(** A token stream can be read in only one way. *)
Theorem C52_one_reading : forall toks l l', marked toks l -> marked toks l' -> l = l'.
Proof.
  intros toks l l' H. revert l'.
  induction H as [|t r l Hd Hl IH|d v r l Hd Ht Hv Hc Hl IH]; intros l' H'; inversion H'; subst; try congruence.
  - f_equal. auto.
  - f_equal. auto.
Qed.
Print Assumptions C52_one_reading.

(** What cannot be read is a syntax error: an unterminated text, or a [$] that is
    not directly followed by an identifier. *)
Lemma retokenize_err : forall toks n x,
  Forall (fun t => pt_string t = TX "$" -> pt_type t = T_ERRORTOKEN \/ pt_type t = T_OP) toks ->
  retokenize toks n = Err x -> x = SyntaxError.
Proof.
  intros toks. remember (length toks) as k eqn:Hk.
  assert (Hle : (length toks <= k)%nat) by lia. clear Hk. revert toks Hle.
  induction k as [|k IH]; intros toks Hle n x HF H.
  - destruct toks; [discriminate H|cbn in Hle; lia].
  - destruct toks as [|t rest]; [discriminate H|]. cbn [retokenize] in H. cbn [length] in Hle.
    inversion HF as [|? ? Ht Hr]; subst.
    destruct (negb (text_eqb (pt_string t) [dollar])) eqn:E1.
    + destruct (retokenize rest (S n)) eqn:E; [discriminate H|]. injection H as <-. eapply (IH rest); [lia|exact Hr|exact E].
    + apply negb_false_iff, text_eqb_eq in E1.
      destruct (negb ((pt_type t =? T_ERRORTOKEN) || (pt_type t =? T_OP))) eqn:E2.
      { exfalso. apply negb_true_iff, orb_false_iff in E2. destruct E2 as [E2 E3]. apply Z.eqb_neq in E2, E3.
        destruct (Ht E1); congruence. }
      destruct rest as [|v rest']; [now injection H|].
      destruct (negb (is_variable (pt_string v))); [now injection H|].
      destruct (negb (snd (pt_start t) =? snd (pt_start v) - 1)); [now injection H|].
      destruct (retokenize rest' (S n)) eqn:E; [discriminate H|]. injection H as <-.
      inversion Hr; subst. eapply (IH rest'); [cbn in Hle; lia|eassumption|exact E].
Qed.
Theorem C52_unreadable_patterns : forall tokenize pattern,
  let added := negb (endswith [NL] pattern) in
  let source := if added then pattern ++ [NL] else pattern in
  tokenize source = Err TokenError
  \/ (exists toks, tokenize source = Ok toks /\ ~ (exists l, marked toks l)
       /\ Forall (fun t => pt_string t = TX "$" -> pt_type t = T_ERRORTOKEN \/ pt_type t = T_OP) toks) ->
  token_pattern tokenize pattern = Err SyntaxError.
Proof.
  intros tokenize pattern added source H. unfold token_pattern. subst source added. cbv zeta in *.
  destruct H as [H|(toks & H & Hm & HF)].
  { match goal with |- context [tokenize ?a] => replace (tokenize a) with (@Err (list ptok) TokenError) by (symmetry; exact H) end.
    reflexivity. }
  match goal with |- context [tokenize ?a] => replace (tokenize a) with (Ok toks) by (symmetry; exact H) end. unfold bind.
  destruct (retokenize toks 0) as [[ts is_]|x] eqn:E.
  - exfalso. apply Hm. apply retokenize_sound in E as (l & Hl & _). eauto.
  - f_equal. eapply retokenize_err; eauto.
Qed.
Print Assumptions C52_unreadable_patterns.
(** [$ x]: the identifier does not follow directly. *)
Example C52_unreadable_nonvacuous :
  let toks := [PTok 60 (TX "$") (1, 0) (1, 1); PTok 1 (TX "x") (1, 2) (1, 3); PTok 4 [NL] (1, 3) (1, 4); PTok 0 [] (2, 0) (2, 0)] in
  ~ (exists l, marked toks l)
  /\ Forall (fun t => pt_string t = TX "$" -> pt_type t = T_ERRORTOKEN \/ pt_type t = T_OP) toks.
Proof.
  split.
  - intros (l & H). inversion H; subst; [now match goal with X : _ <> _ |- _ => apply X end|].
    match goal with X : snd _ = _ |- _ => discriminate X end.
  - repeat constructor; try discriminate.
Qed.

(** *** C29 *)

Theorem C29_fresh_names : forall tokenize order pattern toks ts metas,
  let added := negb (endswith [NL] pattern) in
  tokenize (if added then pattern ++ [NL] else pattern) = Ok toks -> ends toks ->
  (forall l, Permutation (order l) l) ->
  token_pattern tokenize pattern = Ok (ts, metas) ->
  exists r f, remap_tokens order ts metas = Ok r /\ renames ts metas f r
     /\ forall i v, In i metas -> string_at ts i v -> is_variable (f i) = true.
Proof. exact remap_pattern. Qed.
Print Assumptions C29_fresh_names.

(** The pattern [$x+$_($x,$_)], with an identifier [gensym_x] of its own. *)
Definition lt (ty : Z) (s : text) (a b : Z) : ptok := PTok ty s (1, a) (1, b).
Definition l_toks : list ptok :=
  [lt 60 (TX "$") 0 1; lt 1 (TX "x") 1 2; lt 54 (TX "+") 2 3; lt 1 (TX "gensym_x") 4 12; lt 54 (TX "(") 12 13;
   lt 60 (TX "$") 13 14; lt 1 (TX "x") 14 15; lt 54 (TX ",") 15 16;
   lt 60 (TX "$") 16 17; lt 1 (TX "_") 17 18; lt 54 (TX ",") 18 19; lt 60 (TX "$") 19 20; lt 1 (TX "_") 20 21;
   lt 54 (TX ")") 21 22; lt 4 [NL] 22 23; PTok 0 [] (2, 0) (2, 0)].
Definition l_src : text := TX "$x+ gensym_x($x,$_,$_)".
Definition l_tokenize (s : text) : res (list ptok) :=
  if text_eqb s (l_src ++ [NL]) then Ok l_toks else Err SyntaxError.
Definition rev_order (l : list nat) : list nat := rev l.

Example C29_nonvacuous :
  l_tokenize (l_src ++ [NL]) = Ok l_toks /\ ends l_toks /\ (forall l, Permutation (rev_order l) l)
  /\ exists ts, token_pattern l_tokenize l_src = Ok (ts, [0; 4; 6; 8]%nat)
  /\ remap_macro_variables l_tokenize rev_order l_src
     = Ok (TX "gensym0_x+ gensym_x(gensym0_x,gensym0__,gensym__)", [(TX "x", TX "gensym0_x")],
           [TX "gensym0__"; TX "gensym__"]).
Proof.
  split; [reflexivity|]. split; [|split].
  - exists (removelast l_toks), (PTok 0 [] (2, 0) (2, 0)). repeat split.
  - intros l. apply Permutation_sym, Permutation_rev.
  - eexists. split; reflexivity.
Qed.
(** FINDING: only whole tokens are taken into account.  The identifier
    [gensym_x] inside of an f-string (one token before Python 3.12) does not
    count, and is then the same as the renamed [$x]. *)
Definition f_toks : list ptok :=
  [lt 3 (TX "f'{gensym_x}'") 0 13; lt 54 (TX "+") 13 14; lt 60 (TX "$") 14 15; lt 1 (TX "x") 15 16;
   lt 4 [NL] 16 17; PTok 0 [] (2, 0) (2, 0)].
Example C29_fstring_capture :
  remap_macro_variables (fun _ => Ok f_toks) rev_order (TX "f'{gensym_x}'+$x")
  = Ok (TX "f'{gensym_x}'+gensym_x", [(TX "x", TX "gensym_x")], []).
Proof. reflexivity. Qed.

(** *** C30 *)

(** [gl] are the tokens of the source with the white space before them, at the
    positions that the tokenizer gives. *)
Theorem C30_substitution : forall tokenize order src gl,
  let added := negb (endswith [NL] src) in
  tokenize (if added then src ++ [NL] else src) = Ok (map snd gl) ->
  spelled 0 (1, 0) Start [] gl -> (forall l, Permutation (order l) l) ->
  ((exists lt, lexical_template tokenize order src = Ok lt) <-> exists l, marked (map snd gl) l)
  /\ forall lt, lexical_template tokenize order src = Ok lt ->
     (forall x, In x (lex_variables lt) <-> In x (metavars (map snd gl)))
     /\ forall repl, dict_ok repl -> src <> [] ->
        lex_substitute lt repl =
        if forallb (dmem repl) (metavars (map snd gl))
        then Ok (expand (lookup repl) (if added then without_newline gl else gl))
        else Err KeyError.
Proof. exact lex_template_spec. Qed.
Print Assumptions C30_substitution.
(** [expand] leaves everything but the metavariables as it is in the source. *)
Theorem C30_rest_unchanged : forall gl l, spelled 0 (1, 0) Start [] gl -> marked (map snd gl) l ->
  expand (fun x => TX "$" ++ x) gl = spelling gl.
Proof. intros gl l H. exact (expand_source _ _ _ _ _ H l). Qed.
Print Assumptions C30_rest_unchanged.

Definition l_gl : list (text * ptok) :=
  combine [[]; []; []; TX " "; []; []; []; []; []; []; []; []; []; []; []; []] l_toks.
Lemma l_spelled : spelled 0 (1, 0) Start [] l_gl.
Proof.
  unfold l_gl. cbn [combine l_toks].
  Local Ltac nw := unfold is_word, lt; cbn; unfold T_ENCODING, T_ENDMARKER, T_INDENT, T_DEDENT, T_NEWLINE, T_NL; lia.
  Local Ltac word n k := apply SL_word; [nw|exists n, k; split; [reflexivity|auto]|reflexivity|reflexivity|now left
    |let X := fresh in intro X; first [discriminate X | cbn; unfold NL; lia]|cbn [pt_end lt]].
  Local Ltac word0 := word 0%nat 0%nat.
  word0. word0. word0. word 0%nat 1%nat.
  do 10 word0.
  apply (fun r c a i => SL_newline r c a i 0%nat); [now left|reflexivity|reflexivity|reflexivity|].
  now constructor.
Qed.
Example C30_nonvacuous :
  l_tokenize (l_src ++ [NL]) = Ok (map snd l_gl) /\ spelled 0 (1, 0) Start [] l_gl
  /\ spelling l_gl = l_src ++ [NL]
  /\ exists t, lexical_template l_tokenize rev_order l_src = Ok t
  /\ lex_substitute t [(TX "x", TX "(a or b)"); (TX "_", TX "1"); (TX "z", TX "2")]
     = Ok (TX "(a or b)+ gensym_x((a or b),1,1)")
  /\ lex_substitute t [(TX "x", TX "a")] = Err KeyError.
Proof.
  split; [reflexivity|]. split; [exact l_spelled|]. split; [reflexivity|].
  eexists. split; [reflexivity|]. split; reflexivity.
Qed.
(** A template with a continued line: [a+\], newline, [ $x]. *)
Definition k_toks : list ptok :=
  [lt 1 (TX "a") 0 1; lt 54 (TX "+") 1 2; PTok 60 (TX "$") (2, 1) (2, 2); PTok 1 (TX "x") (2, 2) (2, 3);
   PTok 4 [NL] (2, 3) (2, 4); PTok 0 [] (3, 0) (3, 0)].
Definition k_src : text := TX "a+" ++ continuation ++ TX " $x".
Definition k_gl : list (text * ptok) := combine [[]; []; continuation ++ TX " "; []; []; []] k_toks.
Example C30_continued_nonvacuous :
  spelled 0 (1, 0) Start [] k_gl /\ spelling k_gl = k_src ++ [NL]
  /\ exists t, lexical_template (fun _ => Ok (map snd k_gl)) rev_order k_src = Ok t
  /\ lex_substitute t [(TX "x", TX "b")] = Ok (TX "a+" ++ continuation ++ TX " b").
Proof.
  split; [|split; [reflexivity|eexists; split; reflexivity]].
  unfold k_gl. cbn [combine k_toks]. word0. word0. word 1%nat 1%nat. word0.
  apply (fun r c a i => SL_newline r c a i 0%nat); [now left|reflexivity|reflexivity|reflexivity|]. now constructor.
Qed.
(** FINDINGS about continued lines, where the source is not kept exactly.
    White space before the backslash is lost ([a \], newline, [ b]); and only
    columns are compared, so that [$\], newline, [ x] is read as the metavariable
    [$x], and the backslash is lost. *)
Definition g_toks (c : Z) : list ptok :=
  [lt 1 (TX "a") 0 1; PTok 1 (TX "b") (2, c) (2, c + 1); PTok 4 [NL] (2, c + 1) (2, c + 2); PTok 0 [] (3, 0) (3, 0)].
Example C30_space_before_backslash :
  exists t, lexical_template (fun _ => Ok (g_toks 1)) rev_order (TX "a " ++ continuation ++ TX " b") = Ok t
  /\ lex_substitute t [] = Ok (TX "a" ++ continuation ++ TX " b").
Proof. eexists. split; reflexivity. Qed.
Definition h_toks : list ptok :=
  [lt 60 (TX "$") 0 1; PTok 1 (TX "x") (2, 1) (2, 2); PTok 4 [NL] (2, 2) (2, 3); PTok 0 [] (3, 0) (3, 0)].
Example C30_continued_metavariable :
  exists t, lexical_template (fun _ => Ok h_toks) rev_order (TX "$" ++ continuation ++ TX " x") = Ok t
  /\ lex_variables t = [TX "x"] /\ lex_substitute t [(TX "x", TX "b")] = Ok (continuation ++ TX "b").
Proof. eexists. split; [reflexivity|split; reflexivity]. Qed.

(** FINDING: the newline that is added to the source of a template stays in the
    result if the template ends with an indented block: [if $x:\n  $y]. *)
Definition b_toks : list ptok :=
  [lt 1 (TX "if") 0 2; lt 60 (TX " ") 2 3; lt 60 (TX "$") 3 4; lt 1 (TX "x") 4 5; lt 54 (TX ":") 5 6; lt 4 [NL] 6 7;
   PTok T_INDENT (TX "  ") (2, 0) (2, 2); PTok 60 (TX "$") (2, 2) (2, 3); PTok 1 (TX "y") (2, 3) (2, 4);
   PTok 4 [NL] (2, 4) (2, 5); PTok T_DEDENT [] (3, 0) (3, 0); PTok 0 [] (3, 0) (3, 0)].
Example C30_extra_newline :
  exists t, lexical_template (fun _ => Ok b_toks) rev_order (TX "if $x:" ++ [NL] ++ TX "  $y") = Ok t
  /\ lex_substitute t [(TX "x", TX "a"); (TX "y", TX "b")] = Ok (TX "if a:" ++ [NL] ++ TX "  b" ++ [NL]).
Proof. eexists. split; reflexivity. Qed.
