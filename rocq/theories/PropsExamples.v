(** C84: the examples of fixers. *)
From Verif Require Import Py PyFacts Codec CodecProofs Ast Template TemplateProofs FromDiff PatTok PatSpec PyCode CodeProofs Examples.

Definition ids (names : list label) : dict text := map (fun v => (v, v)) names.
Lemma dget_ids names l v : dget (ids names) l = Some v <-> In l names /\ v = l.
Proof.
  induction names as [|n names IH]; cbn [ids map dget]; [split; [discriminate|intros [[] _]]|].
  destruct (text_eqb_spec n l) as [->|N].
  - split; [intros [= <-]; split; [now left|reflexivity]|now intros [_ ->]].
  - etransitivity; [exact IH|]. split; intros [H ->]; (split; [|reflexivity]); [now right|]. destruct H as [H|H]; [congruence|exact H].
Qed.
Lemma fill_ids names ps : forall out, sh_fill ps (ids names) = Ok out -> fill_names ps = Ok out.
Proof.
  induction ps as [|[s|v|] ps IH]; intros out H; cbn [sh_fill fill_names] in *; [exact H| | |discriminate H].
  - destruct (sh_fill ps (ids names)) as [t|]; [|discriminate H]. now rewrite (IH t eq_refl).
  - destruct (dget (ids names) v) as [w|] eqn:E; [|discriminate H]. apply dget_ids in E as [_ ->].
    destruct (sh_fill ps (ids names)) as [t|]; [|discriminate H]. now rewrite (IH t eq_refl).
Qed.
Definition var_names (ps : list sh_piece) : list label := flat_map (fun p => match p with ShVar v => [v] | _ => [] end) ps.
Lemma ids_fill names ps : forall out, fill_names ps = Ok out -> incl (var_names ps) names -> sh_fill ps (ids names) = Ok out.
Proof.
  induction ps as [|[s|v|] ps IH]; intros out H I; cbn [sh_fill fill_names var_names flat_map app] in *; [exact H| | |discriminate H].
  - destruct (fill_names ps) as [t|]; [|discriminate H]. now rewrite (IH t eq_refl I).
  - rewrite (proj2 (dget_ids names v v) (conj (I v (or_introl eq_refl)) eq_refl)).
    destruct (fill_names ps) as [t|]; [|discriminate H]. rewrite (IH t eq_refl); [exact H|]. intros x Hx. apply I. now right.
Qed.
Lemma expands_mono e1 e2 s o : (forall l v, e1 l = Some v -> e2 l = Some v) -> expands e1 s o -> expands e2 s o.
Proof.
  intros He H. induction H; [apply ex_nil|apply ex_char; assumption|apply ex_dollar; assumption|apply ex_var; auto|apply ex_braced; auto].
Qed.
Lemma expands_ids s out : expands (fun n => Some n) s out -> exists names, expands (dget (ids names)) s out.
Proof.
  assert (M : forall n names s o, expands (dget (ids names)) s o -> expands (dget (ids (n :: names))) s o).
  { intros n names s0 o. apply expands_mono. intros l v H. apply dget_ids in H as [H ->]. apply dget_ids. split; [now right|reflexivity]. }
  induction 1 as [|c s o Hc H [names IH]|s o H [names IH]|n s v o Hid Hs Hv H [names IH]|n s v o Hid Hv H [names IH]].
  - exists []. constructor.
  - exists names. now apply ex_char.
  - exists names. now apply ex_dollar.
  - exists (n :: names). injection Hv as <-. apply ex_var; auto. apply dget_ids. split; [now left|reflexivity].
  - exists (n :: names). injection Hv as <-. apply ex_braced; auto. apply dget_ids. split; [now left|reflexivity].
Qed.
Lemma fill_names_iff s out : fill_names (sh_pieces s) = Ok out <-> expands (fun n => Some n) s out.
Proof.
  split.
  - intros H. apply (ids_fill (var_names (sh_pieces s))) in H; [|intros x Hx; exact Hx]. apply sh_fill_iff in H.
    revert H. apply expands_mono. intros l v E. apply dget_ids in E as [_ ->]. reflexivity.
  - intros H. apply expands_ids in H as [names H]. apply sh_fill_iff in H. now apply fill_ids in H.
Qed.
Lemma fill_names_error ps x : fill_names ps = Err x -> x = ValueError.
Proof.
  induction ps as [|[s|v|] ps IH]; cbn [fill_names]; intros H; [discriminate H| | |now injection H].
  all: destruct (fill_names ps) as [t|y]; [discriminate H|]; injection H as <-; auto.
Qed.

(** C84.  A fragment that was given is the example, with the replacement given
    for it. *)
Theorem C84_given : forall e f, em_fragment e = Some f ->
  example_fragment e = Ok (Some f) /\ example_replacement e = Ok (em_replacement e).
Proof. intros e f H. unfold example_fragment, example_replacement. now rewrite H. Qed.
Print Assumptions C84_given.

(** Otherwise, a pattern without restrictions is read as a [$]-template in which
    each variable stands for its own name (if it can be read so). *)
Theorem C84_fragment : forall e, em_fragment e = None ->
  match em_pattern e with
  | Some (pattern, false) =>
      (forall out, example_fragment e = Ok (Some out) <-> expands (fun n => Some n) pattern out)
      /\ ((forall out, ~ expands (fun n => Some n) pattern out) -> example_fragment e = Err ValueError)
  | _ => example_fragment e = Ok None
  end.
Proof.
  intros e H. unfold example_fragment. rewrite H. destruct (em_pattern e) as [[p [|]]|]; [reflexivity| |reflexivity]. split.
  - intros out. rewrite <- fill_names_iff. destruct (fill_names (sh_pieces p)) as [t|x]; cbn [bind]; split; intros E; try discriminate E; now injection E as ->.
  - intros N. destruct (fill_names (sh_pieces p)) as [t|x] eqn:E; [apply fill_names_iff in E; elim (N t E)|]. apply fill_names_error in E as ->. reflexivity.
Qed.
Print Assumptions C84_fragment.

(** And likewise for the replacement, which must not have been given. *)
Theorem C84_replacement : forall e, em_fragment e = None ->
  match em_replacement e, em_template e with
  | None, Some template =>
      (forall out, example_replacement e = Ok (Some out) <-> expands (fun n => Some n) template out)
      /\ ((forall out, ~ expands (fun n => Some n) template out) -> example_replacement e = Err ValueError)
  | _, _ => example_replacement e = Err TypeError
  end.
Proof.
  intros e H. unfold example_replacement. rewrite H. destruct (em_replacement e) as [r|]; [reflexivity|]. destruct (em_template e) as [p|]; [|reflexivity]. split.
  - intros out. rewrite <- fill_names_iff. destruct (fill_names (sh_pieces p)) as [t|x]; cbn [bind]; split; intros E; try discriminate E; now injection E as ->.
  - intros N. destruct (fill_names (sh_pieces p)) as [t|x] eqn:E; [apply fill_names_iff in E; elim (N t E)|]. apply fill_names_error in E as ->. reflexivity.
Qed.
Print Assumptions C84_replacement.

(** Code in which there is no dollar sign but those of its variables. *)
Fixpoint plain (c : code label) : Prop :=
  let no s := ~ In 36 s in
  match c with
  | Var x => identifier x
  | Name n => no n
  | Int n => 0 <= n
  | Attr e a => plain e /\ no a
  | Call f args => plain f /\ fold_right (fun a r => plain a /\ r) True args
  | Compare _ l r | Mod l r | Assign l r => plain l /\ plain r
  | Not e | Tuple1 e | Do e => plain e
  | ListComp e t i | SetComp e t i => plain e /\ plain t /\ plain i
  | CallKw f args k e => plain f /\ fold_right (fun a r => plain a /\ r) True args /\ no k /\ plain e
  | EmptyList | EmptyDict => True
  end.
Section Shown.
  Notation id_env := (fun n : label => Some n : option text).
  Let dollared (p : text + label) : text := match p with inl s => s | inr a => TX "$" ++ a end.
  Let named (p : text + label) : text := match p with inl s => s | inr a => a end.
  Let src ps := concat (map dollared ps).
  Let out ps := concat (map named ps).
  (** [ps] can be followed by anything that does not go on with a name. *)
  Let good ps := forall rest o, ~ starts_ident_char rest -> expands id_env rest o -> expands id_env (src ps ++ rest) (out ps ++ o).
  (** [ps] can be followed by anything. *)
  Let closed ps := forall rest o, expands id_env rest o -> expands id_env (src ps ++ rest) (out ps ++ o).
  (** what begins with [ps] does not go on with a name *)
  Let fence ps := forall rest, ~ starts_ident_char rest -> ~ starts_ident_char (src ps ++ rest).
  Lemma closed_good ps : closed ps -> good ps. Proof. intros H rest o _. apply H. Qed.
  Lemma src_app a b : src (a ++ b) = src a ++ src b. Proof. unfold src. now rewrite map_app, concat_app. Qed.
  Lemma out_app a b : out (a ++ b) = out a ++ out b. Proof. unfold out. now rewrite map_app, concat_app. Qed.
  Lemma good_app a b : good a -> good b -> fence b -> good (a ++ b).
  Proof. intros A B F rest o N E. rewrite src_app, out_app, <- !app_assoc. apply A; [now apply F|]. now apply B. Qed.
  Lemma closed_app a b : good a -> closed b -> (forall rest, ~ starts_ident_char (src b ++ rest)) -> closed (a ++ b).
  Proof. intros A B F rest o E. rewrite src_app, out_app, <- !app_assoc. apply A; [apply F|]. now apply B. Qed.
  Lemma open_app a b : closed a -> good b -> good (a ++ b).
  Proof. intros A B rest o N E. rewrite src_app, out_app, <- !app_assoc. apply A. now apply B. Qed.
  Lemma both_app a b : closed a -> closed b -> closed (a ++ b).
  Proof. intros A B rest o E. rewrite src_app, out_app, <- !app_assoc. apply A. now apply B. Qed.
  Lemma expands_text s : ~ In 36 s -> forall rest o, expands id_env rest o -> expands id_env (s ++ rest) (s ++ o).
  Proof.
    induction s as [|c s IH]; intros N rest o E; [exact E|]. cbn [app]. apply ex_char; [intros ->; apply N; now left|]. apply IH; [|exact E]. intros H. apply N. now right.
  Qed.
  Lemma closed_text s : ~ In 36 s -> closed [inl s].
  Proof. intros N rest o E. unfold src, out. cbn [map concat dollared named]. rewrite !app_nil_r. now apply expands_text. Qed.
  Lemma good_var x : identifier x -> good [inr x].
  Proof. intros I rest o N E. unfold src, out. cbn [map concat dollared named]. rewrite !app_nil_r, <- app_assoc. now apply ex_var. Qed.
  Lemma fence_text c s ps : is_ident_char c = false -> forall rest, ~ starts_ident_char (src (inl (c :: s) :: ps) ++ rest).
  Proof. intros H rest (d & r & E & Hd). cbn in E. injection E as <- _. congruence. Qed.
  Lemma open_text s ps : ~ In 36 s -> good ps -> good (inl s :: ps).
  Proof. intros N. change (inl s :: ps) with ([inl s] ++ ps). apply open_app. now apply closed_text. Qed.
  Lemma both_text s ps : ~ In 36 s -> closed ps -> closed (inl s :: ps).
  Proof. intros N. change (inl s :: ps) with ([inl s] ++ ps). apply both_app. now apply closed_text. Qed.
  Lemma fence_app_text a c s ps : good a -> good (inl (c :: s) :: ps) -> is_ident_char c = false -> good (a ++ inl (c :: s) :: ps).
  Proof. intros A B H. apply good_app; [exact A|exact B|]. intros rest _. now apply fence_text. Qed.
  Lemma closed_app_text a c s ps : good a -> closed (inl (c :: s) :: ps) -> is_ident_char c = false -> closed (a ++ inl (c :: s) :: ps).
  Proof. intros A B H. apply closed_app; [exact A|exact B|]. now apply fence_text. Qed.
  Lemma closed_nil : closed []. Proof. intros rest o E. exact E. Qed.
  Lemma good_between l : Forall good l -> good (between [inl (TX ", ")] l).
  Proof.
    induction 1 as [|a l A L IH]; [apply closed_good, closed_nil|]. cbn [between]. destruct l as [|b l]; [exact A|].
    cbn [app]. apply fence_app_text; [exact A| |reflexivity]. apply open_text; [vm_compute; intuition discriminate|exact IH].
  Qed.
  Ltac nd := vm_compute; intuition discriminate.
  Ltac step := first [apply fence_app_text; [try assumption| |reflexivity] | apply open_text; [nd|] | apply closed_good, closed_nil | assumption].
  Lemma plain_args args : Forall (fun a => plain a -> good (pieces a)) args -> fold_right (fun a r => plain a /\ r) True args -> Forall good (map pieces args).
  Proof. induction 1 as [|a l A L IH]; cbn; intros H; constructor; [apply A, H|apply IH, H]. Qed.
  Lemma good_code c : plain c -> good (pieces c).
  Proof.
    induction c as [a|n|n|e a IH|g args IHf IHa|o l r IHl IHr|e IH|e t i He Ht Hi|e t i He Ht Hi|l r IHl IHr|e IH|g args n e IHf IHa IH| | |t e Ht He|e IH] using code_ind'; cbn [plain pieces]; intros H.
    - now apply good_var.
    - now apply closed_good, closed_text.
    - apply closed_good, closed_text. intros [E|[]]. lia.
    - destruct H as [H1 H2]. step; [auto|]. step. apply closed_good, closed_text, H2.
    - destruct H as [H1 H2]. cbn [app]. step; [auto|]. step. step; [|step; step]. apply good_between. now apply plain_args.
    - destruct H as [H1 H2]. cbn [app]. step; [auto|]. step. destruct o; cbn [cmp_text]; (apply open_text; [nd|]); (apply open_text; [nd|auto]).
    - cbn [app]. step. auto.
    - destruct H as (H1 & H2 & H3). cbn [app]. step. step; [auto|]. step. step; [auto|]. step. step; [auto|]. step. step.
    - destruct H as (H1 & H2 & H3). cbn [app]. step. step; [auto|]. step. step; [auto|]. step. step; [auto|]. step. step.
    - destruct H as [H1 H2]. cbn [app]. step; [auto|]. step. auto.
    - cbn [app]. step. step; [auto|]. step. step.
    - destruct H as (H1 & H2 & H3 & H4). cbn [app]. step; [auto|]. step. step; [|step; step]. apply good_between. apply Forall_app. split; [now apply plain_args|].
      constructor; [|constructor]. apply open_text; [exact H3|]. step. auto.
    - step. step.
    - step. step.
    - destruct H as [H1 H2]. cbn [app]. step; [auto|]. step. auto.
    - auto.
  Qed.
  Lemma code_example c : plain c -> expands id_env (source c) (show (fun x => x) c).
  Proof.
    intros H. pose proof (good_code c H [] [] ) as G. rewrite !app_nil_r in G. apply G; [intros (d & r & E & _); discriminate E|constructor].
  Qed.
End Shown.

(** For code with metavariables (as in the tables of the fixers) the examples are the
    same code, with each variable replaced by its name, before and after. *)
Theorem C84_code_partial : forall old new, plain old -> plain new ->
  let e := ExampleOf (Some (source old, false)) (Some (source new)) None None in
  example_fragment e = Ok (Some (show (fun x => x) old)) /\ example_replacement e = Ok (Some (show (fun x => x) new)).
Proof.
  intros old new Ho Hn e. split.
  - apply (C84_fragment e eq_refl). now apply code_example.
  - apply (C84_replacement e eq_refl). now apply code_example.
Qed.
Print Assumptions C84_code_partial.

Lemma examples_of fs ts : Forall2 (fun f t => example_fragment f = Ok (Some t)) fs ts -> mapM example_fragment fs = Ok (map Some ts).
Proof. induction 1 as [|f t fs ts H F IH]; [reflexivity|]. cbn [mapM map]. now rewrite H, IH. Qed.
Lemma all_texts_map l ts : all_texts (map Some ts ++ l) = do r <- all_texts l; Ok (ts ++ r).
Proof. induction ts as [|t ts IH]; cbn [map app all_texts]; [now destruct (all_texts l)|]. rewrite IH. now destruct (all_texts l). Qed.
Lemma join_lines (ts : list text) : join [NL] (ts ++ [[]]) = concat (map (fun t => t ++ [NL]) ts).
Proof.
  induction ts as [|t ts IH]; [reflexivity|]. destruct ts as [|u ts]; [cbn; now rewrite !app_nil_r|].
  change (join [NL] ((t :: u :: ts) ++ [[]])) with (t ++ [NL] ++ join [NL] ((u :: ts) ++ [[]])). rewrite IH. cbn [map concat]. now rewrite <- !app_assoc.
Qed.
(** The file of examples: two lines of comment and the example of each fixer, in
    order, each in lines of its own; there is none if a fixer has no example. *)
Theorem C84_example_file : forall fs ts b, Forall2 (fun f t => example_fragment f = Ok (Some t)) fs ts ->
  (example_source fs = Ok b <->
   utf8_decode b = Some (TX "# coding: utf-8" ++ [NL] ++ TX "# Only enable refex warnings: pylint: skip-file" ++ [NL] ++ concat (map (fun t => t ++ [NL]) ts))).
Proof.
  intros fs ts b H. unfold example_source. rewrite (examples_of _ _ H). cbn [bind].
  assert (E : all_texts ([Some (TX "# coding: utf-8"); Some (TX "# Only enable refex warnings: pylint: skip-file")] ++ map Some ts ++ [Some []])
              = Ok ((TX "# coding: utf-8" :: TX "# Only enable refex warnings: pylint: skip-file" :: ts) ++ [[]])).
  { change ([Some (TX "# coding: utf-8"); Some (TX "# Only enable refex warnings: pylint: skip-file")] ++ map Some ts ++ [Some []])
      with (map Some (TX "# coding: utf-8" :: TX "# Only enable refex warnings: pylint: skip-file" :: ts) ++ [Some []]). rewrite all_texts_map. reflexivity. }
  rewrite E. cbn [bind]. rewrite join_lines. cbn [map concat]. rewrite <- !app_assoc.
  match goal with |- match utf8_encode ?t with _ => _ end = _ <-> _ => destruct (utf8_encode t) as [c|] eqn:U end.
  - split; [intros [= <-]; exact (encode_decode _ _ U)|]. intros D. apply decode_encode in D. f_equal. rewrite U in D. now injection D.
  - split; [discriminate|]. intros D. apply decode_encode in D. rewrite U in D. discriminate D.
Qed.
Print Assumptions C84_example_file.
Theorem C84_no_example_file : forall fs ts f rest, Forall2 (fun f t => example_fragment f = Ok (Some t)) fs ts ->
  example_fragment f = Ok None -> (forall g, In g rest -> exists o, example_fragment g = Ok o) ->
  example_source (fs ++ f :: rest) = Err TypeError.
Proof.
  intros fs ts f rest H Hf Hr. unfold example_source.
  assert (E : exists os, mapM example_fragment rest = Ok os).
  { clear -Hr. induction rest as [|g rest IH]; [now exists []|]. destruct (Hr g (or_introl eq_refl)) as [o Ho]. destruct IH as [os IH]; [intros; apply Hr; now right|].
    exists (o :: os). cbn [mapM]. now rewrite Ho, IH. }
  destruct E as [os E].
  assert (M : mapM example_fragment (fs ++ f :: rest) = Ok (map Some ts ++ None :: os)).
  { clear Hr. revert E Hf. induction H as [|g t fs ts Hg F IH]; intros E Hf; cbn [app mapM map]; [now rewrite Hf, E|]. rewrite Hg, IH by assumption. reflexivity. }
  rewrite M. cbn [bind].
  change ([Some (TX "# coding: utf-8"); Some (TX "# Only enable refex warnings: pylint: skip-file")] ++ (map Some ts ++ None :: os) ++ [Some []])
    with ((map Some (TX "# coding: utf-8" :: TX "# Only enable refex warnings: pylint: skip-file" :: ts) ++ None :: os) ++ [Some []]).
  rewrite <- app_assoc, all_texts_map. reflexivity.
Qed.
Print Assumptions C84_no_example_file.

(** FINDING: patterns are read token by token but examples character by character.
    The pattern ['$x'] is a string and has no metavariable, so it matches nothing but
    itself (C22); but its example is another string, which it does not match.  And
    the pattern ['$'] has no example, but an exception. *)
Definition quoted (s : text) : text := [39] ++ s ++ [39].
Definition quoted_tokens (s : text) : list (text * ptok) :=
  let n := Z.of_nat (length (quoted s)) in
  [([], PTok 3 (quoted s) (1, 0) (1, n)); ([], PTok 4 [NL] (1, n) (1, n + 1)); ([], PTok 0 [] (2, 0) (2, 0))].
Lemma quoted_spelled : spelled 0 (1, 0) Start [] (quoted_tokens (TX "$x")) /\ spelled 0 (1, 0) Start [] (quoted_tokens (TX "$")).
Proof.
  split.
  all: unfold quoted_tokens; apply SL_word;
      [unfold is_word; cbn; unfold T_ENCODING, T_ENDMARKER, T_INDENT, T_DEDENT, T_NEWLINE, T_NL; lia
      |exists 0%nat, 0%nat; split; [reflexivity|auto]|reflexivity|reflexivity|now left|intros _; cbn; unfold NL; lia|cbn [pt_end]].
  all: apply (fun r c a i => SL_newline r c a i 0%nat); [now left|reflexivity|reflexivity|reflexivity|]; now constructor.
Qed.
Theorem C84_own_example_refuted : exists pattern toks other out,
  spelled 0 (1, 0) Start [] toks /\ spelling toks = pattern ++ [NL] /\ metavars (map snd toks) = []
  /\ example_fragment (ExampleOf (Some (pattern, false)) None None None) = Ok (Some out) /\ out <> pattern
  /\ metavars (map snd (quoted_tokens other)) = [] /\ example_fragment (ExampleOf (Some (quoted other, false)) None None None) = Err ValueError.
Proof.
  exists (quoted (TX "$x")), (quoted_tokens (TX "$x")), (TX "$"), (quoted (TX "x")). split; [apply quoted_spelled|].
  split; [vm_compute; reflexivity|]. split; [vm_compute; reflexivity|]. split; [vm_compute; reflexivity|]. split; [vm_compute; discriminate|]. split; vm_compute; reflexivity.
Qed.
Print Assumptions C84_own_example_refuted.

Example C84_nonvacuous :
  let e := ExampleOf (Some (TX "not $a in ${b}c$$", false)) (Some (TX "$a not in $b")) None None in
  example_fragment e = Ok (Some (TX "not a in bc$")) /\ example_replacement e = Ok (Some (TX "a not in b"))
  /\ (let old := Not (Compare In_ (Var (TX "a")) (Var (TX "b"))) in plain old /\ source old = TX "not $a in $b" /\ show (fun x => x) old = TX "not a in b")
  /\ option_map utf8_decode (match example_source [e] with Ok b => Some b | Err _ => None end)
     = Some (Some (TX "# coding: utf-8" ++ [NL] ++ TX "# Only enable refex warnings: pylint: skip-file" ++ [NL] ++ TX "not a in bc$" ++ [NL]))
  /\ example_source [e; ExampleOf (Some (TX "$a", true)) None None None] = Err TypeError.
Proof.
  split; [vm_compute; reflexivity|]. split; [vm_compute; reflexivity|]. split.
  - split; [|split; vm_compute; reflexivity]. split; [exists 97, []|exists 98, []]; repeat split; auto; try constructor.
  - split; vm_compute; reflexivity.
Qed.
