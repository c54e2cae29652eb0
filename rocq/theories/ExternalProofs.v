(** Proofs about whole-file rewriters in a search. *)
From Verif Require Import Py PyFacts Codec CodecProofs Subst ApplySpec Fmt Ast Template FromDiff FromDiffSpec FromDiffProofs Matcher MatcherProofs OnceProofs MergeProofs
  Search PragmaProofs PatTok PatSpec PatternSpec PyTemplateSpec PyTemplateProofs FindSpec FindProofs PropsExprSub Removal RewriteProofs External.
From Coq Require Import Permutation.

Lemma hunk_bound p b hs : forall i l x, In (l, x) (fst (hunk_dicts p b i hs)) -> exists sp, x = span_match b sp.
Proof.
  induction hs as [|[[s t] ad] hs IH]; intros i l x H; [destruct H|]. cbn [hunk_dicts] in H.
  destruct (hunk_dicts p b (S i) hs) as [bs rs] eqn:E. cbn [fst] in H. destruct H as [H|H].
  - exists (s, t). exact (eq_sym (f_equal snd H)).
  - apply (IH (S i) l). now rewrite E.
Qed.
Lemma dset_id {V} (d : dict V) k v : dget d k = Some v -> dset d k v = d.
Proof.
  induction d as [|[k' v'] d IH]; intros H; [discriminate H|]. cbn [dset]. cbn [dget] in H. destruct (text_eqb k' k) eqn:E.
  - assert (v' = v) by congruence. now subst.
  - now rewrite IH.
Qed.
(** Matches that are no code are left alone. *)
Lemma sanitize_spans pass_template tree tokens ms st : forall todo done,
  (forall x t, In (x, t) todo -> exists s sp, dget ms x = Some (PSpan s sp)) ->
  sanitize pass_template tree tokens ms todo done st = Ok (ms, done ++ todo, st).
Proof.
  induction todo as [|[x t] todo IH]; intros done H; cbn [sanitize]; [now rewrite app_nil_r|].
  destruct (H x t (or_introl eq_refl)) as (s & sp & E). rewrite E. cbn [sanitize_one removes_stmt bind].
  rewrite (dset_id _ _ _ E), IH; [now rewrite <- app_assoc|]. intros y u Hy. apply (H y u). now right.
Qed.
Lemma from_diff_dicts differ p before after bs ts : from_diff differ p before after = Ok (bs, ts) ->
  exists n, dkeys bs = map (hunk_label p) (seq 0 n) /\ dkeys ts = map (hunk_label p) (seq 0 n) /\ forall l x, In (l, x) bs -> exists sp, x = span_match before sp.
Proof.
  intros H. unfold from_diff in H. destruct (diff_loop _ 0 0 [] []) as [[hs [|? ?]]|x]; cbn [bind] in H; try discriminate H.
  exists (List.length hs). destruct (hunk_keys p before hs 0) as (K1 & K2 & _). injection H as H. pose proof (f_equal fst H) as Hb. pose proof (f_equal snd H) as Ht. cbn [fst snd] in Hb, Ht.
  subst bs ts. split; [exact K1|]. split; [exact K2|]. intros l x. apply hunk_bound.
Qed.

Lemma disjoint_merge (a b : dict bound) : (forall k, In k (dkeys a) -> ~ In k (dkeys b)) -> merge_bindings a b = Ok (Some (a ++ b)).
Proof.
  intros H. unfold merge_bindings, merge_bindings_in.
  assert (E : shared_keys a b = []).
  { destruct (shared_keys a b) as [|k l] eqn:E; [reflexivity|]. exfalso. assert (K : In k (shared_keys a b)) by (rewrite E; now left).
    unfold shared_keys in K. apply filter_In in K as [K1 K2]. apply (H k K1). now apply dmem_keys. }
  rewrite E. cbn [merge_shared bind]. cbn [app].
  assert (F : forall (x y : dict bound), (forall k, In k (dkeys x) -> ~ In k (dkeys y)) -> filter (fun kv : label * bound => negb (dmem y (fst kv))) x = x).
  { intros x y. induction x as [|[k v] x IH]; intros K; [reflexivity|]. cbn [filter fst]. destruct (dmem y k) eqn:M.
    - exfalso. apply (K k); [now left|]. now apply dmem_keys.
    - cbn [negb]. f_equal. apply IH. intros q Hq. apply K. now right. }
  rewrite !F; [reflexivity| |exact H]. intros k Hk Hk'. exact (H k Hk' Hk).
Qed.

Section Rewriter.
  Variable parse_ast : text -> text -> res parsed_file.
  Variable context : parsed_file -> pyinfo -> env.
  Variable pass_template : template.
  Variable G : grammar.
  Variable prefix : text.
  Variable f : text -> value -> res (option text).
  Definition rewriter : matcher := MWithReplacements (MBind ROOT_LABEL (MRewriteFile prefix f) None None) [].

  Lemma rewriter_accepted : from_matcher (MRewriteFile prefix f) [] = Ok rewriter.
  Proof. reflexivity. Qed.

  Variable data path : text.
  Variable parsed : parsed_file.
  Variable e : env.
  Hypothesis HD : is_differ (e_differ e).
  Hypothesis HT : pf_text (e_parsed e) = data.

  Lemma attempt_done d v : attempt (with_done e d) rewriter v = eval (with_done e d) rewriter v [].
  Proof. reflexivity. Qed.
  Lemma rewriter_stops d v x : f data v = Err x -> attempt (with_done e d) rewriter v = ([], Err x).
  Proof. intros H. rewrite attempt_done. unfold rewriter. cbn [eval]. unfold lift, mbind, ret. cbn [e_parsed with_done]. rewrite HT, H. reflexivity. Qed.
  Lemma rewriter_declines d v : f data v = Ok None -> attempt (with_done e d) rewriter v = ([], Ok None).
  Proof. intros H. rewrite attempt_done. unfold rewriter. cbn [eval]. unfold lift, mbind, ret. cbn [e_parsed with_done]. rewrite HT, H. reflexivity. Qed.
  Lemma rewriter_rewrites d v after : f data v = Ok (Some after) ->
    exists bs ts, from_diff (e_differ e) prefix data after = Ok (bs, ts)
      /\ attempt (with_done e d) rewriter v =
         ([], Ok (Some (RInfo (create_match (e_parsed e) v)
                         (Some (map (fun kv => (fst kv, bound_value (snd kv) None None)) bs ++ [(ROOT_LABEL, bound_value (create_match (e_parsed e) v) None None)])) ts))).
  Proof.
    intros H. destruct (from_diff_spec (e_differ e) prefix data after HD) as (bs & ts & E & _). exists bs, ts. split; [exact E|].
    destruct (from_diff_dicts _ _ _ _ _ _ E) as (n & K1 & K2 & _).
    rewrite attempt_done. unfold rewriter. cbn [eval]. unfold lift, mbind, ret. cbn [e_parsed with_done]. rewrite HT, H. cbn [e_differ with_done]. rewrite E.
    cbn [r_bindings r_match r_reps bind not_none fst snd].
    rewrite disjoint_merge.
    - cbn [r_bindings r_match r_reps bind not_none fst snd]. unfold merge_replacements.
      replace (existsb (dmem []) (dkeys ts)) with false by (symmetry; clear; induction (dkeys ts); [reflexivity|exact IHl]). now rewrite app_nil_r.
    - intros k Hk [<-|[]]. unfold dkeys in Hk. rewrite map_map in Hk. cbn [fst] in Hk. change (map (fun x => fst x) bs) with (dkeys bs) in Hk. rewrite K1 in Hk. revert Hk. apply not_plain_key.
      vm_compute. intuition discriminate.
  Qed.
  (** Nothing is found if every attempt declines. *)
  Lemma find_nothing : (forall v, f data v = Ok None \/ f data v = Err MatchError) -> matcher_find_iter e rewriter = Ok [].
  Proof.
    intros H. destruct (matcher_find_iter e rewriter) as [out|x] eqn:E.
    - destruct (find_iter_found _ _ _ E) as (hs & Hf & ->). destruct hs as [|h hs]; [reflexivity|]. exfalso.
      assert (exists d ran r, attempt (with_done e d) rewriter (h_value h) = (ran, Ok (Some r))) as (d & ran & r & A).
      { destruct (fd_match _ _ _ Hf [] h hs eq_refl) as [_ A]. eauto. }
      destruct (H (h_value h)) as [K|K]; [rewrite (rewriter_declines d _ K) in A|rewrite (rewriter_stops d _ _ K) in A]; discriminate A.
    - destruct (find_iter_raises _ _ _ E) as (N & hs & q & w & ran & _ & A).
      destruct (H w) as [K|K]; [rewrite (rewriter_declines _ _ K) in A; discriminate A|rewrite (rewriter_stops _ _ _ K) in A]. congruence.
  Qed.
  Lemma find_first x : attempt (with_done e []) rewriter (e_tree e) = ([], Err x) -> x <> MatchError -> matcher_find_iter e rewriter = Err x.
  Proof.
    intros A N. unfold matcher_find_iter. rewrite vsize_children. cbn [find_loop]. rewrite A. destruct x; try reflexivity. now elim N.
  Qed.
  Lemma find_whole r : attempt (with_done e []) rewriter (e_tree e) = ([], Ok (Some r)) -> matcher_find_iter e rewriter = Ok [(e_tree e, r)].
  Proof. intros A. unfold matcher_find_iter. rewrite vsize_children. cbn [find_loop]. rewrite A. cbn [app bind]. destruct (sizes (vchildren (e_tree e))); reflexivity. Qed.

  Hypothesis HP : parsed_source parse_ast context G data path parsed e.
  Hypothesis HGp : python_grammar G.
  Hypothesis Hm : vtype (e_tree e) = TX "Module".
  Hypothesis Hsp : exists a b, m_span (create_match parsed (e_tree e)) = Some (a, b).

  Lemma module_body : has_field (e_tree e) (TX "body") = true.
  Proof.
    pose proof (pt_conforms _ _ (ps_tree _ _ _ _ _ _ _ HP)) as C. destruct (e_tree e) as [i fs| |]; [|discriminate Hm|exfalso; apply (f_equal (fun t => text_eqb t (TX "Module"))) in Hm; revert Hm; clear; destruct c as [| |[] ?| |]; vm_compute; intros K; discriminate K].
    destruct (module_fields G i fs HGp C Hm) as (b & t & -> & _). reflexivity.
  Qed.
  Definition searcher_of : searcher := python_searcher parse_ast context pass_template rewriter.

  Lemma searched : s_parse searcher_of data path = Ok parsed.
  Proof. cbn. unfold python_parse. now rewrite (ps_parsed _ _ _ _ _ _ _ HP). Qed.
  Lemma whole_file after : f data (e_tree e) = Ok (Some after) ->
    exists s, s_find searcher_of parsed = Ok [s] /\ key_span s = None /\ apply_substitutions data [s] = Ok after.
  Proof.
    intros H. destruct (rewriter_rewrites [] _ _ H) as (bs & ts & E & A). pose proof (find_whole _ A) as F. clear A.
    destruct (from_diff_spec (e_differ e) prefix data after HD) as (bs' & ts' & E' & K). rewrite E in E'. injection E' as <- <-.
    destruct (from_diff_dicts _ _ _ _ _ _ E) as (n & K1 & K2 & K3).
    destruct (ps_python _ _ _ _ _ _ _ HP) as (info & P1 & P2 & P3). pose proof (ps_env _ _ _ _ _ _ _ HP) as P4.
    destruct Hsp as (a & b & Ha). assert (H0 : 0 <= a) by (apply (ps_offsets _ _ _ _ _ _ _ HP (e_tree e) a b); [exists []; reflexivity|exact Ha]).
    rewrite P4 in F. set (root := create_match parsed (e_tree e)) in *.
    set (ms := bs ++ [(ROOT_LABEL, root)]).
    assert (Nr : ~ In ROOT_LABEL (dkeys bs)).
    { rewrite K1. apply not_plain_key. vm_compute. intuition discriminate. }
    assert (Db : dict_ok bs) by (unfold dict_ok; rewrite K1; apply labels_nodup).
    assert (Dr : dget ms ROOT_LABEL = Some root).
    { unfold ms. rewrite dget_app. destruct (dget bs ROOT_LABEL) as [v|] eqn:Eg; [exfalso; apply Nr; now apply dget_Some_keys in Eg|reflexivity]. }
    destruct (K parsed root a b ms None) as (reps & s & R1 & R2 & R3).
    - exact Ha.
    - exact H0.
    - unfold ms. apply Permutation_sym, Permutation_cons_append.
    - exists s. split; [|split; [|exact R3]].
      + cbn [s_find searcher_of python_searcher]. unfold find_dicts. rewrite P1, <- P2, F. cbn [map snd bind sanitize_all r_bindings not_none r_reps].
        rewrite map_app, map_map. cbn [map fst snd b_value bound_value].
        replace (map (fun x : label * pymatch => (fst x, snd x)) bs) with bs by (clear; induction bs as [|[k v] bs IH]; cbn; [reflexivity|now rewrite <- IH]).
        fold ms. rewrite sanitize_spans.
        * cbn [app bind rewriting_find]. rewrite R1. unfold key_span_for_dict. rewrite Dr.
          assert (Ek : match root with PLex v _ _ _ _ _ => v = e_tree e | _ => True end).
          { unfold root, create_match. destruct (lexical_tokens (e_tree e)) as [[? ?]|]; [reflexivity|]. destruct (e_tree e) as [| |? []]; exact I. }
          assert (Es : get_simple_node (e_tree e) (e_tree e) = Ok None).
          { unfold get_simple_node. cbn [simple_loop]. now rewrite module_body. }
          rewrite P3. clearbody ms. revert Ek. generalize root. intros rt Ek. destruct rt as [| | | |v ? ? ? ? ?]; cbn [bind]; try (rewrite R2; reflexivity).
          subst v. rewrite Es. unfold bind at 2. unfold bind at 1. exact (f_equal (fun r => do s <- r; Ok [s]) R2).
        * intros x t Hx. assert (Kx : In x (dkeys bs)) by (rewrite K1, <- K2; apply in_map_iff; now exists (x, t)).
          apply keys_dget in Kx as [v Hv]. destruct (K3 x v) as (sp & ->); [now apply dget_In|]. unfold ms. rewrite dget_app, Hv. unfold span_match. eauto.
      + unfold sub_of_match, make_sub in R2. match type of R2 with (do _ <- ?v; _) = _ => destruct v; cbn [bind] in R2; [now injection R2 as <-|discriminate R2] end.
  Qed.
  (** What a search with it makes of the file. *)
  Theorem rewritten_whole : (forall v, f data v = f data (e_tree e)) -> forall n,
    rewrite_string parse_ast searcher_of data path n
    = match f data (e_tree e) with
      | Ok (Some after) => Ok after
      | Ok None | Err MatchError => Ok data
      | Err x => Err x
      end.
  Proof.
    intros Hf n.
    assert (Hfind : forall r, s_find searcher_of parsed = r ->
              rewrite_string parse_ast searcher_of data path n
              = (do subs <- (do x <- r; do outs <- mapM (process_group parse_ast searcher_of parsed n) (group_by_key x); Ok (concat outs)); apply_substitutions data subs)).
    { intros r <-. unfold rewrite_string, find_iter. change (s_check searcher_of path) with (@Ok unit tt). cbn [bind]. rewrite searched. reflexivity. }
    destruct (ps_python _ _ _ _ _ _ _ HP) as (info & P1 & P2 & P3).
    assert (N : matcher_find_iter e rewriter = Ok [] -> rewrite_string parse_ast searcher_of data path n = Ok data).
    { intros F. apply (PragmaProofs.rewrite_string_none _ _ _ _ _ parsed); [reflexivity|exact searched|]. cbn [s_find searcher_of python_searcher]. unfold find_dicts. rewrite P1, <- P2, F. reflexivity. }
    assert (X : forall x, matcher_find_iter e rewriter = Err x -> rewrite_string parse_ast searcher_of data path n = Err x).
    { intros x F. rewrite (Hfind (Err x)); [reflexivity|]. cbn [s_find searcher_of python_searcher]. unfold find_dicts. rewrite P1, <- P2, F. reflexivity. }
    destruct (f data (e_tree e)) as [[after|]|x] eqn:E.
    - destruct (whole_file after E) as (s & S1 & S2 & S3). rewrite (Hfind _ S1). cbn [bind group_by_key mapM]. rewrite S2. unfold process_group. cbn [fst snd bind concat app]. exact S3.
    - apply N, find_nothing. intros v. rewrite Hf. now left.
    - assert (D : x = MatchError \/ x <> MatchError) by (destruct (exn_eq_dec x MatchError); auto). destruct D as [->|D].
      + apply N, find_nothing. intros v. rewrite Hf. now right.
      + replace (match x with MatchError => Ok data | _ => Err x end) with (@Err text x) by (destruct x; try reflexivity; now elim D).
        apply X, find_first; [|exact D]. now apply rewriter_stops.
  Qed.
End Rewriter.
