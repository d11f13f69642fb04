(** Proofs for C72: where a new element is put. *)
From Verif Require Export ProofSay6.
From Coq Require Import Lia.
Local Open Scope peg_scope.
Local Open Scope N_scope.

(** ** The beginning of a part is not a word *)
Definition letters_first (t : str) : Prop := exists v u, t = v ++ 41 :: u /\ v <> [] /\ forallb (in_range 97 122) v = true /\ (List.length v <= 2)%nat.
Definition part_first (t : str) : Prop := digit_first t \/ (exists u, t = 40 :: u) \/ letters_first t.
Lemma hic_letters h : hic_ok h = true -> hic_show h <> [] /\ forallb (in_range 97 122) (hic_show h) = true /\ (List.length (hic_show h) <= 2)%nat.
Proof.
  intros H. destruct h; try (split; [discriminate|]; split; [vm_compute; reflexivity|vm_compute; lia]). cbn [hic_show]. split; [discriminate|]. split; [|cbn; lia]. cbn [forallb].
  rewrite andb_true_r. exact H.
Qed.
Lemma prefixed_letters p : prefixed_ok p = true -> prefixed_latin p = true -> prefixed_show p <> [] /\ forallb (in_range 97 122) (prefixed_show p) = true /\ (List.length (prefixed_show p) <= 2)%nat.
Proof.
  intros H L. unfold prefixed_ok, prefixed_show, prefixed_latin in *. apply andb_true_iff in H as [H1 H2]. destruct (hic_letters _ H2) as (A & B & C).
  destruct (p_prefix p) as [q|]; cbn [app].
  - destruct (hic_letters _ H1) as (A' & B' & C'). split; [destruct (hic_show q); [congruence|discriminate]|]. rewrite forallb_app, B, B'. split; [reflexivity|].
    destruct q, (p_chr p); try discriminate; cbn; lia.
  - split; [exact A|]. split; [exact B|lia].
Qed.
Lemma first_of_part p i n n' u : part_good p -> said_part p i n n' -> part_first (i ++ u).
Proof.
  intros G P. assert (HL : forall h v, hic_ok h = true -> letters_first (hic_show h ++ lit ")" ++ v)).
  { intros h v H. destruct (hic_letters h H) as (A & B & C). exists (hic_show h), v. split; [reflexivity|]. split; [exact A|]. split; [exact B|lia]. }
  assert (PL : forall q v, prefixed_ok q = true /\ prefixed_latin q = true -> letters_first (prefixed_show q ++ lit ")" ++ v)).
  { intros q v [H HL']. destruct (prefixed_letters q H HL') as (A & B & C). exists (prefixed_show q), v. split; [reflexivity|]. auto. }
  assert (DN : forall x v, digit_first (numeric_show x ++ v)).
  { intros x v. unfold numeric_show. destruct (n_suffix x); [rewrite <- app_assoc|]; apply digit_first_number. }
  inversion P as [r' ? C|r' ? C|r' ? C|r' ? C|r' ? C|r' ? C]; subst; cbn in G.
  - left. eapply digit_first_article, C.
  - right. left. destruct C as [[_ ->]|[_ ->]]; unfold from_to; cbn [app]; eexists; reflexivity.
  - left. destruct C as [[_ ->]|[_ ->]]; unfold from_to; rewrite <- !app_assoc; apply DN.
  - right. right. destruct C as [[_ ->]|[_ ->]]; unfold from_to; cbn [app]; rewrite <- !app_assoc; apply HL, G.
  - left. destruct C as [[_ ->]|[_ ->]]; unfold from_to; rewrite <- !app_assoc; apply DN.
  - right. right. destruct C as [[_ ->]|[_ ->]]; unfold from_to; cbn [app]; rewrite <- !app_assoc; apply PL, G.
Qed.
Lemma first_ws t : part_first t -> quiet is_ascii_ws t.
Proof.
  intros [D|[(u & ->)|(v & u & -> & NE & F & _)]]; [now apply digit_first_ws|reflexivity|]. destruct v as [|x v]; [congruence|]. cbn [forallb] in F. apply andb_true_iff in F as [F _].
  cbn [app quiet]. now apply az_not_ws.
Qed.
Lemma first_dash t : part_first t -> quiet (fun c => existsb (N.eqb c) dash_chars) t.
Proof.
  intros [D|[(u & ->)|(v & u & -> & NE & F & _)]]; [now apply digit_not; [apply no_dash_digit|]|reflexivity|]. destruct v as [|x v]; [congruence|]. cbn [forallb] in F. apply andb_true_iff in F as [F _].
  cbn [app quiet]. now apply no_dash_az.
Qed.
Definition word_ok (w : str) : bool :=
  match w with x :: _ => negb (is_digit x) && negb (x =? 40) && forallb (fun c => negb (c =? 41)) w && (existsb (fun c => negb (in_range 97 122 c)) w || Nat.ltb 2 (List.length w)) | [] => false end.
Lemma strip_letters w : forall v u r, forallb (fun c => negb (c =? 41)) w = true -> strip_prefix w (v ++ 41 :: u) = Some r -> exists v', v = w ++ v'.
Proof.
  induction w as [|x w IH]; intros v u r H E; [now exists v|]. cbn [forallb] in H. apply andb_true_iff in H as [H1 H2]. destruct v as [|y v]; cbn [app strip_prefix] in E.
  - destruct (x =? 41); discriminate.
  - destruct (N.eqb_spec x y) as [<-|]; [|discriminate]. destruct (IH v u r H2 E) as (v' & ->). now exists v'.
Qed.
Lemma no_word w t : part_first t -> word_ok w = true -> strip_prefix w t = None.
Proof.
  intros P H. destruct w as [|x w]; [discriminate|]. cbn [word_ok] in H. apply andb_true_iff in H as [H H4]; apply andb_true_iff in H as [H H3]; apply andb_true_iff in H as [H1 H2]. destruct P as [(d & u & -> & D)|[(u & ->)|(v & u & -> & NE & F & L)]].
  - cbn. destruct (N.eqb_spec x d) as [->|]; [rewrite D in H1; discriminate|reflexivity].
  - cbn [strip_prefix]. destruct (x =? 40); [discriminate|reflexivity].
  - destruct (strip_prefix (x :: w) (v ++ 41 :: u)) as [r|] eqn:E; [|reflexivity]. exfalso. destruct (strip_letters _ _ _ _ H3 E) as (v' & ->).
    rewrite forallb_app in F. apply andb_true_iff in F as [F _]. apply orb_true_iff in H4 as [H4|H4].
    + apply existsb_exists in H4 as (c & I & H4). rewrite forallb_forall in F. rewrite (F c I) in H4. discriminate.
    + apply Nat.ltb_lt in H4. rewrite app_length in L. lia.
Qed.

Ltac lens := repeat rewrite ?utf8_len_app, ?app_nil_l; change (utf8_len []) with 0 in *; change (utf8_len (lit " ")) with 1 in *; lia.
Section Run.
  Variable known : list str.
  Local Notation yields := (yields known).
  Local Notation fails := (fails known).

  Lemma f_word s l o t : lead l -> part_first t -> word_ok (lit s) = true -> fails (T s) o (l ++ t).
  Proof. intros L P W. apply f_sk_lead; [exact L|now apply first_ws|]. intros o'. apply f_tok. now apply no_word. Qed.
  Lemma f_words ws l o t : lead l -> part_first t -> forallb (fun s => word_ok (lit s)) ws = true -> fails (one_of_sk ws) o (l ++ t).
  Proof.
    intros L P. induction ws as [|s ws IH]; cbn [forallb one_of_sk]; intros H; [intros g _; reflexivity|]. apply andb_true_iff in H as [H1 H2]. apply f_alt; [now apply f_word|now apply IH].
  Qed.
  Lemma no_dash_part l t : lead l -> part_first t -> forall o, fails (sk dash) o (l ++ t).
  Proof. intros L P o. apply f_sk_lead; [exact L|now apply first_ws|]. intros o'. apply f_chr. now apply first_dash. Qed.
  (** ** "a következő" *)
  Lemma f_token l o t : lead l -> part_first t -> fails (sk insertion_token) o (l ++ t).
  Proof.
    intros L P. pose proof (first_ws t P) as W. apply f_sk_lead; [exact L|exact W|]. intros o'. unfold insertion_token. eapply f_bind2.
    - apply y_sk; [exact W|]. unfold combinator_junk. eapply y_void, y_many_nil. apply (f_words _ [] _ t lead_none P). vm_compute. reflexivity.
    - apply f_sk; [exact W|]. unfold the_following. eapply f_bind2.
      + apply y_none. apply f_one_of. cbn [forallb]. rewrite !no_word; auto; vm_compute; reflexivity.
      + apply f_alt; [|apply f_bind1]; apply f_tok; apply no_word; auto; vm_compute; reflexivity.
  Qed.
  Lemma lead_len l : lead l -> utf8_len l = 0 \/ utf8_len l = 1.
  Proof. intros [->| ->]; [left|right]; reflexivity. Qed.
  Lemma y_the_following f o t : In f following -> yields the_following o (f ++ lit " " ++ t) tt (o + utf8_len f) (lit " " ++ t).
  Proof.
    unfold following. cbn [map In]. intros [<-|[<-|[]]]; unfold the_following.
    - change (lit "a következő") with (lit "a " ++ lit "következő"). rewrite <- app_assoc, utf8_len_app, N.add_assoc. eapply y_bind; [apply y_some; cbn [one_of]; apply y_alt1, y_tok|]. apply y_alt1, y_tok.
    - change (lit "az alábbi") with (lit "az " ++ lit "alábbi"). rewrite <- app_assoc, utf8_len_app, N.add_assoc. eapply y_bind; [apply y_some; cbn [one_of]; apply y_alt2; [apply f_tok; reflexivity|apply y_alt1, y_tok]|].
      apply y_alt2; [apply f_tok; reflexivity|]. unfold suffixed. eapply y_bind; [apply y_tok|]. eapply y_void, y_many_nil. apply f_chr. reflexivity.
  Qed.
  Lemma following_ws f t : In f following -> quiet is_ascii_ws (f ++ t).
  Proof. unfold following. cbn [map In]. intros [<-|[<-|[]]]; reflexivity. Qed.
  Lemma y_token f l o t : In f following -> lead l -> yields (sk insertion_token) o (l ++ f ++ lit " " ++ t) tt (o + utf8_len (l ++ f)) (lit " " ++ t).
  Proof.
    intros I L. pose proof (following_ws f (lit " " ++ t) I) as W. rewrite utf8_len_app, N.add_assoc. apply y_sk_lead; [exact L|exact W|]. unfold insertion_token.
    eapply y_bind; [apply y_sk; [exact W|]|apply y_sk; [exact W|now apply y_the_following]]. unfold combinator_junk. eapply y_void, y_many_nil.
    clear W. unfold following in I. cbn [map In] in I. destruct I as [<-|[<-|[]]]; intros g _; vm_compute; reflexivity.
  Qed.

  (** ** The reference *)
  Definition mid (f t : str) : str := lit " " ++ f ++ lit " " ++ t.
  Lemma after_mid f t : In f following -> after_ref known (mid f t).
  Proof.
    unfold following, mid. cbn [map In]. intros I. repeat (destruct I as [<-|I]; [constructor; [vm_compute; reflexivity|vm_compute; reflexivity|failing|failing|failing|failing]|]). contradiction.
  Qed.
  Lemma mid_not_reference f o t : In f following -> fails (sk g_reference) o (mid f t).
  Proof. unfold following, mid. cbn [map In]. intros [<-|[<-|[]]]; intros g _; vm_compute; reflexivity. Qed.
  Lemma mid_not_paragraph f o t : In f following -> fails (sk paragraph_reference) o (mid f t).
  Proof. unfold following, mid. cbn [map In]. intros [<-|[<-|[]]]; intros g _; vm_compute; reflexivity. Qed.
  Lemma mid_not_struct f o t : In f following -> fails struct_inner o (f ++ lit " " ++ t).
  Proof. unfold following, mid. cbn [map In]. intros [<-|[<-|[]]]; intros g _; vm_compute; reflexivity. Qed.
  Lemma mid_not_replaced f o t : In f following -> part_first t -> fails (sk amendment_suffix) o (mid f t).
  Proof.
    intros I P. pose proof (following_ws f (lit " " ++ t) I) as W. unfold mid. apply f_sk_sp; [exact W|]. unfold amendment_suffix.
    assert (K : forall s o', word_ok (lit s) = true -> fails (sk the_following ;; T s) o' (f ++ lit " " ++ t)).
    { intros s o' H. eapply f_bind2; [apply y_sk; [exact W|now apply y_the_following]|]. exact (f_word s (lit " ") _ t lead_space P H). }
    apply f_alt; [|apply f_alt; apply K; vm_compute; reflexivity].
    apply f_bind1. clear - I. unfold following in I. cbn [map In] in I. destruct I as [<-|[<-|[]]]; intros g _; vm_compute; reflexivity.
  Qed.
  Lemma inserts e A (x : A) o : In e insertion_endings -> exists o', yields (sk insertion_suffix ;; T ":" ;; ret x) o e x o' [].
  Proof. unfold insertion_endings. cbn [map In]. intros [<-|[<-|[]]]; computed. Qed.
  Lemma after_insertion e : In e insertion_endings -> after_ref known e /\ (forall o, fails (sk paragraph_reference) o e) /\ forall o, fails (sk list_separator) o e.
  Proof.
    unfold insertion_endings. cbn [map In]. intros I. repeat (destruct I as [<-|I]; [split; [constructor; [vm_compute; reflexivity|vm_compute; reflexivity|failing|failing|failing|failing]|split; failing]|]). contradiction.
  Qed.
  Lemma noun_ended x e t : ending (PartArticle x) e -> after_ref known t -> article_noun (lit "§" ++ e) t.
  Proof.
    intros F AF. inversion F as [p0|r0 w NE FW|p0 w NA]; subst; [left; split; [reflexivity|apply (ar_dash _ _ AF)]| |now destruct (NA x)].
    right. exists w. split; [reflexivity|]. split; [exact NE|]. split; [now apply smalls|apply (ar_lower _ _ AF)].
  Qed.

  (** What is read *)
  Definition same_parts (gi : g_ins) (g : g_ref) : Prop := exists l q, gr_article g = Some l /\ ps_end q = ps_end (gr_pos g) /\
    gi = mkGIns [l] (gr_paragraph g) (gr_num_point g) (gr_alpha_point g) (gr_num_sub g) (gr_alpha_sub g) q.
  Definition ins_read (r : reference) (o : N) (t : str) (gi : g_ins) (st e : N) (u : str) : Prop :=
    exists g, yields insertion_reference o t gi e u /\ same_parts gi g /\ gref_read r g st e.
  Lemma az_not_digit_first o t : digit_first t -> yields (opt (sk g_az)) o t None o t.
  Proof.
    intros D. apply y_none, f_sk; [now apply digit_first_ws|]. unfold g_az. apply f_bind1. apply f_tok_head; [discriminate|].
    apply (digit_not _ t); [|exact D]. intros c H. change (lit "a") with [97]. cbn [heads]. apply N.eqb_neq. intros <-. discriminate.
  Qed.
  Lemma article_part_first x i u : y_art_facts x i -> digit_first (i ++ u).
  Proof. intros A. eapply digit_first_article. apply A. Qed.
  Lemma ins_article r x f i e1 o u : f_article r = Some x -> f_paragraph r = None -> f_point r = None -> f_subpoint r = None -> In f following -> y_art_facts x i -> ending (PartArticle x) e1 -> In u insertion_endings ->
    exists gi, ins_read r o (f ++ lit " " ++ (i ++ lit " " ++ lit "§" ++ e1) ++ u) gi (o + utf8_len (f ++ lit " ")) (o + utf8_len (f ++ lit " " ++ i ++ lit " " ++ lit "§" ++ e1)) u.
  Proof.
    intros E1 E2 E3 E4 IF A EN IU. destruct (after_insertion u IU) as (AF & NP & NS).
    destruct (y_art known x i (lit " ") (o + utf8_len ([] ++ f)) (lit "§" ++ e1) u A lead_space (noun_ended x e1 u EN AF) (ar_no_dash _ _ AF)) as (p & Y & Y1 & Y2).
    pose proof (y_token f [] o (i ++ lit " " ++ (lit "§" ++ e1) ++ u) IF lead_none) as YT. cbn [app] in YT.
    rewrite <- !app_assoc in *. eexists. exists (mkGRef (Some [p]) None None None None None (ModelSem.mkPos (o + utf8_len (f ++ lit " ")) (o + utf8_len (f ++ lit " " ++ i ++ lit " " ++ lit "§" ++ e1)))). split; [|split].
    - unfold insertion_reference. eapply y_located. apply y_alt2.
      + eapply f_bind2; [exact YT|]. eapply f_bind2; [exact Y|]. apply f_bind1, NP.
      + apply y_alt1. eapply y_bind; [exact YT|]. eapply y_bind; [exact Y|]. eapply y_bind; [apply y_none, f_bind1, NS|]. eapply y_eq; [apply y_ret|lens].
    - eexists [p], _. split; [reflexivity|]. split; [|reflexivity]. reflexivity.
    - constructor; cbn; rewrite ?E1, ?E2, ?E3, ?E4; auto. exists p. split; [reflexivity|]. split; [|exact Y2]. rewrite Y1. lens.
  Qed.
  (** The article and what follows *)
  Lemma ins_start x i n t o : y_art_facts x i -> article_noun n t -> (forall o, fails (sk dash) o t) ->
    exists p, (forall o', fails (sk insertion_token) o' (i ++ lit " " ++ n ++ t)) /\ ps_start (ga_pos p) = o /\ article_part p = Ok x /\
      yields (opt (sk g_az)) o (i ++ lit " " ++ n ++ t) None o (i ++ lit " " ++ n ++ t) /\ yields (sk article_reference) o (i ++ lit " " ++ n ++ t) [p] (o + utf8_len (i ++ lit " " ++ n)) t.
  Proof.
    intros A N D. destruct (y_art known x i [] o n t A lead_none N D) as (p & Y & Y1 & Y2). exists p. pose proof (article_part_first x i (lit " " ++ n ++ t) A) as DF. split; [|split; [|split; [|split]]].
    - intros o'. apply (f_token [] o' _ lead_none). now left.
    - rewrite Y1. lens.
    - exact Y2.
    - now apply az_not_digit_first.
    - exact Y.
  Qed.
  Lemma noun_plain t : article_noun (lit "§") (lit " " ++ t).
  Proof. left. split; reflexivity. Qed.
  Lemma y_par y i l o w t : range_of (fun x => numeric_ok x = true) y -> closed_by_paren (lit "(") numeric_show y i -> lead l -> forallb is_hun_lower w = true -> quiet is_hun_lower t ->
    exists p, yields (sk paragraph_reference) o (l ++ i ++ lit " " ++ lit "bekezdés" ++ w ++ t) [p] (o + utf8_len (l ++ i ++ lit " " ++ lit "bekezdés" ++ w)) t /\ part_range numeric_parse p = Ok y.
  Proof.
    intros G C L F Q. assert (W : quiet is_ascii_ws i /\ i <> []) by (destruct C as [[_ ->]|[_ ->]]; unfold from_to; cbn [app]; split; try reflexivity; discriminate). destruct W as [W NE].
    destruct (y_level known numeric_parse paragraph_reference_part "bekezdés" i y l o w t (read_paragraph known y i G C) L W NE) as (p & Y & _ & Y2); auto; [now cbn|]. exists p. auto.
  Qed.
  Lemma ins_paragraph r x y f i e1 i2 e2 o u : f_article r = Some x -> f_paragraph r = Some y -> f_point r = None -> f_subpoint r = None -> In f following -> y_art_facts x i -> ending (PartArticle x) e1 ->
    range_of (fun x => numeric_ok x = true) y -> closed_by_paren (lit "(") numeric_show y i2 -> forallb is_hun_lower e2 = true -> In u insertion_endings ->
    exists gi, ins_read r o ((i ++ lit " " ++ lit "§" ++ e1) ++ mid f ((i2 ++ lit " " ++ lit "bekezdés" ++ e2) ++ u)) gi o (o + utf8_len ((i ++ lit " " ++ lit "§" ++ e1) ++ mid f (i2 ++ lit " " ++ lit "bekezdés" ++ e2))) u.
  Proof.
    intros E1 E2 E3 E4 IF A EN G C F IU. destruct (after_insertion u IU) as (AF & NP & NS). set (t := (i2 ++ lit " " ++ lit "bekezdés" ++ e2) ++ u).
    pose proof (after_mid f t IF) as AM. destruct (ins_start x i (lit "§" ++ e1) (mid f t) o A (noun_ended x e1 _ EN AM) (ar_no_dash _ _ AM)) as (p & NT & P1 & P2 & YZ & Y).
    pose proof (y_token f (lit " ") (o + utf8_len (i ++ lit " " ++ lit "§" ++ e1)) t IF lead_space) as YT.
    destruct (y_par y i2 (lit " ") (o + utf8_len (i ++ lit " " ++ lit "§" ++ e1) + utf8_len (lit " " ++ f)) e2 u G C lead_space F (ar_lower _ _ AF)) as (pp & YP & P3).
    unfold mid in *. unfold t in *. rewrite <- !app_assoc in *. eexists. exists (mkGRef (Some [p]) (Some [pp]) None None None None (ModelSem.mkPos o (o + utf8_len ((i ++ lit " " ++ lit "§" ++ e1) ++ mid f (i2 ++ lit " " ++ lit "bekezdés" ++ e2))))). split; [|split].
    - unfold insertion_reference. eapply y_located. apply y_alt2; [apply f_bind1, NT|]. apply y_alt2; [apply f_bind1, NT|]. apply y_alt1.
      eapply y_bind; [apply y_some, y_alt1; eapply y_bind; [exact YZ|]; eapply y_bind; [exact Y|apply y_ret]|]. eapply y_bind; [exact YT|]. eapply y_bind; [exact YP|]. eapply y_eq; [apply y_ret|]. lens.
    - eexists [p], _. split; [reflexivity|]. split; [|reflexivity]. unfold mid. rewrite <- !app_assoc. reflexivity.
    - unfold mid. rewrite <- !app_assoc. constructor; cbn; rewrite ?E1, ?E2, ?E3, ?E4; auto; [exists p|exists pp]; auto. split; [reflexivity|]. split; [exact P3|discriminate].
  Qed.
  (** The article and the paragraph before a point *)
  Record before_point (t : str) : Prop := {
    bp_lower : quiet is_hun_lower t; bp_dash : quiet (N.eqb 45) t; bp_no_dash : forall o, fails (sk dash) o t; bp_par : forall o, fails (sk paragraph_reference) o t;
    bp_token : forall o A (k : list g_part -> parser A), fails (sk insertion_token ;; q <- sk paragraph_reference ;; k q) o t }.
  Definition ins_head (x : range article_id) (yo : option (range numeric)) (s : str) : Prop := exists i, y_art_facts x i /\ match yo with
    | None => exists e, ending (PartArticle x) e /\ s = i ++ lit " " ++ lit "§" ++ e
    | Some y => exists i2 e, range_of (fun x => numeric_ok x = true) y /\ closed_by_paren (lit "(") numeric_show y i2 /\ forallb is_hun_lower e = true /\ s = i ++ lit " " ++ lit "§" ++ lit " " ++ i2 ++ lit " " ++ lit "bekezdés" ++ e
    end.
  Lemma y_ins_head x yo s t o : ins_head x yo s -> before_point t -> exists p po o1 t1,
    (forall o', fails (sk insertion_token) o' (s ++ t)) /\ ps_start (ga_pos p) = o /\ article_part p = Ok x /\
    match yo with None => po = None | Some y => exists pp, po = Some [pp] /\ part_range numeric_parse pp = Ok y end /\
    yields (opt (sk g_az)) o (s ++ t) None o (s ++ t) /\ yields (sk article_reference) o (s ++ t) [p] o1 t1 /\
    yields (opt (sk paragraph_reference)) o1 t1 po (o + utf8_len s) t /\ (forall A (k : list g_part -> parser A), fails (sk insertion_token ;; q <- sk paragraph_reference ;; k q) o1 t1).
  Proof.
    intros (i & A & H) B. destruct yo as [y|].
    - destruct H as (i2 & e & G & C & F & ->).
      assert (PF : part_first (i2 ++ lit " " ++ lit "bekezdés" ++ e ++ t)) by (eapply first_of_part; [|exact (said_paragraph y i2 C)]; exact I).
      destruct (ins_start x i (lit "§") (lit " " ++ i2 ++ lit " " ++ lit "bekezdés" ++ e ++ t) o A (noun_plain _)) as (p & NT & P1 & P2 & YZ & Y); [intros o'; now apply (no_dash_part (lit " ")); [apply lead_space|]|].
      destruct (y_par y i2 (lit " ") (o + utf8_len (i ++ lit " " ++ lit "§")) e t G C lead_space F (bp_lower _ B)) as (pp & YP & P3).
      exists p, (Some [pp]), (o + utf8_len (i ++ lit " " ++ lit "§")), (lit " " ++ i2 ++ lit " " ++ lit "bekezdés" ++ e ++ t). rewrite <- !app_assoc.
      split; [exact NT|]. split; [exact P1|]. split; [exact P2|]. split; [exists pp; auto|]. split; [exact YZ|]. split; [exact Y|]. split.
      + eapply y_eq; [apply y_some; exact YP|lens].
      + intros T k. apply f_bind1. now apply (f_token (lit " ")); [apply lead_space|].
    - destruct H as (e & EN & ->).
      assert (N : article_noun (lit "§" ++ e) t).
      { inversion EN as [p0|r0 w NE FW|p0 w NA]; subst; [left; split; [reflexivity|apply (bp_dash _ B)]| |now destruct (NA x)].
        right. exists w. split; [reflexivity|]. split; [exact NE|]. split; [now apply smalls|apply (bp_lower _ B)]. }
      destruct (ins_start x i (lit "§" ++ e) t o A N (bp_no_dash _ B)) as (p & NT & P1 & P2 & YZ & Y). rewrite <- !app_assoc in *.
      exists p, None, (o + utf8_len (i ++ lit " " ++ lit "§" ++ e)), t. split; [exact NT|]. split; [exact P1|]. split; [exact P2|]. split; [reflexivity|]. split; [exact YZ|]. split; [exact Y|]. split.
      + apply y_none, (bp_par _ B).
      + intros T k. apply (bp_token _ B).
  Qed.
  Lemma before_part f l p i n n' v : lead l -> In f following -> part_good p -> said_part p i n n' -> (forall x, p <> PartParagraph x) -> (forall x, p <> PartArticle x) ->
    before_point (mid f (i ++ v)) /\ before_point (lit " " ++ i ++ v).
  Proof.
    intros L IF G P NP NA. pose proof (first_of_part p i n n' v G P) as PF. pose proof (first_ws _ PF) as W.
    assert (Q : quiet (N.eqb 40) (i ++ v)).
    { inversion P as [r' ? C|r' ? C|r' ? C|r' ? C|r' ? C|r' ? C]; subst; try (now destruct (NP r')); try (now destruct (NA r')).
      - exact (proj2 (pt_head _ (PtNum r') i v G C no_paren_digit no_paren_az)).
      - exact (proj2 (pt_head _ (PtAlpha r') i v G C no_paren_digit no_paren_az)).
      - exact (proj2 (sp_head _ (SpNum r') i v G C no_paren_digit no_paren_az)).
      - exact (proj2 (sp_head _ (SpAlpha r') i v G C no_paren_digit no_paren_az)). }
    assert (FP : forall o, fails (sk paragraph_reference) o (lit " " ++ i ++ v)).
    { intros o. apply (f_level known paragraph_reference_part "bekezdés" (lit " ") o (i ++ v) lead_space W). intros o'. now apply f_paragraph_part. }
    split.
    - pose proof (after_mid f (i ++ v) IF) as AM. constructor; [apply (ar_lower _ _ AM)|apply (ar_dash _ _ AM)|apply (ar_no_dash _ _ AM)|intros o; now apply mid_not_paragraph|].
      intros o A k. eapply f_bind2; [exact (y_token f (lit " ") o (i ++ v) IF lead_space)|]. apply f_bind1, FP.
    - constructor; [reflexivity|reflexivity|intros o; exact (no_dash_part (lit " ") (i ++ v) lead_space PF o)|exact FP|].
      intros o A k. apply f_bind1. exact (f_token (lit " ") o (i ++ v) lead_space PF).
  Qed.
End Run.
