(** Proofs for C72: points and subpoints, and the sentence. *)
From Verif Require Export ProofSay7.
From Coq Require Import Lia.
Local Open Scope peg_scope.
Local Open Scope N_scope.

Section Run.
  Variable known : list str.
  Local Notation yields := (yields known).
  Local Notation fails := (fails known).
  Local Notation ins_read := (ins_read known).

  Lemma pt_said q i : pt_text q i -> exists n', said_part (PartPoint q) i (lit "pont") n'.
  Proof. destruct q; cbn; intros C; eexists; [now apply said_num_point|now apply said_alpha_point]. Qed.
  Lemma sp_said q i : sp_text q i -> exists n', said_part (PartSubpoint q) i (lit "alpont") n'.
  Proof. destruct q; cbn; intros C; eexists; [now apply said_num_subpoint|now apply said_alpha_subpoint]. Qed.
  Lemma ins_point r x q f s i e o u : f_article r = Some x -> f_point r = Some q -> f_subpoint r = None -> In f following -> ins_head x (f_paragraph r) s -> pt_good q -> pt_text q i ->
    forallb is_hun_lower e = true -> In u insertion_endings ->
    exists gi, ins_read r o (s ++ mid f ((i ++ lit " " ++ lit "pont" ++ e) ++ u)) gi o (o + utf8_len (s ++ mid f (i ++ lit " " ++ lit "pont" ++ e))) u.
  Proof.
    intros E1 E3 E4 IF H G C F IU. destruct (after_insertion known u IU) as (AF & _ & _). destruct (pt_said q i C) as (n' & SP).
    destruct (before_part known f [] (PartPoint q) i (lit "pont") n' (lit " " ++ lit "pont" ++ e ++ u) lead_none IF G SP) as [B _]; [discriminate|discriminate|].
    destruct (y_ins_head known x (f_paragraph r) s _ o H B) as (p & po & o1 & t1 & NT & P1 & P2 & P3 & YZ & YA & YP & NK).
    pose proof (y_token known f (lit " ") (o + utf8_len s) (i ++ lit " " ++ lit "pont" ++ e ++ u) IF lead_space) as YT.
    destruct (y_points known q i (lit " ") (o + utf8_len s + utf8_len (lit " " ++ f)) e u G C lead_space F (ar_lower _ _ AF)) as (z & YQ & RQ).
    exists (mk_ins [[p]] po (z, no_kind) (ModelSem.mkPos o (o + utf8_len (s ++ mid f (i ++ lit " " ++ lit "pont" ++ e))))).
    exists (mkGRef (Some [p]) po (fst z) (snd z) None None (ModelSem.mkPos o (o + utf8_len (s ++ mid f (i ++ lit " " ++ lit "pont" ++ e))))). unfold mid in *. rewrite <- !app_assoc in *. split; [|split].
    - unfold insertion_reference. eapply (y_located known) with (f := mk_ins [[p]] po (z, no_kind)). apply y_alt2; [apply f_bind1, NT|]. apply y_alt2; [apply f_bind1, NT|]. apply y_alt2.
      + eapply f_bind2; [apply y_some, y_alt1; eapply y_bind; [exact YZ|]; eapply y_bind; [exact YA|apply y_ret]|]. apply NK.
      + apply y_alt1. eapply y_bind; [apply y_some, y_alt1; eapply y_bind; [exact YZ|]; eapply y_bind; [exact YA|]; eapply y_bind; [exact YP|apply y_ret]|].
        eapply y_bind; [exact YT|]. eapply y_bind; [exact YQ|]. cbn [or_nothing fst snd]. eapply y_eq; [apply y_ret|lens].
    - eexists [p], _. split; [reflexivity|]. split; [|reflexivity]. reflexivity.
    - constructor; cbn [gr_article gr_paragraph gr_num_point gr_alpha_point gr_num_sub gr_alpha_sub gr_pos]; rewrite ?E1, ?E3, ?E4; auto.
      + exists p. auto.
      + destruct (f_paragraph r) as [y|]; [|exact P3]. destruct P3 as (pp & -> & P3). exists pp. split; [reflexivity|]. split; [exact P3|discriminate].
      + eexists. split; [rewrite <- surjective_pairing; exact RQ|discriminate].
  Qed.
  Lemma ins_subpoint r x q z f s i e i2 e2 o u : f_article r = Some x -> f_point r = Some q -> f_subpoint r = Some z -> In f following -> ins_head x (f_paragraph r) s -> pt_good q -> pt_text q i -> sp_good z -> sp_text z i2 ->
    forallb is_hun_lower e = true -> forallb is_hun_lower e2 = true -> In u insertion_endings ->
    exists gi, ins_read r o ((s ++ lit " " ++ i ++ lit " " ++ lit "pont" ++ e) ++ mid f ((i2 ++ lit " " ++ lit "alpont" ++ e2) ++ u)) gi o
      (o + utf8_len ((s ++ lit " " ++ i ++ lit " " ++ lit "pont" ++ e) ++ mid f (i2 ++ lit " " ++ lit "alpont" ++ e2))) u.
  Proof.
    intros E1 E3 E4 IF H G C G2 C2 F F2 IU. destruct (after_insertion known u IU) as (AF & _ & _). destruct (pt_said q i C) as (n' & SP). set (t := mid f ((i2 ++ lit " " ++ lit "alpont" ++ e2) ++ u)).
    destruct (before_part known f [] (PartPoint q) i (lit "pont") n' (lit " " ++ lit "pont" ++ e ++ t) lead_none IF G SP) as [_ B]; [discriminate|discriminate|].
    destruct (y_ins_head known x (f_paragraph r) s _ o H B) as (p & po & o1 & t1 & NT & P1 & P2 & P3 & YZ & YA & YP & NK).
    destruct (y_points known q i (lit " ") (o + utf8_len s) e t G C lead_space F) as (z1 & YQ & RQ); [apply (ar_lower _ _ (after_mid known f _ IF))|].
    pose proof (y_token known f (lit " ") (o + utf8_len s + utf8_len (lit " " ++ i ++ lit " " ++ lit "pont" ++ e)) ((i2 ++ lit " " ++ lit "alpont" ++ e2) ++ u) IF lead_space) as YT.
    destruct (y_subpoints known z i2 (lit " ") (o + utf8_len s + utf8_len (lit " " ++ i ++ lit " " ++ lit "pont" ++ e) + utf8_len (lit " " ++ f)) e2 u G2 C2 lead_space F2 (ar_lower _ _ AF)) as (z2 & YS & RS).
    assert (NF : part_first (i ++ lit " " ++ lit "pont" ++ e ++ t)) by (eapply first_of_part; [|exact SP]; exact G).
    set (fin := o + utf8_len ((s ++ lit " " ++ i ++ lit " " ++ lit "pont" ++ e) ++ mid f (i2 ++ lit " " ++ lit "alpont" ++ e2))).
    exists (mk_ins [[p]] po (z1, z2) (ModelSem.mkPos o fin)). exists (mkGRef (Some [p]) po (fst z1) (snd z1) (fst z2) (snd z2) (ModelSem.mkPos o fin)). split; [|split].
    - unfold insertion_reference. rewrite <- !app_assoc in *. eapply (y_located known) with (f := mk_ins [[p]] po (z1, z2)). apply y_alt2; [apply f_bind1, NT|]. apply y_alt2; [apply f_bind1, NT|]. apply y_alt2; [|apply y_alt2].
      + eapply f_bind2; [apply y_some, y_alt1; eapply y_bind; [exact YZ|]; eapply y_bind; [exact YA|apply y_ret]|]. apply NK.
      + eapply f_bind2; [apply y_some, y_alt1; eapply y_bind; [exact YZ|]; eapply y_bind; [exact YA|]; eapply y_bind; [exact YP|apply y_ret]|].
        apply f_bind1. exact (f_token known (lit " ") _ _ lead_space NF).
      + eapply y_bind; [exact YZ|]. eapply y_bind; [exact YA|]. eapply y_bind; [exact YP|]. eapply y_bind; [exact YQ|]. unfold t, mid in *. rewrite <- !app_assoc in *. eapply y_bind; [exact YT|]. eapply y_bind; [exact YS|].
        eapply y_eq; [apply y_ret|unfold fin, mid; lens].
    - eexists [p], _. split; [reflexivity|]. split; [|reflexivity]. reflexivity.
    - constructor; cbn [gr_article gr_paragraph gr_num_point gr_alpha_point gr_num_sub gr_alpha_sub gr_pos]; rewrite ?E1, ?E3, ?E4; auto.
      + exists p. auto.
      + destruct (f_paragraph r) as [y|]; [|exact P3]. destruct P3 as (pp & -> & P3). exists pp. split; [reflexivity|]. split; [exact P3|discriminate].
      + eexists. split; [rewrite <- surjective_pairing; exact RQ|discriminate].
      + eexists. split; [rewrite <- surjective_pairing; exact RS|discriminate].
  Qed.

  (** ** The whole phrase *)
  Lemma parent_parts r x ps p : f_article r = Some x -> lower_parts r = ps ++ [p] -> ps = lower_parts (parent r) /\ f_act (parent r) = f_act r.
  Proof.
    unfold lower_parts, parent. intros E H. rewrite E in *. destruct (f_subpoint r) as [z|]; [|destruct (f_point r) as [q|]; [|destruct (f_paragraph r) as [y|]]]; cbn [is_some f_article f_paragraph f_point f_subpoint f_act] in *; rewrite ?E, ?app_nil_r, ?app_assoc in *;
      try (change [PartArticle x] with ([] ++ [PartArticle x]) in H); apply app_inj_tail in H as [<- _]; rewrite ?app_nil_r; auto.
  Qed.
  Lemma parent_readable r a x : readable_ref r -> f_act r = Some a -> f_article r = Some x -> readable_ref (parent r).
  Proof.
    intros [W P S A R1 R2] EA EX. pose proof (wf_parent r W) as W'. unfold parent in *. rewrite EX in *. unfold parts_ok in P. destruct P as (P1 & P2 & P3 & P4 & P5 & P6 & P7).
    destruct (f_subpoint r) as [z|]; [|destruct (f_point r) as [q|]; [|destruct (f_paragraph r) as [y|]]]; cbn [is_some] in *;
      (constructor; [exact W'| |left; cbn; congruence|intros b; cbn; auto|intros b; cbn; try discriminate; auto|intros b; cbn; try discriminate; auto]);
      unfold parts_ok; cbn; repeat split; intros; try discriminate; try (apply P2; assumption); try (apply P3; assumption); try (apply P4; assumption); try (apply P5; assumption); try (apply P6; assumption); try (apply P7; assumption); auto.
    all: apply P2; congruence.
  Qed.
  Lemma one_part p s : said_ended [p] s -> exists i n n' e, said_part p i n n' /\ ending p e /\ s = i ++ lit " " ++ n ++ e.
  Proof. intros H. apply ended_split in H as (i & n & n' & P & [(_ & e & E & ->)|(s' & H & _)]); [|now apply ended_nil in H]. exists i, n, n', e. auto. Qed.
  Lemma head_said r x s : readable_ref r -> f_article r = Some x -> said_ended (PartArticle x :: match f_paragraph r with Some y => [PartParagraph y] | None => [] end) s -> ins_head x (f_paragraph r) s.
  Proof.
    intros RD EX H. destruct (f_paragraph r) as [y|] eqn:EY.
    - apply ended_split in H as (i & n & n' & P & [(E & _)|(s' & H & ->)]); [discriminate|]. destruct (article_facts r x i n n' RD EX P) as [A ->]. apply one_part in H as (i2 & n2 & n2' & e & P2 & EN & ->).
      inversion P2; subst. exists i. split; [exact A|]. exists i2, e. split; [now apply (good_par r)|]. split; [assumption|]. split; [eapply ending_lower; [|exact EN]; discriminate|]. reflexivity.
    - apply one_part in H as (i & n & n' & e & P & EN & ->). destruct (article_facts r x i n n' RD EX P) as [A ->]. exists i. split; [exact A|]. exists e. auto.
  Qed.
  (** The reference before the last part is read by the other alternatives too, but what follows it is not. *)
  Lemma not_replaced r a x ps p s f s' u o A (k : g_ref -> parser A) : readable_ref r -> f_act r = Some a -> f_article r = Some x -> lower_parts r = ps ++ [p] -> said_ended ps s -> In f following -> said_ended [p] s' ->
    fails (g <- sk g_reference ;; sk amendment_suffix ;; k g) o (lit " " ++ s ++ mid f (s' ++ u)).
  Proof.
    intros RD EA EX EP H IF H'. destruct (parent_parts r x ps p EX EP) as [-> _]. pose proof (parent_readable r a x RD EA EX) as RP.
    destruct (y_reference_then known (parent r) s (o + 1) (mid f (s' ++ u)) RP H (after_mid known f _ IF)) as (g & Y & _). 
    pose proof (parts_good r RD) as FG. rewrite EP in FG. apply Forall_app in FG as [_ FG]. inversion FG as [|? ? PG _]; subst.
    apply one_part in H' as (i & n & n' & e & P & _ & ->).
    assert (W : quiet is_ascii_ws (s ++ mid f ((i ++ lit " " ++ n ++ e) ++ u))).
    { apply begins_ws. eapply (ended_begins known _ s _ 0); [|exact H]. now apply parts_good. }
    eapply f_bind2; [apply y_sk_sp; [exact W|exact Y]|]. apply f_bind1. apply mid_not_replaced; [exact IF|]. rewrite <- app_assoc. now apply (first_of_part p i n n').
  Qed.
  Lemma ins_phrase r a x gap s u o : readable_ref r -> f_act r = Some a -> f_article r = Some x -> inserted_phrase (lower_parts r) gap s -> In u insertion_endings ->
    exists gi g, yields (sk insertion_reference) o (gap ++ s ++ u) gi (o + utf8_len (gap ++ s)) u /\ same_parts gi g /\ gref_read r g (o + utf8_len gap) (o + utf8_len (gap ++ s)) /\
      (forall o' A (k : g_ref -> parser A), fails (g <- sk g_reference ;; sk amendment_suffix ;; k g) o' (gap ++ s ++ u)).
  Proof.
    intros RD EA EX H IU. remember (lower_parts r) as L eqn:EL. destruct H as [x' f s IF H|ps p s f s' NE H IF H'].
    - assert (x' = x /\ f_paragraph r = None /\ f_point r = None /\ f_subpoint r = None) as (-> & E2 & E3 & E4).
      { unfold lower_parts in EL. rewrite EX in EL. destruct (f_paragraph r), (f_point r), (f_subpoint r); cbn in EL; try discriminate. injection EL as ->. auto. }
      apply one_part in H as (i & n & n' & e & P & EN & ->). destruct (article_facts r x i n n' RD EX P) as [A ->].
      destruct (ins_article known r x f i e (o + 1) u EX E2 E3 E4 IF A EN IU) as (gi & g & Y & SP & GR). exists gi, g. rewrite <- !app_assoc in *. split; [|split; [exact SP|split]].
      + eapply y_eq; [apply y_sk_sp; [now apply following_ws|exact Y]|]. change (utf8_len (lit " ")) with 1. lens.
      + replace (o + utf8_len (lit " " ++ f ++ lit " ")) with (o + 1 + utf8_len (f ++ lit " ")) by lens.
        replace (o + utf8_len (lit " " ++ f ++ lit " " ++ i ++ lit " " ++ lit "§" ++ e)) with (o + 1 + utf8_len (f ++ lit " " ++ i ++ lit " " ++ lit "§" ++ e)) by lens. exact GR.
      + intros o' B k. apply f_bind1. now apply mid_not_reference.
    - assert (NR : forall o' A (k : g_ref -> parser A), fails (g <- sk g_reference ;; sk amendment_suffix ;; k g) o' (lit " " ++ (s ++ lit " " ++ f ++ lit " " ++ s') ++ u)).
      { intros o' A k. rewrite <- !app_assoc. exact (not_replaced r a x ps p s f s' u o' A k RD EA EX (eq_sym EL) H IF H'). }
      assert (W : quiet is_ascii_ws (s ++ mid f (s' ++ u))).
      { apply begins_ws. eapply (ended_begins known ps s _ 0); [|exact H]. pose proof (parts_good r RD) as FG. rewrite <- EL in FG. apply Forall_app in FG. tauto. }
      assert (K : exists gi, ins_read r (o + 1) (s ++ mid f (s' ++ u)) gi (o + 1) (o + 1 + utf8_len (s ++ mid f s')) u).
      { unfold lower_parts in EL. rewrite EX in EL. destruct (f_subpoint r) as [z|] eqn:E4.
        - assert (PQ : exists q, f_point r = Some q).
          { destruct (f_point r) as [q|] eqn:E3; [eauto|]. rewrite (wf_gap r (rd_form _ RD) E3) in E4; [discriminate|left; congruence]. }
          destruct PQ as (q & E3). rewrite E3 in EL. rewrite !app_assoc in EL. apply app_inj_tail in EL as [EL ->]. subst ps.
          assert (HS : exists s1 i n n' e, said_part (PartPoint q) i n n' /\ ending (PartPoint q) e /\ ins_head x (f_paragraph r) s1 /\ s = s1 ++ lit " " ++ i ++ lit " " ++ n ++ e).
          { destruct (f_paragraph r) as [y|] eqn:E2; cbn [app] in H.
            - apply ended_split in H as (i & n & n' & P & [(E & _)|(s1 & H & ->)]); [discriminate|]. apply ended_split in H as (i2 & n2 & n2' & P2 & [(E & _)|(s2 & H & ->)]); [discriminate|].
              apply one_part in H as (i3 & n3 & n3' & e & P3 & EN & ->). exists (i ++ lit " " ++ n ++ lit " " ++ i2 ++ lit " " ++ n2 ++ []), i3, n3, n3', e. split; [exact P3|]. split; [exact EN|]. split.
              + rewrite <- E2. apply head_said; [exact RD|exact EX|]. rewrite E2. econstructor; [exact P|]. econstructor; [exact P2|constructor].
              + rewrite app_nil_r, <- !app_assoc. reflexivity.
            - apply ended_split in H as (i & n & n' & P & [(E & _)|(s1 & H & ->)]); [discriminate|]. apply one_part in H as (i3 & n3 & n3' & e & P3 & EN & ->).
              exists (i ++ lit " " ++ n ++ []), i3, n3, n3', e. split; [exact P3|]. split; [exact EN|]. split.
              + rewrite <- E2. apply head_said; [exact RD|exact EX|]. rewrite E2. econstructor; [exact P|constructor].
              + rewrite app_nil_r, <- !app_assoc. reflexivity. }
          destruct HS as (s1 & i & n & n' & e & P & EN & HH & ->). apply one_part in H' as (i2 & n2 & n2' & e2 & P2 & EN2 & ->).
          assert (n = lit "pont" /\ pt_text q i) as [-> C] by (inversion P; subst; auto). assert (n2 = lit "alpont" /\ sp_text z i2) as [-> C2] by (inversion P2; subst; auto).
          eapply ins_subpoint; eauto using good_point, good_sub; (eapply ending_lower; [|eassumption]; discriminate).
        - rewrite app_nil_r in EL. destruct (f_point r) as [q|] eqn:E3.
          + rewrite !app_assoc in EL. apply app_inj_tail in EL as [EL ->]. subst ps. apply one_part in H' as (i2 & n2 & n2' & e2 & P2 & EN2 & ->).
            assert (n2 = lit "pont" /\ pt_text q i2) as [-> C2] by (inversion P2; subst; auto).
            eapply ins_point; eauto using good_point; [now apply head_said|]. eapply ending_lower; [|eassumption]; discriminate.
          + rewrite app_nil_r in EL. destruct (f_paragraph r) as [y|] eqn:E2.
            * apply app_inj_tail in EL as [EL ->]. subst ps. apply one_part in H as (i & n & n' & e & P & EN & ->). destruct (article_facts r x i n n' RD EX P) as [A ->].
              apply one_part in H' as (i2 & n2 & n2' & e2 & P2 & EN2 & ->). inversion P2; subst. eapply ins_paragraph; eauto using good_par. eapply ending_lower; [|eassumption]; discriminate.
            * rewrite app_nil_r in EL. change [PartArticle x] with ([] ++ [PartArticle x]) in EL. apply app_inj_tail in EL as [EL _]. congruence. }
      destruct K as (gi & g & Y & SP & GR). exists gi, g. unfold mid in *. rewrite <- !app_assoc in *. split; [|split; [exact SP|split; [|exact NR]]].
      + eapply y_eq; [apply y_sk_sp; [exact W|exact Y]|]. change (utf8_len (lit " ")) with 1. lens.
      + change (utf8_len (lit " ")) with 1. replace (o + utf8_len (lit " " ++ s ++ lit " " ++ f ++ lit " " ++ s')) with (o + 1 + utf8_len (s ++ lit " " ++ f ++ lit " " ++ s')) by lens. exact GR.
  Qed.
End Run.
