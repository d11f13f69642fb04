(** C88: fixups saved in a file are loaded unchanged, and do not disturb those of other acts. *)
From Verif Require Import ModelFixup ProofFixup SampleDisk.
Local Open Scope list_scope.

(** ** C88 *)
(** What was saved for an act is loaded for it, whatever fixups these are; *)
Theorem C88_saved : forall wr rd base d i fs d', (forall v, rd (wr v) = Ok v) -> save_to wr d base i fs = Ok d' -> load_from rd d' base i = Ok fs.
Proof. exact (fun wr rd base d i fs d' R => saved_loaded wr rd base R d i fs d'). Qed.
Print Assumptions C88_saved.
(** for all other acts nothing changes; *)
Theorem C88_others : forall wr rd base d i fs d' j, save_to wr d base i fs = Ok d' -> j <> i -> load_from rd d' base j = load_from rd d base j.
Proof. exact (fun wr rd base d i fs d' j => saved_others wr rd base d i fs d' j). Qed.
Print Assumptions C88_others.
(** so files behave like the store of fixups in the models of the editor and of the program (C69, C70). *)
Theorem C88_store : forall wr rd base d i fs d' j, (forall v, rd (wr v) = Ok v) -> save_to wr d base i fs = Ok d' ->
  load_from rd d' base j = load_fixups (store_set (load_from rd d base) i fs) j.
Proof. exact (fun wr rd base d i fs d' j R => saved_store wr rd base R d i fs d' j). Qed.
Print Assumptions C88_store.
(** Different acts have different files. *)
Theorem C88_paths : forall base a b p, fixup_path base a = Ok p -> fixup_path base b = Ok p -> a = b.
Proof. exact path_inj. Qed.
Print Assumptions C88_paths.
(** It is in the directory of the year, under the name of the act. *)
Theorem C88_place : forall d i name, act_show i = Ok name ->
  fixup_path (d ++ lit "/") i = Ok (d ++ lit "/" ++ show_Z (act_year i) ++ lit "/" ++ name ++ lit ".yml") /\
  fixup_path [] i = Ok (show_Z (act_year i) ++ lit "/" ++ name ++ lit ".yml") /\
  (d <> [] -> (forall r, d <> r ++ lit "/") -> fixup_path d i = Ok (d ++ lit "/" ++ show_Z (act_year i) ++ lit "/" ++ name ++ lit ".yml")).
Proof. exact (fun d i name A => conj (place_slash d i name A) (conj (place_none i name A) (place_other d i name A))). Qed.
Print Assumptions C88_place.
(** A fixup is written with its old and new text, the lines before if there are any, and that it makes bold if it does. *)
Theorem C88_form : forall a o n b, put_fixup (mkFixup a o n b) = VMap ((match a with [] => [] | _ => [(lit "after", VSeq (map VStr a))] end) ++
  [(lit "old", VStr o); (lit "new", VStr n)] ++ if b then [(lit "set_bold", VBool true)] else []).
Proof. exact fixup_form. Qed.
Print Assumptions C88_form.
(** Without a file there are no fixups. *)
Theorem C88_none : forall rd d base i p, fixup_path base i = Ok p -> d p = None -> load_from rd d base i = Ok [].
Proof. exact load_none. Qed.
Print Assumptions C88_none.
(** Loading does not panic with any contents of files, if the act can be displayed. *)
Theorem C88_no_panic : forall rd d base i, (forall s, rd s <> Panic) -> act_show i <> Panic -> load_from rd d base i <> Panic.
Proof. exact load_no_panic. Qed.
Print Assumptions C88_no_panic.

(** Two fixups, one with all fields: the tree in the file, where it is, and loading it *)
Definition two_fixups : list fixup := [mkFixup [] (lit "tanköteles,””") (lit "tanköteles,”") false; mkFixup [lit "1. §"; lit "2. §"] (lit "rossz") [] true].
Example C88_tree : put_list put_fixup two_fixups =
  VSeq [VMap [(lit "old", VStr (lit "tanköteles,””")); (lit "new", VStr (lit "tanköteles,”"))];
        VMap [(lit "after", VSeq [VStr (lit "1. §"); VStr (lit "2. §")]); (lit "old", VStr (lit "rossz")); (lit "new", VStr []); (lit "set_bold", VBool true)]].
Proof. vm_compute. reflexivity. Qed.
Definition fixup_dir : str := lit "./data/fixups/".
Example C88_path : fixup_path fixup_dir (mkAct 2011 112) = Ok (lit "./data/fixups/2011/2011. évi CXII. törvény.yml") /\
  fixup_path (lit "dir") (mkAct 2011 112) = Ok (lit "dir/2011/2011. évi CXII. törvény.yml").
Proof. vm_compute. split; reflexivity. Qed.
Example C88_run : exists d, save_to (wr_text Yaml) (fun _ => None) fixup_dir (mkAct 2011 112) two_fixups = Ok d /\
  load_from (rd_text Yaml) d fixup_dir (mkAct 2011 112) = Ok two_fixups /\ load_from (rd_text Yaml) d fixup_dir (mkAct 2011 113) = Ok [] /\
  load_from (rd_text Yaml) (fun _ => Some (lit "?")) fixup_dir (mkAct 2011 112) = Err.
Proof. eexists. split; [reflexivity|]. vm_compute. repeat split. Qed.
