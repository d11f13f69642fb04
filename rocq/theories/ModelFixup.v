(** Model of the files of fixups: loading and saving in src/fixups.rs. No proofs in this file.

    Simplifications: the file system is a function from paths to contents; directories can be created and files opened; [exists] is true of files only. The text
    of YAML is external as in ModelSave. *)
From Verif Require Export ModelMain ModelSave.

(** fixups.rs:36-44 Fixup: derived Serialize and Deserialize *)
Definition put_fixup (f : fixup) : value :=
  VMap (put_unless (is_empty (f_after f)) "after" (put_list VStr (f_after f)) ++ put_field "old" (VStr (f_old f)) ++ put_field "new" (VStr (f_new f))
        ++ put_unless (negb (f_bold f)) "set_bold" (put_bool (f_bold f))).
Definition get_fixup (v : value) : outcome fixup :=
  let* l := get_fields v in
  let* a := get_default "after" [] (get_list get_str) l in let* o := get_field "old" get_str l in let* n := get_field "new" get_str l in
  let* b := get_default "set_bold" false get_bool l in Ok (mkFixup a o n b).

(** Contents of files *)
Definition disk := str -> option str.
(** fixups.rs:57-60: the path of the file; displaying the act can panic *)
Definition fixup_path (base : str) (i : act_id) : outcome str :=
  let* name := act_show i in Ok (join_path (join_path base (show_Z (act_year i))) (name ++ lit ".yml")).
(** fixups.rs:57-67 load_from *)
Definition load_from (rd : str -> outcome value) (d : disk) (base : str) (i : act_id) : outcome (list fixup) :=
  let* p := fixup_path base i in
  match d p with Some s => let* v := rd s in get_list get_fixup v | None => Ok [] end.
(** fixups.rs:73-81 save *)
Definition save_to (wr : value -> str) (d : disk) (base : str) (i : act_id) (fs : list fixup) : outcome disk :=
  let* p := fixup_path base i in Ok (fun q => if str_eqb q p then Some (wr (put_list put_fixup fs)) else d q).
