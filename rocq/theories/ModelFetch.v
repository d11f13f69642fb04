(** Model of download_mk_issue in src/mk_downloader.rs. No proofs in this file.

    Simplifications: contents are lists of numbers; a file that cannot be read counts as absent, as in the code; logging is left out. The server and the writing of
    files are arguments. *)
From Verif Require Export ModelFixup.

(** ureq::get and reading the answer (external): the body, or a failure *)
Definition server := str -> outcome str.
(** create_dir_all and fs::write (external): whether they succeed, and what the file holds afterwards if they do not *)
Definition writing := str -> str -> option (option str).
(** A path after writing *)
Definition put_file (d : disk) (p : str) (c : option str) : disk := fun q => if str_eqb q p then c else d q.
(** mk_downloader.rs:69 *)
Definition cache_path (dir : str) (i : mk_issue) : str := join_path dir (cache_key i).
(** mk_downloader.rs:68-83 download_mk_issue: the files afterwards, the requests made, and the result. [w p b = None] is success. *)
Definition download (sv : server) (w : writing) (dir : str) (d : disk) (i : mk_issue) : disk * list str * outcome str :=
  let p := cache_path dir i in
  match d p with
  | Some b => (d, [], Ok b)
  | None =>
      match sv (mk_url i) with
      | Ok b =>
          match w p b with
          | None => (put_file d p (Some b), [mk_url i], Ok b)
          | Some rest => (put_file d p rest, [mk_url i], Err)
          end
      | Err => (d, [mk_url i], Err)
      | Panic => (d, [mk_url i], Panic)
      end
  end.
(** Issues one after another, as src/bin/hun_law/main.rs:108-112 does; a failed one does not stop the others *)
Fixpoint download_all (sv : server) (w : writing) (dir : str) (d : disk) (l : list mk_issue) : disk * list str * list (outcome str) :=
  match l with
  | [] => (d, [], [])
  | i :: l' => let '(d1, u, o) := download sv w dir d i in let '(d2, us, os) := download_all sv w dir d1 l' in (d2, u ++ us, o :: os)
  end.
