(** Model of the conversions of src/path.rs to paths of the file system (Unix; paths as byte strings). *)
From Verif.Model Require Export RustStd Path.

(** [std::path::PathBuf::push]: an absolute path replaces the buffer, else a separator is added if there is
    none. (src/path.rs:133) *)
Definition std_push (buf path : str) : str :=
  match path with
  | x2f :: _ => path
  | _ =>
      match rev buf with
      | [] => path
      | c :: _ => if beqb c x2f then buf ++ path else buf ++ [x2f] ++ path
      end
  end.
(** src/path.rs:36-42 [to_std_pathbuf] *)
Definition to_std_pathbuf (p : pathbuf) : str := fold_left (fun s c => s ++ c ++ [x2f]) p [].
(** src/path.rs:131-135 [From<PathBuf> for StdPathBuf]: [collect] pushes the chunks one by one. *)
Definition std_from (p : pathbuf) : str := fold_left std_push p [].

(** ** The same on Windows *)

(** [std::path::is_separator] on Windows (src/path.rs:133) *)
Definition win_sep (c : byte) : bool := beqb c x2f || beqb c x5c.
(** The drive prefix of a Windows path, as [std::path::Prefix::Disk]: a letter and a colon (src/path.rs:133) *)
Definition win_disk (s : str) : option (byte * str) :=
  match s with
  | d :: x3a :: rest => if is_lower d || is_upper d then Some (d, rest) else None
  | _ => None
  end.
(** Network shares, devices and verbatim paths start with two separators (src/path.rs:133). *)
Definition win_share (s : str) : bool :=
  match s with a :: b :: _ => win_sep a && win_sep b | _ => false end.
(** [std::path::PathBuf::push] on Windows (src/path.rs:133): a path with a prefix replaces the buffer, one that
    starts with a separator keeps only the drive of the buffer, anything else is appended, after a backslash
    unless there is a separator or the buffer is just a drive.  [None]: shares are not modelled. *)
Definition win_push (buf path : str) : option str :=
  match win_disk path with
  | Some _ => Some path
  | None =>
      if win_share path || win_share buf then None
      else match path with
           | c :: _ =>
               if win_sep c then Some (match win_disk buf with Some (d, _) => [d; x3a] ++ path | None => path end)
               else match rev buf, win_disk buf with
                    | [], _ => Some path
                    | _, Some (_, []) => Some (buf ++ path)
                    | l :: _, _ => Some (if win_sep l then buf ++ path else buf ++ [x5c] ++ path)
                    end
           | [] => match rev buf, win_disk buf with
                   | [], _ => Some []
                   | _, Some (_, []) => Some buf
                   | l :: _, _ => Some (if win_sep l then buf else buf ++ [x5c])
                   end
           end
  end.
(** src/path.rs:131-135 [From<PathBuf> for StdPathBuf] *)
Definition win_from (p : pathbuf) : option str :=
  fold_left (fun b c => match b with Some b => win_push b c | None => None end) p (Some []).
