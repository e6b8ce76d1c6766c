(** Model of status and remove_all, src/Omega_h_filesystem.cpp:152-261, on a POSIX file system.
    Directories and other files are numbered objects ("inodes"); a location is a directory and a name in
    it.  A symbolic link holds the location it leads to (intermediate path components are not modelled),
    so it dangles once that entry is gone.  Permissions, mount points and hard links of directories are
    not modelled, and nobody else changes the file system meanwhile. *)
From Verif Require Import Prelude.
Local Open Scope Z_scope.

(** <sys/stat.h> file type bits *)
Definition s_ififo := 4096.   Definition s_ifchr := 8192.    Definition s_ifdir := 16384.
Definition s_ifblk := 24576.  Definition s_ifreg := 32768.   Definition s_iflnk := 40960.
Definition s_ifsock := 49152.

Inductive file_type := Regular | Directory | Symlink | Block | Character | Fifo.

(** src/Omega_h_filesystem.cpp:223-238; [None]: filesystem_error thrown *)
Definition type_of_mode (st_mode : Z) : option file_type :=
  if negb (Z.land st_mode s_ifreg =? 0) then Some Regular
  else if negb (Z.land st_mode s_ifdir =? 0) then Some Directory
  else if negb (Z.land st_mode s_iflnk =? 0) then Some Symlink
  else if negb (Z.land st_mode s_ifblk =? 0) then Some Block
  else if negb (Z.land st_mode s_ifchr =? 0) then Some Character
  else if negb (Z.land st_mode s_ififo =? 0) then Some Fifo
  else None.

(** An object.  [Other mode]: anything that is neither a directory nor a symbolic link, with its st_mode. *)
Inductive node :=
| Dir (entries : list (nat * nat))   (** (name, object) *)
| Link (dir name : nat)
| Other (mode : Z).
Definition fs := nat -> option node.

Fixpoint assoc (name : nat) (es : list (nat * nat)) : option nat :=
  match es with
  | [] => None
  | (n, i) :: t => if (n =? name)%nat then Some i else assoc name t
  end.
Definition entry (f : fs) (dir name : nat) : option nat :=
  match f dir with Some (Dir es) => assoc name es | _ => None end.

(** Following symbolic links; after [k] of them the system gives up (ELOOP). *)
Fixpoint follow (k : nat) (f : fs) (i : nat) : option (nat * node) :=
  match f i with
  | Some (Link d n) =>
      match k with
      | O => None
      | S k => match entry f d n with Some j => follow k f j | None => None end
      end
  | Some nd => Some (i, nd)
  | None => None
  end.
Definition max_links : nat := 40.

(** src/Omega_h_filesystem.cpp:216-239 status, by stat(2), which follows links;
    src/Omega_h_filesystem.cpp:378-380 is_directory *)
Definition is_directory (f : fs) (i : nat) : option bool :=
  match follow max_links f i with
  | None => None
  | Some (_, Dir _) => Some true
  | Some (_, Link _ _) => None
  | Some (_, Other mode) =>
      match type_of_mode mode with Some Directory => Some true | Some _ => Some false | None => None end
  end.

Definition drop (name : nat) (es : list (nat * nat)) : list (nat * nat) :=
  filter (fun e => negb (fst e =? name)%nat) es.
Definition upd (f : fs) (i : nat) (nd : node) : fs := fun j => if (j =? i)%nat then Some nd else f j.

(** src/Omega_h_filesystem.cpp:152-159 remove, by remove(3): the entry itself, links not followed;
    a directory must be empty.  [None]: filesystem_error thrown. *)
Definition remove (f : fs) (dir name : nat) : option fs :=
  match f dir, entry f dir name with
  | Some (Dir es), Some i =>
      match f i with
      | Some (Dir (_ :: _)) => None
      | Some _ => Some (upd f dir (Dir (drop name es)))
      | None => None
      end
  | _, _ => None
  end.

Inductive outcome :=
| Removed (f : fs) (count : nat)
| Threw (f : fs)     (** filesystem_error; [f] is what is left *)
| Endless.           (** no result within the given number of steps *)

Definition add_count (n : nat) (o : outcome) : outcome :=
  match o with Removed f c => Removed f (n + c) | o => o end.

(** src/Omega_h_filesystem.cpp:245-261 remove_all of the path leading to location (dir, name).
    [pick] chooses the entry readdir(3) returns first, which may be any.  [fuel] bounds the number of
    loop passes and recursive calls; one more pass of the loop is a call with the same path. *)
Fixpoint remove_all (pick : fs -> nat -> nat) (fuel : nat) (f : fs) (dir name : nat) : outcome :=
  match fuel with
  | O => Endless
  | S fuel =>
      match entry f dir name with
      | None => Threw f
      | Some i =>
          match follow max_links f i with
          | Some (d, Dir es) =>                      (* line 249 opendir *)
              match nth_error es (pick f d mod length es) with
              | None =>                              (* line 250 no entry; lines 258-260 *)
                  match remove f dir name with Some f' => Removed f' 1 | None => Threw f end
              | Some (n, k) =>
                  match is_directory f k with        (* line 251 *)
                  | None => Threw f
                  | Some true =>
                      match remove_all pick fuel f d n with    (* line 252 *)
                      | Removed f' c => add_count c (remove_all pick fuel f' dir name)
                      | o => o
                      end
                  | Some false =>
                      match remove f d n with        (* lines 254-255 *)
                      | Some f' => add_count 1 (remove_all pick fuel f' dir name)
                      | None => Threw f
                      end
                  end
              end
          | _ => Threw f
          end
      end
  end.
