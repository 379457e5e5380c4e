(** Model of the path and file-system helpers of src/coco_utilities.c (POSIX branches). *)
From Coq Require Import List Arith NArith ZArith Ascii String Bool Lia.
Import ListNotations.
From Verif Require Import CBase.

Definition SLASH : ascii := "/"%char.

(** src/coco_platform.h:33-60: PATH_MAX of Linux. *)
Definition COCO_PATH_MAX : nat := N.to_nat 4096.

(** strncat(dst, src, n) on a buffer of [cap] bytes holding the string [dst]: at most n characters
    and a NUL are written. *)
Definition strncat (cap : nat) (dst src : cstr) (n : nat) : res cstr :=
  let r := dst ++ firstn n src in
  if List.length r <? cap then Ok r else UB.

(** src/coco_utilities.c:100-119 coco_join_path on a buffer of [cap] bytes with
    path_max_length = [m].  [plen] is the variable path_length, which is set once (line 104) and not
    updated.  A size_t subtraction below 0 (lines 115, 116) would give a huge bound: UB.
    The separator is one character (coco_path_separator of POSIX). *)
Definition bound_left (m len : nat) : res nat := if len + 1 <=? m then Ok (m - len - 1) else UB.

Fixpoint join_loop (cap m plen : nat) (path : cstr) (comps : list cstr) : res cstr :=
  match comps with
  | [] => Ok path
  | c :: cs =>
    if m <=? plen + 1 + List.length c then Err
    else
      do p1 <- (if 0 <? List.length path
                then do n <- bound_left m (List.length path); strncat cap path [SLASH] n
                else Ok path);
      do n <- bound_left m (List.length p1);
      do p2 <- strncat cap p1 c n;
      join_loop cap m plen p2 cs
  end.

Definition coco_join_path (cap m : nat) (path : cstr) (comps : list cstr) : res cstr :=
  join_loop cap m (List.length path) path comps.

(** src/coco_string.c:42-66 coco_vstrdupf: the formatted text is written by vsprintf into a static
    buffer of 444 bytes before its length is checked.  (The formats used are short, so the
    first check never applies.) *)
Definition coco_strdupf (text : cstr) : res cstr :=
  if 443 <? List.length text then UB else
  if 441 <? List.length text then Err else Ok text.

(** "%04d" for 0 <= n <= 9999. *)
Definition digit (n : nat) : ascii := ascii_of_nat (48 + n).
Definition four_digits (n : nat) : cstr :=
  [digit (n / 1000); digit (n / 100 mod 10); digit (n / 10 mod 10); digit (n mod 10)].

(** "%s-%04d" (lines 266, 311) *)
Definition numbered (path : cstr) (counter : nat) : cstr := path ++ "-"%char :: four_digits counter.

Inductive kind := KFile | KDir.

Section FileSystem.
(** Objects of the file system are identified by keys; [resolve] maps a path string to the object
    it names (working directory, repeated slashes, symbolic links). *)
Variable K : Type.
Variable keq : K -> K -> bool.
Variable resolve : cstr -> K.

Definition files := list (K * kind).
Definition present (fs : files) (k : K) : bool := existsb (fun e => keq (fst e) k) fs.

(** Other processes may change the file system before every system call; a call may be refused
    (missing parent, permissions, ...). *)
Variable others : nat -> files -> files.
Variable refuses : nat -> files -> K -> bool.

Inductive outcome := Created | Exists | Refused.

(** One mkdir system call as recorded in the (ghost) log of the world. *)
Record event := { ev_path : cstr; ev_before : files; ev_outcome : outcome }.
Record world := { fs : files; clock : nat; log : list event }.

Definition sys_mkdir (path : cstr) (w : world) : outcome * world :=
  let f := others (clock w) (fs w) in
  if present f (resolve path)
  then (Exists, {| fs := f; clock := S (clock w);
                   log := {| ev_path := path; ev_before := f; ev_outcome := Exists |} :: log w |})
  else if refuses (clock w) f (resolve path)
  then (Refused, {| fs := f; clock := S (clock w);
                    log := {| ev_path := path; ev_before := f; ev_outcome := Refused |} :: log w |})
  else (Created, {| fs := (resolve path, KDir) :: f; clock := S (clock w);
                    log := {| ev_path := path; ev_before := f; ev_outcome := Created |} :: log w |}).

(** Lines 176-199: 0 = created, 1 = existed.  The form "C:" is never created. *)
Definition drive_form (path : cstr) : bool :=
  match path with [_; c] => Ascii.eqb c ":"%char | _ => false end.

Definition coco_mkdir (path : cstr) (w : world) : res (nat * world) :=
  if drive_form path then Ok (1, w) else
  match sys_mkdir path w with
  | (Created, w') => Ok (0, w')
  | (Exists, w') => Ok (1, w')
  | (Refused, _) => Err
  end.

(** Lines 209-241.  The loop visits the positions of the separator in order; [done] is the text
    before the current position. *)
Fixpoint mkdir_prefixes (done rest : cstr) (w : world) : res world :=
  match rest with
  | [] => Ok w
  | c :: t =>
    if Ascii.eqb c SLASH then
      match done with
      | [] => mkdir_prefixes (done ++ [c]) t w
      | _ => do (_, w') <- coco_mkdir done w; mkdir_prefixes (done ++ [c]) t w'
      end
    else mkdir_prefixes (done ++ [c]) t w
  end.

Definition strip_slash (path : cstr) : res cstr :=
  match rev path with
  | [] => UB                                   (* tmp[len - 1] with len = 0 *)
  | c :: t => Ok (if Ascii.eqb c SLASH then rev t else path)
  end.

Definition coco_create_directory (path : cstr) (w : world) : res (nat * world) :=
  do tmp <- strip_slash path;
  do w1 <- mkdir_prefixes [] tmp w;
  coco_mkdir tmp w1.

(** Lines 298-327.  [n] is 9999 - counter. *)
Fixpoint unique_directory_loop (n : nat) (counter : nat) (path : cstr) (w : world) : res (cstr * world) :=
  match n with
  | O => Err
  | S n' =>
    do new_path <- coco_strdupf (numbered path counter);
    do (r, w1) <- coco_create_directory new_path w;
    if r =? 0 then Ok (new_path, w1) else unique_directory_loop n' (S counter) path w1
  end.

Definition coco_create_unique_directory (path : cstr) (w : world) : res (cstr * world) :=
  do (r, w1) <- coco_create_directory path w;
  if r =? 0 then Ok (path, w1) else unique_directory_loop (N.to_nat 9998) 1 path w1.

(** Lines 154-166 coco_file_exists as a function of the time of the call. *)
Variable file_exists : nat -> cstr -> bool.

(** Lines 251-289.  The buffers are cleared with sizeof(path), the size of a pointer, which
    still empties both strings (strncpy pads the rest with zeros), so they start empty.
    strncpy/strncat are bounded by COCO_PATH_MAX - 1 characters in buffers of
    COCO_PATH_MAX + 2 bytes. *)
Definition checked_path (path name ext : cstr) : res cstr :=
  let rel1 := firstn (COCO_PATH_MAX - 1) name in
  do rel <- strncat (COCO_PATH_MAX + 2) rel1 ext (COCO_PATH_MAX - List.length rel1 - 1);
  coco_join_path (COCO_PATH_MAX + 2) (COCO_PATH_MAX + 2) [] [path; rel].

Fixpoint unique_filename_loop (n : nat) (counter : nat) (path name ext : cstr) : res cstr :=
  match n with
  | O => Err
  | S n' =>
    do new_name <- coco_strdupf (numbered name counter);
    do p <- checked_path path new_name ext;
    if file_exists counter p then unique_filename_loop n' (S counter) path name ext else Ok new_name
  end.

Definition coco_create_unique_filename (path name ext : cstr) : res cstr :=
  do p <- checked_path path name ext;
  if file_exists 0 p then unique_filename_loop (N.to_nat 9998) 1 path name ext else Ok name.

End FileSystem.

(** * Removing directories (lines 385-431) *)

(** A file system tree with symbolic links (absolute target).  The names "." and ".." are not
    entries; they are skipped by the code.  Hard links are not modelled. *)
Inductive node :=
| File
| Dir (entries : list (cstr * node))
| Link (target : list cstr).

Definition path := list cstr.

Fixpoint entry (es : list (cstr * node)) (n : cstr) : option node :=
  match es with
  | [] => None
  | (m, x) :: es' => if streq m n then Some x else entry es' n
  end.

(** The object at a path, without following links. *)
Fixpoint walk (t : node) (p : path) : option node :=
  match p with
  | [] => Some t
  | n :: p' => match t with
               | Dir es => match entry es n with Some x => walk x p' | None => None end
               | _ => None
               end
  end.

(** Path resolution following links: the link-free path of the object, None when it does not
    exist or too many links are met ([fuel], the kernel's limit). *)
Fixpoint resolve_path (fuel : nat) (root : node) (cur todo : path) : option path :=
  match fuel with
  | O => None
  | S fuel' =>
    (fix go (cur todo : path) : option path :=
       match todo with
       | [] => Some cur
       | n :: rest =>
         match walk root (cur ++ [n]) with
         | None => None
         | Some (Link t) => resolve_path fuel' root [] (t ++ rest)
         | Some _ => go (cur ++ [n]) rest
         end
       end) cur todo
  end.

Definition max_links : nat := 40.
Definition follow (root : node) (p : path) : option path := resolve_path (S max_links) root [] p.

(** stat: follows a link in the last component. *)
Definition stat (root : node) (p : path) : option node :=
  match follow root p with Some q => walk root q | None => None end.

Definition directory_exists (root : node) (p : path) : bool :=
  match stat root p with Some (Dir _) => true | _ => false end.

(** unlink/rmdir: a link in the last component is not followed. *)
Definition parent_and_name (p : path) : option (path * cstr) :=
  match rev p with [] => None | n :: q => Some (rev q, n) end.

Definition nofollow (root : node) (p : path) : option path :=
  match parent_and_name p with
  | None => None
  | Some (q, n) => match follow root q with Some q' => Some (q' ++ [n]) | None => None end
  end.

Fixpoint remove_entry (es : list (cstr * node)) (n : cstr) : list (cstr * node) :=
  match es with
  | [] => []
  | (m, x) :: es' => if streq m n then es' else (m, x) :: remove_entry es' n
  end.

Fixpoint set_entry (es : list (cstr * node)) (n : cstr) (y : node) : list (cstr * node) :=
  match es with
  | [] => []
  | (m, x) :: es' => if streq m n then (m, y) :: es' else (m, x) :: set_entry es' n y
  end.

Fixpoint delete (t : node) (p : path) : node :=
  match p, t with
  | [], _ => t
  | [n], Dir es => Dir (remove_entry es n)
  | n :: p', Dir es => match entry es n with
                       | Some x => Dir (set_entry es n (delete x p'))
                       | None => t
                       end
  | _, _ => t
  end.

Section Removing.
(** Each system call may fail. *)
Variable fails : nat -> bool.

Record disk := { root : node; time : nat }.
Definition tick (d : disk) : disk := {| root := root d; time := S (time d) |}.

Definition sys_unlink (p : path) (d : disk) : Z * disk :=
  if fails (time d) then ((-1)%Z, tick d) else
  match nofollow (root d) p with
  | Some q => match walk (root d) q with
              | Some File | Some (Link _) => (0%Z, {| root := delete (root d) q; time := S (time d) |})
              | _ => ((-1)%Z, tick d)
              end
  | None => ((-1)%Z, tick d)
  end.

Definition sys_rmdir (p : path) (d : disk) : Z * disk :=
  if fails (time d) then ((-1)%Z, tick d) else
  match nofollow (root d) p with
  | Some q => match walk (root d) q with
              | Some (Dir []) => (0%Z, {| root := delete (root d) q; time := S (time d) |})
              | _ => ((-1)%Z, tick d)
              end
  | None => ((-1)%Z, tick d)
  end.

(** opendir and the names readdir returns; the entries are those present at opendir (POSIX
    leaves entries removed meanwhile unspecified; the loop only removes names it already read). *)
Definition sys_opendir (p : path) (d : disk) : option (list cstr) * disk :=
  if fails (time d) then (None, tick d) else
  match stat (root d) p with
  | Some (Dir es) => (Some (map fst es), tick d)
  | _ => (None, tick d)
  end.

(** The text of a path under the argument [base]: base/n1/n2/...; its length decides about
    the buffer of coco_strdupf. *)
Fixpoint text_length (base : nat) (p : path) : nat :=
  match p with [] => base | n :: p' => text_length (base + 1 + List.length n) p' end.

(** Result of coco_strdupf("%s/%s", ...) as far as its length goes. *)
Definition name_fits (len : nat) : res unit :=
  if 443 <? len then UB else if 441 <? len then Err else Ok tt.

(** The loop of lines 399-420 with the recursive call as parameter; [r] is the variable r. *)
Fixpoint remove_loop (rec : nat -> path -> disk -> res (Z * disk))
         (len : nat) (p : path) (names : list cstr) (d : disk) : res (Z * disk) :=
  match names with
  | [] => Ok (0%Z, d)
  | n :: ns =>
    let len' := len + 1 + List.length n in
    do _ <- name_fits len';
    do (r, d1) <- (if directory_exists (root d) (p ++ [n])
                   then rec len' (p ++ [n]) d
                   else Ok (sys_unlink (p ++ [n]) d));
    if (r =? 0)%Z then remove_loop rec len p ns d1 else Ok (r, d1)
  end.

(** [len] is the length of the path text.  The recursion adds at least one character per
    level and stops at 441, so the fuel 500 is never exhausted (outcome UB there). *)
Fixpoint remove_rec (fuel : nat) (len : nat) (p : path) (d : disk) : res (Z * disk) :=
  match fuel with
  | O => UB
  | S fuel' =>
    let (names, d1) := sys_opendir p d in
    if negb (directory_exists (root d1) p) then Ok (0%Z, d1) else
    do (r, d2) <- (match names with
                   | None => Ok ((-1)%Z, d1)
                   | Some ns => remove_loop (remove_rec fuel') len p ns d1
                   end);
    if (r =? 0)%Z then Ok (sys_rmdir p d2) else Ok (r, d2)
  end.

Definition coco_remove_directory (len : nat) (p : path) (d : disk) : res (Z * disk) :=
  remove_rec 500 len p d.

End Removing.
