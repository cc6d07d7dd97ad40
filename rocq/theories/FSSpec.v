(** Vocabulary for the statements about the file system of FS.v: what two states have in common. It is
    written with the tree of names ([look], [get]) and the tables of objects only, not with the model of
    the library. *)
From Coq Require Import Ascii String Bool Arith NArith ZArith.
From Verif Require Import Str PathModel PathSpec FlagsModel TimeModel Prog DirModel FS.
From Coq Require Import List.
Import ListNotations.

(** The number of an object. *)
Definition number (x : node) : N := match x with NLeaf i => i | NDir i => i end.

(** [t] names the object [x] at the place [q], symlinks followed. *)
Definition leads_to (k : choices) (s : fs) (t : str) (q : loc) (x : node) : Prop :=
  exists l, find_at k s true t = Found l q /\ look (f_root s) q = Some x.

(** [t] names the directory entry [x] at the place [q]; a symlink in the last component is not followed. *)
Definition names_entry (k : choices) (s : fs) (t : str) (q : loc) (x : node) : Prop :=
  exists l, find_entry k s t = Found l q /\ look (f_root s) q = Some x.

(** [t] names the missing entry [n] of the directory at [q]. *)
Definition names_missing (k : choices) (s : fs) (t : str) (q : loc) (n : str) : Prop :=
  find_entry k s t = Missing q n.

(** Every place that is not [q] or below it holds the same object. *)
Definition same_outside (s s' : fs) (q : loc) : Prop :=
  forall r, below q r = false -> look (f_root s') r = look (f_root s) r.

(** Every object keeps its content; every object except [i] its attributes. *)
Definition same_bodies (s s' : fs) : Prop := forall i, (i < f_next s)%N -> f_body s' i = f_body s i.
Definition same_metas (s s' : fs) : Prop := forall i, (i < f_next s)%N -> f_meta s' i = f_meta s i.
Definition same_metas_but (s s' : fs) (j : N) : Prop := forall i, i <> j -> f_meta s' i = f_meta s i.
Definition same_bodies_but (s s' : fs) (j : N) : Prop := forall i, i <> j -> f_body s' i = f_body s i.

(** The current directory, the open descriptors and streams, and the environment are the same. *)
Definition same_process (s s' : fs) : Prop :=
  f_cwd s' = f_cwd s /\ f_fds s' = f_fds s /\ f_dirs s' = f_dirs s /\ f_env s' = f_env s.

(** Everything observable is the same (handle numbers and the transfer counter apart). *)
Definition same_state (s s' : fs) : Prop :=
  f_root s' = f_root s /\ f_body s' = f_body s /\ f_meta s' = f_meta s /\ f_next s' = f_next s /\ same_process s s'.

(** The type of an object. *)
Definition type_of (s : fs) (x : node) : file_type :=
  match x with
  | NDir _ => ft_directory
  | NLeaf i =>
      match f_body s i with
      | BReg _ => ft_regular | BLink _ => ft_symlink
      | BSpecial SBlock => ft_block | BSpecial SChar => ft_character
      | BSpecial SFifo => ft_fifo | BSpecial SSock => ft_socket
      end
  end.

(** A small file system for the examples: /a with the file f, the symlink l to ../b, the directory d holding the empty
    file g, and /b with a second name h of f; /s is a fifo. The current directory is /a. *)
Definition demo_tree : tree :=
  Dir 1 [(lit "a", Dir 2 [(lit "f", Leaf 3); (lit "l", Leaf 4); (lit "d", Dir 5 [(lit "g", Leaf 6)])]);
         (lit "b", Dir 7 [(lit "h", Leaf 3)]);
         (lit "s", Leaf 8)].
Definition demo_body (i : N) : body :=
  match i with 3%N => BReg (lit "hello") | 4%N => BLink (lit "../b") | 8%N => BSpecial SFifo | _ => BReg [] end.
Definition demo_meta (i : N) : meta :=
  Meta 420 (match i with 3%N => 2%Z | _ => 1%Z end) (TimeSpec 1000 5) (TimeSpec 900 7).
Definition demo : fs := Fs demo_tree demo_body demo_meta 10 [lit "a"] [] [] 0 (fun _ => None) 0.
Definition demo_choices : choices :=
  Choices (fun _ => 3) (fun _ => 100) (fun n => S n) 40 true (StatVfs 0 0 0 0) 4096 (TimeSpec 2000 0).
