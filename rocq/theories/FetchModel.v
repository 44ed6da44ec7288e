(** Downloading the packages of the kernels to test: /repo/xtask/src/http.rs 53-185
    and /repo/xtask/src/ubuntu_mainline.rs 264-336.

    Simplifications: files are those of one directory, by name; operations on files
    work, except that writing or removing the tag of a file may fail; a server answers
    a request, given the tag sent, the same way during a run. [ureq] gives an error for
    answers of 400 and above, as it does unless configured otherwise. *)
From Coq Require Import String.
From Verif Require Import Base Text TextParse LogModel TextSplit KmodModel UbuntuModel.
Local Open Scope Z_scope.

Definition files := str -> option str.
Definition put (fs : files) (n : str) (d : option str) : files := fun m => if list_eq_dec Z.eq_dec m n then d else fs m.

(** Answers: nothing or an error status; not modified; another status below 400 that
    is not a success; a body, whether it arrives whole, and its tag. *)
Inductive answer := AError | ANotModified | AStatus (code : Z) | ABody (body : str) (whole : bool) (tag : option str).
Inductive derr := ENoName | EGet | EMissing | EStatusCode (code : Z) | EBody | ETag.

(** http.rs 105-115: the tag sent. *)
Definition tag_sent (fs : files) (dest tagfile : str) : option str :=
  match fs dest with
  | None => None
  | Some _ =>
      match fs tagfile with
      | None => None
      | Some t => if utf8 t then match trim t with [] => None | e => Some e end else None
      end
  end.
(** http.rs 61-185: [tag_ok]: the tag can be written or removed. *)
Definition download (fs : files) (dest tagfile tmp : str) (serve : option str -> answer) (tag_ok : bool) : files * option derr :=
  match serve (tag_sent fs dest tagfile) with
  | AError => (fs, match fs dest with Some _ => None | None => Some EGet end)
  | ANotModified => (fs, match fs dest with Some _ => None | None => Some EMissing end)
  | AStatus c => (fs, Some (EStatusCode c))
  | ABody body whole tag =>
      if negb whole then (put fs tmp (Some body), Some EBody)
      else
        let fs := put (put fs tmp None) dest (Some body) in
        if tag_ok then (put fs tagfile tag, None) else (fs, Some ETag)
  end.
(** http.rs 53-59; [pid]: the number of the process. *)
Definition download_to_dir (fs : files) (url : str) (pid : str) (serve : str -> option str -> answer) (tag_ok : bool) : files * res derr str :=
  match url_file_name url with
  | None => (fs, Err ENoName)
  | Some n =>
      match download fs n (n ++ txt ".etag") (n ++ txt ".tmp-" ++ pid) (serve url) tag_ok with
      | (fs, None) => (fs, Ok n)
      | (fs, Some e) => (fs, Err e)
      end
  end.

(** ubuntu_mainline.rs 264-336. *)
Record archives := { r_base : str; r_image : str; r_modules : str }.
Inductive aerr := EResolve (version : str) (e : uerr) | EDownload (e : derr).
Fixpoint fetch_all (get : str -> option str) (serve : str -> option str -> answer) (pid arch : str) (fs : files) (versions : list str) : files * res aerr (list archives * list str) :=
  match versions with
  | [] => (fs, Ok ([], []))
  | v :: versions =>
      match kernel_urls get v arch with
      | Err e => (fs, Err (EResolve v e))
      | Ok u =>
          match download_to_dir fs (u_image u) pid serve true with
          | (fs, Err e) => (fs, Err (EDownload e))
          | (fs, Ok i) =>
              match download_to_dir fs (u_modules u) pid serve true with
              | (fs, Err e) => (fs, Err (EDownload e))
              | (fs, Ok m) =>
                  match fetch_all get serve pid arch fs versions with
                  | (fs, Err e) => (fs, Err e)
                  | (fs, Ok (l, keep)) => (fs, Ok ({| r_base := u_base u; r_image := i; r_modules := m |} :: l, [i ++ txt ".etag"; i; m ++ txt ".etag"; m] ++ keep))
                  end
              end
          end
      end
  end.
Definition prune (fs : files) (keep : list str) : files := fun n => if in_dec (list_eq_dec Z.eq_dec) n keep then fs n else None.
Definition fetch (get : str -> option str) (serve : str -> option str -> answer) (pid arch : str) (fs : files) (versions : list str) : files * res aerr (list archives) :=
  match fetch_all get serve pid arch fs versions with
  | (fs, Err e) => (fs, Err e)
  | (fs, Ok (l, keep)) => (prune fs keep, Ok l)
  end.
