(** What downloading the packages should do. *)
From Coq Require Import String.
From Verif Require Import Base Text TextParse LogModel TextSplit KmodModel UbuntuModel UbuntuSpec FetchModel.
Local Open Scope Z_scope.

(** A server that has a body now: it gives it, says that it is not modified if the tag
    sent is that of the body, or does not answer. [of_tag]: the body a tag stands for. *)
Definition honest (of_tag : str -> str) (body : str) (serve : option str -> answer) : Prop :=
  forall sent, match serve sent with
               | ABody b whole tag => (whole = true -> b = body) /\ forall t, whole = true -> tag = Some t -> trim t <> [] -> of_tag (trim t) = body
               | ANotModified => exists e, sent = Some e /\ of_tag e = body
               | _ => True
               end.
Definition reachable (serve : option str -> answer) : Prop := forall sent, match serve sent with ABody _ whole _ => whole = true | ANotModified => True | _ => False end.
(** The tag of a file stands for it. *)
Definition tagged (of_tag : str -> str) (fs : files) (n tagfile : str) : Prop :=
  forall d t, fs n = Some d -> fs tagfile = Some t -> trim t <> [] -> of_tag (trim t) = d.
Definition up_to_date (fs fs' : files) (n body : str) (serve : option str -> answer) : Prop :=
  fs' n = Some body \/ (exists sent, serve sent = AError) /\ fs n <> None /\ fs' n = fs n.
(** A name that is neither a tag nor a file being written. *)
Definition package_name (n : str) : Prop := exists r, n = r ++ txt ".deb".
Definition number (s : str) : Prop := s <> [] /\ Forall (fun c => 48 <= c <= 57) s.

(** After a run: the file of an address has the body, or the one from before if the
    server did not answer. *)
Definition fresh (body : str -> str) (serve : str -> option str -> answer) (before after : files) (url n : str) : Prop :=
  named url n /\ (after n = Some (body n) \/ (exists sent, serve url sent = AError) /\ after n <> None /\ after n = before n).
(** The servers of the packages chosen are honest, and tags on disk stand for files. *)
Definition honest_site (of_tag : str -> str -> str) (body : str -> str) (get : str -> option str) (serve : str -> option str -> answer) (arch : str) (versions : list str) : Prop :=
  forall v u url n, In v versions -> kernel_urls get v arch = Ok u -> url = u_image u \/ url = u_modules u -> named url n -> honest (of_tag n) (body n) (serve url).
Definition good_cache (of_tag : str -> str -> str) (fs : files) : Prop := forall n, package_name n -> tagged (of_tag n) fs n (n ++ txt ".etag").
