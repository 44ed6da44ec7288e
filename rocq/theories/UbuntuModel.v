(** Choosing the kernel to test: /repo/xtask/src/ubuntu_mainline.rs 20-262 and
    [url_file_name] of /repo/xtask/src/http.rs 187-193.

    Simplifications: text is bytes, white space is ASCII; a request gives a page or
    fails. *)
From Coq Require Import String.
From Verif Require Import Base Text TextParse LogModel TextSplit KmodModel.
Local Open Scope Z_scope.

(** * Pages *)

(** [char::eq_ignore_ascii_case]. *)
Definition lower (c : Z) : Z := if (65 <=? c) && (c <=? 90) then c + 32 else c.
Definition same_letters (a b : str) : bool := str_eqb (map lower a) (map lower b).
(** [char::is_ascii_whitespace]: without the vertical tab. *)
Definition ascii_ws (c : Z) : bool := (c =? 9) || (c =? 10) || (c =? 12) || (c =? 13) || (c =? 32).
(** [str::trim_end]. *)
Definition trim_end (s : str) : str := rev (trim_start (rev s)).
(** [str::trim_end_matches] of a character. *)
Fixpoint drop_char (x : Z) (s : str) : str := match s with [] => [] | c :: r => if c =? x then drop_char x r else s end.
Definition trim_end_char (x : Z) (s : str) : str := rev (drop_char x (rev s)).

(** ubuntu_mainline.rs 62-80: the loop; it gets shorter every time. *)
Fixpoint attributes (fuel : nat) (rest : str) : option str :=
  match fuel with
  | O => None
  | S fuel =>
      let rest := trim_start rest in
      if starts_with [62] rest || starts_with [47] rest then None
      else
        match once 61 rest with
        | None => None
        | Some (name, after) =>
            match trim_start after with
            | [] => None
            | q :: value =>
                if (q =? 34) || (q =? 39) then
                  match once q value with
                  | None => None
                  | Some (v, rest) => if same_letters (trim_end name) (txt "href") then Some v else attributes fuel rest
                  end
                else None
            end
        end
  end.
(** ubuntu_mainline.rs 42-81. *)
Definition html_tag_href (tag : str) : option str :=
  match trim_start tag with
  | [] => None
  | c :: rest =>
      if negb (lower c =? 97) then None
      else if match rest with [] => true | d :: _ => ascii_ws d || (d =? 62) || (d =? 47) end then attributes (S (length rest)) rest
      else None
  end.

(** The first position of "://", as [find] and [split_once] give it. *)
Fixpoint scheme_of (s : str) : option (str * str) :=
  match strip_prefix (txt "://") s with
  | Some r => Some ([], r)
  | None => match s with [] => None | c :: s => match scheme_of s with Some (a, b) => Some (c :: a, b) | None => None end end
  end.
(** ubuntu_mainline.rs 90-105. *)
Definition absolute (base href : str) : str :=
  let other := match scheme_of href with
               | Some (a, _) => if str_eqb a (txt "http") || str_eqb a (txt "https") then href else trim_end_char 47 base ++ [47] ++ href
               | None => trim_end_char 47 base ++ [47] ++ href
               end in
  if starts_with [47] href then
    match scheme_of base with
    | Some (scheme, rest) => scheme ++ txt "://" ++ match once 47 rest with Some (host, _) => host | None => rest end ++ href
    | None => other
    end
  else other.
(** ubuntu_mainline.rs 83-107. *)
Definition hrefs (html : str) : list str := flat_map (fun t => match html_tag_href t with Some h => [h] | None => [] end) (split_at 60 html).
Definition listing (html base : str) : list str := map (absolute base) (hrefs html).

(** http.rs 187-193. *)
Definition url_file_name (url : str) : option str :=
  match last (split_at 47 (trim_end_char 47 url)) [] with [] => None | n => Some n end.

(** * Choosing a build *)

Definition mainline_url : str := txt "https://kernel.ubuntu.com/mainline/".
Definition image_package : str := txt "linux-image-unsigned-".
Definition modules_package : str := txt "linux-modules-".

(** ubuntu_mainline.rs 132-141. *)
Definition build_of (version url : str) : option (Z * str) :=
  match url_file_name url with
  | None => None
  | Some name =>
      match strip_prefix (txt "v" ++ version ++ txt ".") name with
      | None => None
      | Some patch => if forallb is_digit patch then match dec_u64 patch with Some n => Some (n, name) | None => None end else None
      end
  end.
(** [sort_by_key], which is stable. *)
Fixpoint insert (x : Z * str) (l : list (Z * str)) : list (Z * str) :=
  match l with
  | [] => [x]
  | y :: r => if fst y <=? fst x then y :: insert x r else x :: l
  end.
Definition sort_builds (l : list (Z * str)) : list (Z * str) := fold_left (fun acc x => insert x acc) l [].
(** ubuntu_mainline.rs 129-151: what is tried, in order. *)
Definition max_candidates : nat := 10.
Definition candidates (page version : str) : list str :=
  map snd (firstn max_candidates (rev (sort_builds (flat_map (fun u => match build_of version u with Some b => [b] | None => [] end) (listing page mainline_url))))).

(** ubuntu_mainline.rs 184-208: the two kinds of packages. *)
Inductive package := PImage | PModules | POther.
Definition package_of (build arch url : str) : package :=
  match url_file_name url with
  | None => POther
  | Some file =>
      match once 95 file with
      | None => POther
      | Some (name, _) =>
          if negb match strip_suffix (txt "-generic") name with Some _ => true | None => false end
             || negb match strip_suffix (txt "_" ++ arch ++ txt ".deb") file with Some _ => true | None => false end then POther
          else
            let v := drop_char 118 build in
            if starts_with (image_package ++ v ++ txt "-") name then PImage
            else if starts_with (modules_package ++ v ++ txt "-") name then PModules else POther
      end
  end.
Definition is_image (build arch url : str) : bool := match package_of build arch url with PImage => true | _ => false end.
Definition is_modules (build arch url : str) : bool := match package_of build arch url with PModules => true | _ => false end.

Record urls := { u_base : str; u_image : str; u_modules : str }.
Inductive uerr := EList | ERelease (b : str) | EPackages (b : str) | EAmbiguousImage (b : str) | EAmbiguousModules (b : str) | EUnexpected | ENoBuild (skipped : list str).
Inductive try := Found (u : urls) | Skip | Fail (e : uerr).
(** ubuntu_mainline.rs 152-244. *)
Definition try_build (get : str -> option str) (arch build : str) : try :=
  let release := mainline_url ++ build ++ txt "/" in
  match get release with
  | None => Fail (ERelease build)
  | Some page =>
      let base := release ++ arch ++ txt "/" in
      if negb (existsb (str_eqb base) (listing page release)) then Skip
      else
        match get base with
        | None => Fail (EPackages build)
        | Some packages =>
            let l := listing packages base in
            match filter (is_image build arch) l with
            | [] => Skip
            | [image] =>
                match filter (is_modules build arch) l with
                | [] => Skip
                | [modules] =>
                    match url_file_name image with
                    | None => Fail EUnexpected
                    | Some file =>
                        match once 95 file with
                        | None => Fail EUnexpected
                        | Some (name, _) => match strip_prefix image_package name with None => Fail EUnexpected | Some b => Found {| u_base := b; u_image := image; u_modules := modules |} end
                        end
                    end
                | _ => Fail (EAmbiguousModules build)
                end
            | _ => Fail (EAmbiguousImage build)
            end
        end
  end.
Fixpoint try_builds (get : str -> option str) (arch : str) (skipped l : list str) : res uerr urls :=
  match l with
  | [] => Err (ENoBuild skipped)
  | b :: l => match try_build get arch b with Found u => Ok u | Skip => try_builds get arch (skipped ++ [b]) l | Fail e => Err e end
  end.
(** ubuntu_mainline.rs 116-262. *)
Definition kernel_urls (get : str -> option str) (version arch : str) : res uerr urls :=
  match get mainline_url with
  | None => Err EList
  | Some page => try_builds get arch [] (candidates page version)
  end.
