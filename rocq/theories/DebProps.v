(** The packages of a kernel. *)
From Coq Require Import String.
From Verif Require Import Base Text TextParse LogModel TextSplit KmodModel DebModel DebSpec DebProofs DebProofs2 DebProofs3.
Local Open Scope Z_scope.

(** Success exactly with one image in the one package and one configuration, one
    directory with modules and one symbol map in the other. *)
Theorem C113_parts_of_a_kernel unzstd read di dm li lm p : data_of di li -> data_of dm lm -> Forall fine_entry li -> Forall fine_entry lm ->
  (unpack_kernel unzstd read di dm = Ok p <-> exists ei ec em es,
     only_one wanted_image li ei /\ only_one (below_boot (txt "config-")) lm ec /\ only_one modules_entry lm em /\ only_one (below_boot (txt "System.map-")) lm es /\
     maybe_extract unzstd (last (fst (fst ei)) []) (read (entry_path ei)) = Ok (p_start p) /\
     p_image p = entry_path ei /\ p_config p = entry_path ec /\ p_modules p = entry_path em /\ p_map p = entry_path es).
Proof. exact (kernel_iff unzstd read di dm li lm p). Qed.

(** What is unpacked. *)
Theorem C113_image_package_unpacked d l : data_of d l -> Forall fine_entry l -> exists f done, with_deb select_image d = Ok (f, done) /\ paths_where wanted_image l done.
Proof. exact (image_done d l). Qed.
Theorem C113_modules_package_unpacked d l : data_of d l -> Forall fine_entry l -> exists f done, with_deb select_modules d = Ok (f, done) /\ paths_where wanted_modules l done.
Proof. exact (modules_done d l). Qed.
Theorem C113_one_member_with_data select d r : with_deb select d = Ok r -> exists m, only_one data_member d m.
Proof. exact (one_data select d r). Qed.
(** Nothing is unpacked to a path that leads outside. *)
Theorem C113_nothing_outside select d f done : with_deb select d = Ok (f, done) -> Forall (fun p => ~ In (txt "..") (split_at 47 p)) done.
Proof. exact (deb_inside select d f done). Qed.

(** Images. *)
Theorem C113_image_as_it_is unzstd name s : Forall (fun b => 0 <= b < 256) s -> (maybe_extract unzstd name s = Ok Same <-> ~ arm_program s \/ ~ at_ s 4 (txt "zimg")).
Proof. exact (extract_same unzstd name s). Qed.
Theorem C113_image_extracted unzstd v s n d : Forall (fun b => 0 <= b < 256) s ->
  (maybe_extract unzstd (txt "vmlinuz-" ++ v) s = Ok (Extracted n d) <->
   arm_program s /\ n = txt "Image-" ++ v /\ exists payload, zboot s (txt "zstd") payload /\ unzstd payload = Some d /\ at_ d 56 (txt "ARMd")).
Proof. intros R. rewrite <- image_name_vmlinuz. exact (extract_image unzstd _ s n d R). Qed.

(** * Examples *)

Definition dir (l : list str) : entry := (l, true, false).
Definition file (l : list str) : entry := (l, false, true).
Definition pack (l : list entry) : deb := [(Some (txt "debian-binary"), []); (Some (txt "control.tar.xz"), [None]); (Some (txt "data.tar.xz"), map (fun e => Some (tar_of e)) l)].
Definition boot_files : list entry := [dir [txt "boot"]; file [txt "boot"; txt "vmlinuz-6.1"]].
Definition module_files : list entry :=
  [dir [txt "lib"]; dir [txt "lib"; txt "modules"]; dir [txt "lib"; txt "modules"; txt "6.1"]; file [txt "lib"; txt "modules"; txt "6.1"; txt "a.ko"];
   dir [txt "boot"]; file [txt "boot"; txt "config-6.1"]; file [txt "boot"; txt "System.map-6.1"]].
Example C113_kernel_example :
  unpack_kernel (fun _ => None) (fun _ => []) (pack boot_files) (pack module_files)
  = Ok {| p_image := txt "./boot/vmlinuz-6.1"; p_start := Same; p_config := txt "./boot/config-6.1"; p_modules := txt "./lib/modules/6.1/"; p_map := txt "./boot/System.map-6.1" |}.
Proof. vm_compute. reflexivity. Qed.
Example C113_hypotheses_hold : data_of (pack boot_files) boot_files /\ data_of (pack module_files) module_files /\ Forall fine_entry boot_files /\ Forall fine_entry module_files.
Proof.
  assert (P : forall n, In n [txt "boot"; txt "vmlinuz-6.1"; txt "lib"; txt "modules"; txt "6.1"; txt "a.ko"; txt "config-6.1"; txt "System.map-6.1"] -> plain_name n).
  { intros n I. cbn [In] in I. repeat (destruct I as [<- |I]; [split; [discriminate|]; split; [discriminate|]; split; [discriminate|]; vm_compute; intuition discriminate|]). destruct I. }
  assert (D : forall l, data_of (pack l) l).
  { intros l. exists [(Some (txt "debian-binary"), []); (Some (txt "control.tar.xz"), [None])], (txt "data.tar.xz"), []. split; [reflexivity|]. split; [right; left; reflexivity|].
    apply Forall_cons; [|apply Forall_cons; [|apply Forall_nil]]; intros n E; apply some_inj in E; subst n; vm_compute; intuition discriminate. }
  split; [apply D|]. split; [apply D|].
  split; repeat (apply Forall_cons; [split; [discriminate|]; repeat (apply Forall_cons; [apply P; cbn [In]; tauto|]); apply Forall_nil|]); apply Forall_nil.
Qed.
(** An entry outside is an error. *)
Example C113_outside_example : with_deb select_image [(Some (txt "data.tar"), [Some {| t_path := txt "./boot/vmlinuz-6.1/../../../etc/passwd"; t_file := true |}])] = Err (EOutside (txt "./boot/vmlinuz-6.1/../../../etc/passwd")).
Proof. vm_compute. reflexivity. Qed.
Example C113_data_example : with_deb select_image [(Some (txt "data.tar"), []); (Some (txt "data.tar.xz"), [])] = Err (EData 2) /\ with_deb select_image [(Some (txt "data.tar.gz"), []); (None, [])] = Err (EData 0).
Proof. vm_compute. split; reflexivity. Qed.

(** Where the code does otherwise than its words say. *)
(** A file in a directory that is named like an image counts as the image. *)
Theorem C113_image_is_named_vmlinuz_refuted : ~ forall unzstd read di dm li lm p, data_of di li -> data_of dm lm -> Forall fine_entry li -> Forall fine_entry lm ->
  unpack_kernel unzstd read di dm = Ok p -> exists v, name_of (p_image p) = txt "vmlinuz-" ++ v.
Proof.
  intros H. destruct C113_hypotheses_hold as (_ & Dm & _ & Fm).
  set (li := [file [txt "boot"; txt "vmlinuz-6.1"; txt "readme"]]).
  assert (Di : data_of (pack li) li).
  { exists [(Some (txt "debian-binary"), []); (Some (txt "control.tar.xz"), [None])], (txt "data.tar.xz"), []. split; [reflexivity|]. split; [right; left; reflexivity|].
    apply Forall_cons; [|apply Forall_cons; [|apply Forall_nil]]; intros n E; apply some_inj in E; subst n; vm_compute; intuition discriminate. }
  assert (Fi : Forall fine_entry li).
  { apply Forall_cons; [|apply Forall_nil]. split; [discriminate|]. repeat (apply Forall_cons; [split; [discriminate|]; split; [discriminate|]; split; [discriminate|]; vm_compute; intuition discriminate|]). apply Forall_nil. }
  destruct (H (fun _ => None) (fun _ => []) _ _ li module_files {| p_image := txt "./boot/vmlinuz-6.1/readme"; p_start := Same; p_config := txt "./boot/config-6.1"; p_modules := txt "./lib/modules/6.1/"; p_map := txt "./boot/System.map-6.1" |} Di Dm Fi Fm) as (v & E); [vm_compute; reflexivity|].
  vm_compute in E. discriminate E.
Qed.
(** A file in the place of the directory with modules counts as the directory. *)
Example C113_file_as_modules : select_modules (tar_of (file [txt "lib"; txt "modules"; txt "index"])) = DUnpack (Some KModules).
Proof. vm_compute. reflexivity. Qed.
(** Paths without the dot in front are not found, nor is a directory without an entry
    of its own. *)
Example C113_dot_is_needed : select_image {| t_path := txt "boot/vmlinuz-6.1"; t_file := true |} = DSkip /\ select_image {| t_path := txt "./boot/vmlinuz-6.1"; t_file := true |} = DUnpack (Some KImage).
Proof. vm_compute. split; reflexivity. Qed.
Example C113_directory_entry_is_needed :
  unpack_kernel (fun _ => None) (fun _ => []) (pack boot_files) (pack [file [txt "lib"; txt "modules"; txt "6.1"; txt "a.ko"]; file [txt "boot"; txt "config-6.1"]; file [txt "boot"; txt "System.map-6.1"]]) = Err (ENotOne KModules []).
Proof. vm_compute. reflexivity. Qed.
(** A compressed image. *)
Definition efi : str := txt "MZ" ++ [0; 0] ++ txt "zimg" ++ [70; 0; 0; 0; 2; 0; 0; 0] ++ repeat 0 8 ++ txt "zstd" ++ repeat 0 32 ++ [64; 0; 0; 0] ++ txt "PE" ++ [0; 0; 100; 170] ++ [1; 2].
Definition raw : str := repeat 0 56 ++ txt "ARMd".
Example C113_extracted_example :
  maybe_extract (fun p => if str_eqb p [1; 2] then Some raw else None) (txt "vmlinuz-6.1") efi = Ok (Extracted (txt "Image-6.1") raw) /\
  maybe_extract (fun p => Some []) (txt "vmlinuz-6.1") efi = Err EZboot /\ maybe_extract (fun p => None) (txt "vmlinuz-6.1") efi = Err EZboot /\
  maybe_extract (fun p => None) (txt "vmlinuz-6.1") (removelast efi) = Err EZboot /\ maybe_extract (fun p => None) (txt "vmlinuz-6.1") (firstn 69 efi) = Ok Same.
Proof. vm_compute. repeat split; reflexivity. Qed.

Print Assumptions C113_parts_of_a_kernel.
Print Assumptions C113_image_package_unpacked.
Print Assumptions C113_modules_package_unpacked.
Print Assumptions C113_one_member_with_data.
Print Assumptions C113_nothing_outside.
Print Assumptions C113_image_as_it_is.
Print Assumptions C113_image_extracted.
Print Assumptions C113_image_is_named_vmlinuz_refuted.
