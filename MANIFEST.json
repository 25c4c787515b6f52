{"claims": [
{"property": "C01", "status": "proved", "theorems": ["C01_limit", "C01_selection"], "note": ""},
{"property": "C02", "status": "proved", "theorems": ["C02_nothing_usable"], "note": ""},
{"property": "C03", "status": "proved", "theorems": ["C03_broken_no_deletion"], "note": ""},
{"property": "C04", "status": "proved", "theorems": ["C04_link_version", "C04_abort"], "note": ""},
{"property": "C05", "status": "proved", "theorems": ["C05_exact"], "note": ""},
{"property": "C06", "status": "proved", "theorems": ["C06_foreign", "C06_points"], "note": ""},
{"property": "C07", "status": "proved", "theorems": ["C07_bootable", "C07_bootable_with_errors", "C07_slash_refuted"], "note": "For all histories of complete, failed and killed runs, boot counting and deletions; the machine's inputs (store, hash, objcopy, parser) are the same in every run, and SHA-256 has no collision among the names used. Specialisation names contain no '/' and EFI file names no '\\\\'; C07_slash_refuted shows that without the first the claim is false."},
{"property": "C08", "status": "proved", "theorems": ["C08_own_stub", "C08_own_kernel"], "note": "C08_own_stub holds at every point of every history, C08_own_kernel after a successful run. Same assumptions as C07."},
{"property": "C09", "status": "partial", "theorems": ["C09_generation_boots", "C09_entry_boots_partial", "C09_no_partial_files", "C09_new_stubs_complete", "C09_every_entry_refuted"], "note": "Every selected generation that could be booted stays bootable (C09_generation_boots), no partial files, new stubs complete. The claim for every single entry is false when a generation has two entries with different boot counters: one of them is collected (C09_every_entry_refuted); before the first removal it holds (C09_entry_boots_partial)."},
{"property": "C10", "status": "proved", "theorems": ["C10_contents", "C10_entries_durable", "C10_boots_after_loss"], "note": "Contents: for all histories with power losses at any point, losing any unsynced contents in any way. Durable entries: whatever the state before the run. Renames and removals are taken to be durable in order."},
{"property": "C11", "status": "partial", "theorems": ["C11_success_partial", "C11_stub_refuted", "C11_boot_loader_refuted"], "note": "False: a stub is renamed into place before its content is synced (C11_stub_refuted), and the boot loader is written after the only sync (C11_boot_loader_refuted). After a successful run the selected generations boot even after a power loss (C11_success_partial)."},
{"property": "C12", "status": "proved", "theorems": ["C12_deletion_late"], "note": ""},
{"property": "C13", "status": "partial", "theorems": ["C13_before_removal_partial", "C13_no_dangling_refuted"], "note": "False: kernels and initrds are removed before the stubs that use them (C13_no_dangling_refuted). It holds up to the first removal (C13_before_removal_partial) and at every point for the selected generations (C09_generation_boots)."},
{"property": "C14", "status": "partial", "theorems": ["C14_idle", "C14_new_pcrlock_refuted", "C14_unversioned_refuted"], "note": "Proved for every history of runs: after a successful run without I/O errors and with readable bootspecs, the same run again succeeds and its only operation is the final sync (C14_idle). Needed hypotheses beyond the statement: with measured boot every existing entry already has its component, and the version of the shipped boot loader is readable. Both are necessary: C14_new_pcrlock_refuted, C14_unversioned_refuted."},
{"property": "C15", "status": "proved", "theorems": ["C15_stub_name_injective", "C15_stub_name_form"], "note": ""},
{"property": "C16", "status": "proved", "theorems": ["C16_recognised_names", "C16_own_name", "C16_exclusive"], "note": ""},
{"property": "C17", "status": "partial", "theorems": ["C17_entry_kept", "C17_one_entry", "C17_two_entries_refuted", "C17_rewritten_refuted"], "note": "Proved: the only bootable entry of a selected generation is not written, renamed or removed at any point of a run (C17_entry_kept), and after a successful run with garbage collection each selected generation has exactly one entry (C17_one_entry), both provided that with measured boot the component is already there. When measured boot has just been switched on, both parts fail: C17_two_entries_refuted, C17_rewritten_refuted."},
{"property": "C18", "status": "proved", "theorems": ["C18_replaced", "C18_kept"], "note": "For runs without I/O errors. The decision depends on the two files, the signatures and the measurement as they are when the run starts; C18_replaced is about successful runs, C18_kept about every point of every run."},
{"property": "C19", "status": "partial", "theorems": ["C19_downgrade_partial", "C19_never_downgraded_refuted"], "note": "False: both files are replaced together, so a newer file is lost when the other one is missing, older or unsigned (C19_never_downgraded_refuted). C19_downgrade_partial lists every reason for which a newer file can be replaced."},
{"property": "C20", "status": "partial", "theorems": ["C20_malformed_partial", "C20_panics", "C20_not_fatal_refuted"], "note": "False: a file with an empty or truncated .osrel section (or an undecodable section name) makes the tool panic (C20_not_fatal_refuted, C20_panics). For all other bytes the check succeeds and has the right answer (C20_malformed_partial)."},
{"property": "C21", "status": "proved", "theorems": ["C21_release_order", "C21_accepted_versions"], "note": "Exact grammar and order. The form `M~rcK`, which newer systemd uses, is not accepted (shown in the example)."},
{"property": "C22", "status": "proved", "theorems": ["C22_parse", "C22_grammar_covers_all"], "note": ""},
{"property": "C23", "status": "proved", "theorems": ["C23_round_trip", "C23_unquoted_in_general"], "note": ""},
{"property": "C24", "status": "proved", "theorems": ["C24_titles_unique", "C24_title_present"], "note": ""},
{"property": "C25", "status": "proved", "theorems": ["C25_uefi_path_round_trip", "C25_outside_refused"], "note": ""},
{"property": "C26", "status": "proved", "theorems": ["C26_layout", "C26_read_back", "C26_tools"], "note": "For every stub that is proper (32-bit addresses in ascending order, none of the reserved names) the sections passed to objcopy are consecutive and beyond all others, and what the stub's section lookup reads from the loaded image is what was put in. What objcopy, the signing tool and the firmware's image loader do is specified by extended and efi_image in SImage.v, not modelled from their code; overflow of the 64-bit image base is not modelled."},
{"property": "C27", "status": "proved", "theorems": ["C27_accepts", "C27_boots", "C27_starts"], "note": "Over any history of runs, failures and power losses, for generations whose kernel path is ASCII and whose command line has no NUL and only 16-bit characters: the stub under a generation's name accepts exactly the kernel and initrd hashes of that generation, finds them on the ESP after a successful run, and gives the kernel that command line. Signing, objcopy and the firmware's loader are specified by fits and in_memory."},
{"property": "C28", "status": "proved", "theorems": ["C28_only_verified_boots", "C28_ok_means_started"], "note": "For every hash function, PE parser and firmware behaviour, including file systems that answer differently at each read."},
{"property": "C29", "status": "proved", "theorems": ["C29_secure_boot_status"], "note": ""},
{"property": "C30", "status": "proved", "theorems": ["C30_command_line", "C30_custom_is_measured"], "note": ""},
{"property": "C31", "status": "proved", "theorems": ["C31_pcr11_log", "C31_count", "C31_order_independent"], "note": ""},
{"property": "C32", "status": "proved", "theorems": ["C32_companions_measured", "C32_count"], "note": ""},
{"property": "C33", "status": "proved", "theorems": ["C33_measured_before_start"], "note": "The SHA-256 function, goblin's parser and the firmware are parameters; the TPM is assumed present and working at every call."},
{"property": "C34", "status": "proved", "theorems": ["C34_initrd_layout", "C34_assembly", "C34_pieces_aligned"], "note": ""},
{"property": "C35", "status": "partial", "theorems": ["C35_null_size", "C35_too_small", "C35_success_writes_initrd", "C35_query_then_load", "C35_size_on_success_refuted", "C35_size_on_success_iff"], "note": "All parts hold except the last: on success the size is not updated (C35_size_on_success_refuted; C35_size_on_success_iff says when it is right)."},
{"property": "C36", "status": "proved", "theorems": ["C36_archive_decodes", "C36_single_file"], "note": ""},
{"property": "C37", "status": "partial", "theorems": ["C37_aligned", "C37_size_returned", "C37_failed_file", "C37_failed_dir", "C37_failed_unchanged_refuted"], "note": "Alignment and reported sizes hold for all histories; failed pack_one and pack_dir change nothing. The last clause is false for pack_prefix, which can fail after packing some ancestors (C37_failed_unchanged_refuted)."},
{"property": "C38", "status": "partial", "theorems": ["C38_file_outcome", "C38_dir_outcome", "C38_no_panic_refuted"], "note": "Complete table of outcomes for pack_one and pack_dir. 'Never panics' is false: C38_no_panic_refuted gives the panicking inputs, and the tables show they are the only ones. That no field wraps follows from C36_archive_decodes."},
{"property": "C39", "status": "proved", "theorems": ["C39_sysext_outcome", "C39_credentials_outcome", "C39_order_independent", "C39_system_extensions", "C39_credentials"], "note": ""},
{"property": "C40", "status": "proved", "theorems": ["C40_loaded_image", "C40_no_panic"], "note": ""},
{"property": "C41", "status": "proved", "theorems": ["C41_page_count", "C41_allocation", "C41_freed"], "note": ""},
{"property": "C42", "status": "proved", "theorems": ["C42_written_only_if_missing", "C42_existing_values_survive", "C42_all_attempted", "C42_only_these", "C42_utf16_unique"], "note": ""},
{"property": "C43", "status": "partial", "theorems": ["C43_values", "C43_kernel_image", "C43_refuted"], "note": "True for StubPcrKernelImage; the other two variables hold a 4-byte little-endian integer (C43_values, C43_refuted)."},
{"property": "C44", "status": "partial", "theorems": ["C44_text", "C44_right_iff", "C44_refuted"], "note": "Vendor and major version are right; the minor version is masked with 0xFFFFF, so the claim holds exactly if the major version is a multiple of 16 (C44_right_iff, C44_refuted)."},
{"property": "C45", "status": "partial", "theorems": ["C45_covered_partial", "C45_always_covered_refuted"], "note": "Holds from a state with a current measurement, over histories of runs completed or stopped before the first replacement, at every point of the next run (C45_covered_partial). False after a run killed between the first replacement and the renaming of the measurement (C45_always_covered_refuted)."},
{"property": "C46", "status": "partial", "theorems": ["C46_same_image", "C46_selected", "C46_reuse_refuted", "C46_killed_refuted"], "note": "Proved for all histories of successful runs with measured boot and of boot counting, if numbers of generations are not reused: each entry has a component made from the same image (C46_same_image, C46_selected). False with reused numbers (C46_reuse_refuted) and after a run that was killed while writing a component (C46_killed_refuted)."},
{"property": "C47", "status": "proved", "theorems": ["C47_unsigned", "C47_signing_failure"], "note": ""},
{"property": "C48", "status": "proved", "theorems": ["C48_signed", "C48_local"], "note": ""},
{"property": "C49", "status": "partial", "theorems": ["C49_global_partial", "C49_dropins_survive_refuted"], "note": "False: the collection in EFI/Linux removes every unreferenced path named nixos-*, including `<stub>.efi.extra` of a selected generation whose entry is kept (C49_dropins_survive_refuted). Global credentials in loader/credentials are never touched (C49_global_partial)."},
{"property": "C50", "status": "partial", "theorems": ["C50_damaged_partial", "C50_not_fatal_refuted"], "note": "False: an entry whose .linux or .initrd section is empty, or reaches beyond the file or its raw size, makes every run panic (C50_not_fatal_refuted). For all other contents the check never panics, and accepts only an entry whose kernel and initrd exist (C50_damaged_partial)."},
{"property": "C51", "status": "proved", "theorems": ["C51_base32_injective", "C51_base32_value", "C51_base32_shape", "C51_utf8_decode_encode", "C51_utf8_encode_decode", "C51_stub_inputs_injective", "C51_decimal"], "note": ""},
{"property": "C52", "status": "proved", "theorems": ["C52_data_lines", "C52_instruction_lines", "C52_no_overflow"], "note": ""},
{"property": "C53", "status": "proved", "theorems": ["C53_loader_features"], "note": ""},
{"property": "C54", "status": "proved", "theorems": ["C54_partition_uuid"], "note": ""},
{"property": "C55", "status": "proved", "theorems": ["C55_restored"], "note": ""},
{"property": "C56", "status": "partial", "theorems": ["C56_panics", "C56_history", "C56_never_refuted"], "note": "C56_panics and C56_history prove that a run panics only for the listed causes, for all inputs, files and I/O errors. That it never panics once it has started to change the ESP is refuted by C56_never_refuted (a bootspec without an initrd); C56_causes shows that each cause occurs."},
{"property": "C57", "status": "partial", "theorems": ["C57_runs", "C57_refuses", "C57_exit", "C57_exit_boots", "C57_keys_refuted"], "note": "C57_runs, C57_refuses, C57_exit and C57_exit_boots prove the statement for all arguments; how the command line is split into arguments is in MClap.v. That the key arguments are optional with --allow-unsigned is refuted by C57_keys_refuted (panic, exit status 101)."},
{"property": "C58", "status": "proved", "theorems": ["C58_always", "C58_installed", "C58_content"], "note": "C58_always for every point of a run, C58_installed and C58_content after a successful one."},
{"property": "C59", "status": "proved", "theorems": ["C59_no_error", "C59_progress", "C59_clear", "C59_retry"], "note": "C59_no_error and C59_progress give success from complete inputs (ready) and free places (clear); C59_clear shows that every point of every run keeps the places free; C59_retry combines them for any sequence of earlier runs, completed, failed or killed. The conditions exclude only what the panic theorem C56 lists and a file or directory of the wrong kind in the way; C59_clear_needed shows the latter is needed. Losing power (content of unsynced files) is C12/C19's topic and not part of attempts."},
{"property": "C60", "status": "proved", "theorems": ["C60_effects_verified", "C60_unverified_panics", "C60_damaged"], "note": "C60_effects_verified: every event with an effect is preceded by the reads of both files and by their verification; C60_unverified_panics: a run that does not panic has verified files; C60_damaged: malformed or missing sections, including hashes that are not 32 bytes, lead to a panic before any file is read."},
{"property": "C61", "status": "proved", "theorems": ["C61_starts", "C61_installed"], "note": "C61_starts for all firmware with the essentials (basics_work) and readable companions; C61_installed composes it with the installer (C07, C27). C61_companions_needed shows that the companion condition is necessary: one directory that cannot be listed or one .cred file that cannot be read stops the boot, because find_files and pack_cpio unwrap. That the kernel itself works is outside the model."},
{"property": "C62", "status": "proved", "theorems": ["C62_arguments", "C62_image", "C62_outcome", "C62_build"], "note": "C62_arguments, C62_image, C62_outcome, C62_build against how getopt and objcopy read arguments (STemp.v); the programs are arbitrary ones that do their work (objcopy_works, sbsign_works, pcrlock_works, script_works), XTemp.v shows such programs exist. The names drawn must differ (32 random alphanumeric characters): C62_names_needed shows that equal names give a wrong image without an error, since files are opened with create and truncate. The work on the ESP between the steps is a parameter that leaves the temporary directory and the sources alone."},
{"property": "C63", "status": "proved", "theorems": ["C63_arguments", "C63_sign", "C63_verify", "C63_verify_bytes", "C63_sign_stub", "C63_sign_store_path"], "note": "Input paths must not begin with a dash (store and temporary paths are absolute); key and output paths may."},
{"property": "C64", "status": "proved", "theorems": ["C64_private", "C64_secret", "C64_cleaned"], "note": "C64_private (modes of everything created, on every outcome), C64_secret, C64_cleaned. TempDir's own mode 0700 and its removal on drop are the tempfile crate's documented behaviour. A killed process leaves the directory, and the copy of the initrd on the ESP is not private (mode 0755)."},
{"property": "C65", "status": "proved", "theorems": ["C65_linux_finds_initrd", "C65_any_request"], "note": "C65_linux_finds_initrd against the UEFI encoding of device paths and GUIDs and Linux' loading sequence (SLinux.v); C65_any_request. That both protocols are installed on the same handle (the stub's own) is read off the code, handles are not modelled."},
{"property": "C66", "status": "partial", "theorems": ["C66_returns", "C66_leftover_refuted"], "note": "C66_returns: after starting a kernel everything is undone (all firmware behaviours), and otherwise the stub returns only if one of the two protocols could not be installed. In that case the kernel's pages, and the device path if it was the second protocol, are left: C66_leftover_refuted."},
{"property": "C67", "status": "proved", "theorems": ["C67_selection_only", "C67_order"], "note": "C67_selection_only: equal selections give equal runs (state, operations, outcome); C67_order for permutations. C67_same_version shows that the versions must be distinct."},
{"property": "C68", "status": "proved", "theorems": ["C68_attested", "C68_pcr11", "C68_predictable"], "note": "C68_attested, C68_pcr11, C68_predictable. PCR values follow the TCG rule H(old ++ H(data)); the hash is arbitrary, and what is assumed of it is stated for the inputs hashed in the two boots only (good_hash). The TPM never fails (tpm_works); C32 says what happens otherwise."},
{"property": "C69", "status": "proved", "theorems": ["C69_read", "C69_order", "C69_installed"], "note": "C69_read, C69_order, C69_installed. The reading of os-release, the version order and the order of entries are specified in SMenu.v after systemd's sources, which are not part of the repository (trusted; checked against systemd's own list of versions in version_order). C69_proviso_needed shows why sort keys must not start with '='."},
{"property": "C70", "status": "proved", "theorems": ["C70_fresh", "C70_step", "C70_counted"], "note": "C70_fresh, C70_step, C70_counted. The parsing of counters follows systemd-boot (trusted, SMenu.v). C70_too_large: lanzatool accepts 32-bit counters of which systemd-boot ignores the upper half."},
{"property": "C71", "status": "partial", "theorems": ["C71_runs", "C71_history", "C71_boots", "C71_single", "C71_masked_refuted", "C71_measured_refuted"], "note": "C71_runs, C71_history, C71_boots, C71_single. The last sentence is false: C71_masked_refuted (a failing installation on the ESP is masked by a successful one on an extra mount point, since the script has no set -e) and C71_measured_refuted (with measured boot the status is systemd-pcrlock's). It holds for one mount point without measured boot (C71_single)."},
{"property": "C72", "status": "proved", "theorems": ["C72_text", "C72_hook", "C72_words"], "note": "The shell's rules are in SShell.v (words, quotes, comments, continuation, patterns), clap's in MClap.v; both are trusted descriptions."},
{"property": "C73", "status": "proved", "theorems": ["C73_entries", "C73_all_signed"], "note": "The last run needs readable generations: with a malformed one, garbage collection is off and entries of other keys stay. What verifies is a parameter; the signing tool is trusted to make files that verify."},
{"property": "C74", "status": "proved", "theorems": ["C74_reads", "C74_well_formed", "C74_generations", "C74_fallback", "C74_order"], "note": "Documents are trees: serde_json's parsing of the text, the derived code of the bootspec crate (described in MBootspec.v) and the synthesis from a directory are trusted."},
{"property": "C75", "status": "proved", "theorems": ["C75_exact", "C75_number"], "note": "A malformed generation switches collection off (C03), hence the hypothesis that all are readable."},
{"property": "C76", "status": "partial", "theorems": ["C76_limit_partial", "C76_variants", "C76_refuted"], "note": "False as stated: every specialisation has a component too, so one generation with eight specialisations gives nine variants (C76_refuted). What holds: the number of variants is exactly that of the selected systems and their specialisations (C76_variants); without specialisations the limit bounds it (C76_limit_partial)."},
{"property": "C77", "status": "partial", "theorems": ["C77_success_partial", "C77_refuted", "C77_history", "C77_other_order"], "note": "False as stated: the files are copied before the artifacts are signed again, so a power loss or a failing lzbt in between leaves keys ready beside unsigned files, and the service's conditions keep it from starting again (C77_refuted). Proved for the end of a successful service, and for every moment if the order were changed (C77_other_order)."},
{"property": "C78", "status": "proved", "theorems": ["C78_reads", "C78_defaults"], "note": "Names and texts must fit on a line of loader.conf; the example shows what happens to others (an empty text is lost, a line break makes another setting)."},
{"property": "C79", "status": "proved", "theorems": ["C79_conf", "C79_default"], "note": "For generations with one sort key whose texts can be shown; no other file on the ESP imitates the names of NixOS in other letters; no choice stored in EFI variables."},
{"property": "C80", "status": "proved", "theorems": ["C80_switch"], "note": "For generations that can be shown and started; no other file on the ESP has the hash of the kernel or initrd. With secrets the initrd served is the one on the ESP, which need not be the plain one."},
{"property": "C81", "status": "partial", "theorems": ["C81_new", "C81_success", "C81_changed_refuted"], "note": "False as stated: the entry of an installed generation is not made again, so a secret changed without changing the configuration does not reach the ESP (C81_changed_refuted). Proved: an entry made by a run has the secrets of that run, wherever the run is stopped (C81_new), and a successful run makes one for every selected generation that had none (C81_success)."},
{"property": "C82", "status": "partial", "theorems": ["C82_peak", "C82_stuck", "C82_refuted"], "note": "False as stated: what is no longer needed is removed only after everything new is there (C82_refuted). A run that has no room for the new entries removes nothing, whatever the I/O errors, so it does not make room for the next one either (C82_stuck). Proved: at every point of a run without I/O errors no more is in use than before the run plus the room for the selected systems, their specialisations and the boot loader (C82_peak)."},
{"property": "C83", "status": "proved", "theorems": ["C83_sources", "C83_off", "C83_admitted", "C83_only"], "note": "C83_admitted needs the boot loader's component to be absent or right before the run; C45 is about when it is. C83_only is for runs in which all selected bootspecs are readable (otherwise nothing is removed, C12)."},
{"property": "C84", "status": "proved", "theorems": ["C84_kernel"], "note": "Assumes that files on the ESP with the Authenticode digest of the stub that runs are stubs for the same generations (the digest covers the sections), and the TPM is there whenever the stub asks."},
{"property": "C85", "status": "partial", "theorems": ["C85_marker", "C85_opens_partial", "C85_ready", "C85_only_partial", "C85_at_once_refuted", "C85_unprotected_refuted"], "note": "False as stated. C85_unprotected_refuted: the service succeeds although lzbt failed (the hook ends like systemd-pcrlock); PCR 4 then never becomes part of the policy until a later run of the hook succeeds, and the marker keeps the service from running again. C85_at_once_refuted: also if lzbt succeeded, PCR 4 is not part of the policy before the next boot. True: the marker means that the slot is bound to a policy (C85_marker); if lzbt succeeded, the selected generations open the disk (C85_opens_partial), and from the next boot on nothing else does (C85_ready, C85_only_partial)."},
{"property": "C86", "status": "proved", "theorems": ["C86_predicted", "C86_exact", "C86_sections"], "note": "C86_exact is the claim for a generation without initrd secrets (whose result no prediction can know), given that no file that was read has the hash of another one in the store; C86_predicted is without both conditions and speaks of a kernel and initrd with the hashes of the generation's. That an entry has just the measured sections that the installer adds is a hypothesis; C86_sections derives it for tools that extend a stub without such sections. What systemd-measure computes is in SMeasure.v."},
{"property": "C87", "status": "partial", "theorems": ["C87_signed_partial", "C87_ready_partial", "C87_fails", "C87_several_refuted", "C87_quote_refuted"], "note": "False as stated. C87_several_refuted: with two applications sbsign gets two images, fails and signs neither. C87_quote_refuted: the paths of the keys are not escaped, so that a quote in them (which the install hook copes with, C72) makes sbsign fail. True for paths without quotes: the service succeeds exactly if there is one application and sbsign can sign it, and then fwupd finds it signed (C87_signed_partial, C87_ready_partial); otherwise nothing is signed (C87_fails). What the shell, ln and sbsign do is in SShell.v and SFwupd.v."},
{"property": "C88", "status": "partial", "theorems": ["C88_provisioned_partial", "C88_keys_kept", "C88_incomplete", "C88_settled", "C88_same_later", "C88_interrupted_refuted"], "note": "False as stated. C88_interrupted_refuted: if the machine loses power while sbctl makes the keys, the directory of the keys is there, so no later boot makes the missing keys, and nothing is ever enrolled (C88_incomplete for all such states). True: if both services succeed, also when the keys were made at an earlier boot, the keys lie ready and the machine boots with them, with the conclusion of C80 (C88_provisioned_partial); keys that are there are never made anew (C88_keys_kept). For interruptions of the second service see C77. What sbctl does is a parameter. Also proved: a provisioned machine is left as it is (C88_settled), and a boot with incomplete keys is like a later one (C88_same_later)."},
{"property": "C89", "status": "partial", "theorems": ["C89_bounded", "C89_settled", "C89_asked", "C89_policy", "C89_secure_first", "C89_forgetful_refuted"], "note": "Proved if the files by which the services know that they are done are kept: C89_bounded, C89_settled; a reboot needs the option and a success (C89_asked), and with automatic enrolment the disk is not bound before Secure Boot is enforced (C89_secure_first). Without that assumption it is false: on a machine that forgets /var/lib at each boot the marker is forgotten, and it reboots for ever (C89_forgetful_refuted)."},
{"property": "C90", "status": "partial", "theorems": ["C90_meaning_partial", "C90_consent_partial", "C90_armed_partial", "C90_space_refuted"], "note": "Proved for mount points without special characters: the text runs as the model of C77 does (C90_meaning_partial), after a success the three files that sbctl made for the options' request were in place when the hook ran (C90_armed_partial), and the assertion keeps requests without Microsoft's keys to users who allowed them (C90_consent_partial). For other mount points it is false: with a space, which the hook itself can cope with (C72), a wrong directory is made and the service fails at each boot (C90_space_refuted)."},
{"property": "C91", "status": "proved", "theorems": ["C91_exact", "C91_one_meaning", "C91_refused"], "note": "About the model of clap for these definitions (MClap.v), which follows clap's documentation; --help and --version are simplified as said there."},
{"property": "C92", "status": "proved", "theorems": ["C92_only_generations", "C92_rollback_refuted", "C92_nothing_added_refuted"], "note": "Assumes that nobody else signs entries with the machine's keys (unforged), that no file read has the hash of another kernel or initrd of a generation (unsubstituted), and how the firmware's file system treats names (uefi_names). For generations with initrd secrets the first part of the initrd is only known by its hash. Two stronger statements are false: generations that are no longer installed can be started from kept files (C92_rollback_refuted), and credentials or extensions are added unsigned (C92_nothing_added_refuted; they are measured, C33)."},
{"property": "C93", "status": "proved", "theorems": ["C93_only_enforced", "C93_bound", "C93_dropped", "C93_manual_refuted", "C93_stays_bound_refuted"], "note": "C93_only_enforced and C93_bound. Assumes the firmware's order of records in PCR 7 and systemd-pcrlock's reading of components (SSecureLock.v). Two stronger statements are false: without automatic enrolment the condition is missing, and a machine is bound to the state without Secure Boot (C93_manual_refuted); and one boot without Secure Boot in which the disk is opened with another key takes PCR 7 out of the policy (C93_dropped, C93_stays_bound_refuted)."},
{"property": "C94", "status": "proved", "theorems": ["C94_directory", "C94_signs_enrolled", "C94_evaluates", "C94_by_hand", "C94_own_file_refuted", "C94_boots"], "note": "C94_directory and C94_signs_enrolled; C94_boots puts this into C88: on a machine whose services succeed, everything that starts verifies with the certificate that sbctl enrols. C94_evaluates says which configurations can be evaluated. Assumes sbctl's reading of its configuration (SSbctl.v). Without the defaults it is false: a publicKeyFile of one's own is never enrolled (C94_own_file_refuted). Without the services sbctl uses its own default directory, which is the bundle's exactly if that is /var/lib/sbctl (C94_by_hand)."},
{"property": "C95", "status": "proved", "theorems": ["C95_built", "C95_exact", "C95_not_replaced", "C95_any_shipped", "C95_variants_refuted"], "note": "C95_built, C95_exact and C95_not_replaced. A stronger statement is false: a component with variants of the user's own cannot be configured, since its directory is never made (C95_variants_refuted). C95_any_shipped: the same for any list of shipped measurements, since the user may add to it."},
{"property": "C96", "status": "proved", "theorems": ["C96_search", "C96_tools", "C96_pcrlock", "C96_equipment", "C96_others", "C96_path", "C96_unset", "C96_always_refuted"], "note": "C96_tools, C96_pcrlock and together C96_equipment, with C96_search for the meaning of a search in PATH. Assumes what makeBinaryWrapper, a POSIX shell and execvp do (MSearch.v, SSearch.v). Without PATH in the environment systemd-pcrlock is never found (C96_unset, C96_always_refuted), as the shell does not export the assignment."}
]}
