{"id": "C01", "title": "Configuration limit keeps exactly the newest generations", "statement": "`lzbt install --configuration-limit n` installs, oldest first, exactly the min(n, number of links) generation links with the greatest version numbers; every skipped link has a version no greater than every installed one; n = 0 means all links, still ordered by version.", "quantifier": "every list of generation links (any order, any versions, duplicates), every limit", "why_tests_cant": "the set of links and limits is unbounded; tests use three links in ascending order", "anchors": ["rust/tool/systemd/src/install.rs:Installer::install"]}
{"id": "C02", "title": "No usable generation means error and an untouched ESP", "statement": "If none of the selected generations has a readable bootspec, `lzbt install` returns an error and performs no write, rename or deletion at all.", "quantifier": "every ESP state, every set of links, every I/O fault schedule", "why_tests_cant": "needs all link sets and all initial ESP contents", "anchors": ["rust/tool/systemd/src/install.rs:Installer::install_generations_from_links"]}
{"id": "C03", "title": "A malformed generation disables every deletion", "statement": "If at least one selected generation cannot be read, a run of `lzbt install` deletes nothing on the ESP or in the pcrlock directory, whether it succeeds or fails.", "quantifier": "every ESP state, link set containing at least one malformed generation, fault schedule", "why_tests_cant": "universally quantified over ESP contents and over which generation is malformed", "anchors": ["rust/tool/systemd/src/install.rs:Installer::install", "rust/tool/systemd/src/install.rs:Installer::install_generations_from_links"]}
{"id": "C04", "title": "An unparsable generation link aborts before anything is touched", "statement": "If some link's file name has no number between its first and second dash, install returns an error without changing any file; otherwise the version used is that number.", "quantifier": "every list of link paths", "why_tests_cant": "unbounded set of file names", "anchors": ["rust/tool/shared/src/generation.rs:parse_version", "rust/tool/shared/src/generation.rs:GenerationLink::from_path", "rust/tool/systemd/src/install.rs:Installer::install"]}
{"id": "C05", "title": "Garbage collection deletes exactly the unreferenced entries", "statement": "`Roots::collect_garbage_with_filter(dir, pred)` without I/O errors removes exactly those entries of the tree below dir (dir included) that have, among themselves and their ancestors inside the tree, an entry which is not a root and satisfies pred; everything else, inside and outside dir, is unchanged, whatever order the directory walk yields.", "quantifier": "every file tree, root set, predicate and directory-listing order", "why_tests_cant": "trees are unbounded and the walk order is chosen by the OS; deletion happens while walking", "anchors": ["rust/tool/shared/src/gc.rs:Roots::collect_garbage_with_filter", "rust/tool/shared/src/gc.rs:Roots::in_use"]}
{"id": "C06", "title": "Foreign files are never touched", "statement": "A run of `lzbt install` never creates, changes or removes any path except: entries below EFI/nixos; entries of EFI/Linux that are (or lie below an entry) named `nixos-*`; the two systemd-boot binaries, loader/loader.conf and their temporary files; missing parent directories of those; and the two lanzaboote-owned pcrlock directories. This holds at every intermediate point, also for failing or killed runs.", "quantifier": "every ESP state, inputs, fault schedule and crash point", "why_tests_cant": "quantifies over all foreign files, all crash points and all walk orders", "anchors": ["rust/tool/systemd/src/install.rs:Installer::install", "rust/tool/shared/src/gc.rs:Roots::collect_garbage_with_filter"]}
{"id": "C07", "title": "After a successful run every selected generation is bootable", "statement": "When install returns Ok, for every selected readable generation and each of its specialisations EFI/Linux contains a stub under that generation's name whose embedded kernel and initrd paths exist on the ESP with contents matching the SHA-256 hashes embedded in the stub.", "quantifier": "every history of earlier (complete, failed or killed) runs, every set of generations", "why_tests_cant": "the property is an invariant over unbounded histories of runs and over all generation sets, and garbage collection happens after installation", "anchors": ["rust/tool/systemd/src/install.rs:Installer::install", "rust/tool/systemd/src/install.rs:Installer::install_generation", "rust/tool/systemd/src/install.rs:Installer::read_installed_generation"]}
{"id": "C08", "title": "Each boot entry boots its own generation", "statement": "When install returns Ok, the stub found under a selected generation's name carries that generation's kernel bytes (by hash and path), its `init=` plus kernel parameters as command line and its os-release, even if the stub was installed by an earlier run or shares kernel/initrd files with other generations.", "quantifier": "every history of runs, every set of generations sharing or not sharing kernels", "why_tests_cant": "sharing and reuse across unbounded histories", "anchors": ["rust/tool/systemd/src/install.rs:Installer::install_generation", "rust/tool/systemd/src/install.rs:stub_prefix", "rust/tool/shared/src/pe.rs:lanzaboote_image"]}
{"id": "C09", "title": "Killing or failing a run never damages existing entries", "statement": "At every point of a run (process killed, or any I/O error) a boot entry that was bootable before the run and whose generation is selected is still bootable, no partially written file is ever visible under a `.efi` name in EFI/nixos or EFI/Linux, and every new stub already has its kernel and initrd in place.", "quantifier": "every crash point and fault schedule, every prior state reachable by earlier runs", "why_tests_cant": "crash points cannot be enumerated by tests", "anchors": ["rust/tool/systemd/src/install.rs:atomic_copy", "rust/tool/systemd/src/install.rs:install_signed", "rust/tool/systemd/src/install.rs:Installer::install_generation"]}
{"id": "C10", "title": "Power loss never corrupts an installed kernel or initrd", "statement": "If unsynced file contents may be lost at a power failure, every `.efi` file in EFI/nixos still has the content its name's hash says, at every point of the run; and once install has begun deleting, every selected generation's entry is durable.", "quantifier": "every power-loss point, every loss pattern of unsynced data", "why_tests_cant": "needs all crash points and all loss patterns", "anchors": ["rust/tool/systemd/src/install.rs:atomic_copy", "rust/tool/systemd/src/install.rs:Installer::install_generations_from_links"]}
{"id": "C11", "title": "Stubs and boot loader survive power loss", "statement": "A power failure at any point, or right after a successful run, never leaves a truncated or corrupted stub in EFI/Linux or a corrupted systemd-boot binary.", "quantifier": "every power-loss point, every loss pattern of unsynced data", "why_tests_cant": "depends on which writes are synced; tests do not cut power", "anchors": ["rust/tool/systemd/src/install.rs:install_signed", "rust/tool/systemd/src/install.rs:Installer::install_systemd_boot"]}
{"id": "C12", "title": "Deletion only after the new entries are durable", "statement": "No file is removed before all selected generations have been installed and the ESP has been synced.", "quantifier": "every run, fault schedule", "why_tests_cant": "ordering property of all executions", "anchors": ["rust/tool/systemd/src/install.rs:Installer::install"]}
{"id": "C13", "title": "No dangling boot entry at any crash point", "statement": "At every point of a run, every stub in EFI/Linux (including those about to be garbage collected) still has its kernel and initrd on the ESP, provided this held before the run.", "quantifier": "every crash point during garbage collection", "why_tests_cant": "the window between two deletions cannot be hit reliably by tests", "anchors": ["rust/tool/systemd/src/install.rs:Installer::install"]}
{"id": "C14", "title": "Installing twice changes nothing", "statement": "If a run returns Ok with garbage collection enabled, an immediately following run with the same inputs returns Ok and performs no write, rename or deletion (only the final sync), as long as the external tools are deterministic and signing preserves sections.", "quantifier": "every input, every initial ESP state", "why_tests_cant": "quantifies over all states reachable after the first run", "anchors": ["rust/tool/systemd/src/install.rs:Installer::install", "rust/tool/systemd/src/install.rs:Installer::register_installed_generation", "rust/tool/systemd/src/install.rs:install"]}
{"id": "C15", "title": "A stub's file name identifies version, specialisation, toplevel and key", "statement": "Two generations get the same stub name only if they have the same version, the same specialisation name (or none), the same toplevel path and the same public key, or if a SHA-256 collision is exhibited; all names have the form `nixos-generation-<version>[-specialisation-<name>]-<52 base32 chars>[+<tries>].efi`.", "quantifier": "all pairs of generations, keys, specialisation names", "why_tests_cant": "injectivity over infinite domains", "anchors": ["rust/tool/systemd/src/install.rs:stub_name", "rust/tool/systemd/src/install.rs:stub_prefix"]}
{"id": "C16", "title": "Boot-counted entries are recognised, and only as their own generation", "statement": "An existing file is taken as a generation's stub iff it is the generation's prefix, optionally `+digits` or `+digits-digits`, and `.efi`; a file can be taken as the stub of two different generations only if a name hash consists solely of digits and the specialisation name contains `+`.", "quantifier": "all file names, all pairs of generations", "why_tests_cant": "language membership over infinitely many strings", "anchors": ["rust/tool/systemd/src/install.rs:Installer::register_installed_generation", "rust/tool/systemd/src/install.rs:Installer::read_installed_generation"]}
{"id": "C17", "title": "Boot counters are preserved and entries are unique", "statement": "A run never renames or rewrites the entry of an intact selected generation (its boot counter suffix survives), and after a successful run with garbage collection each selected generation has exactly one entry in EFI/Linux.", "quantifier": "every ESP state, tries setting, walk order", "why_tests_cant": "quantifies over all counter states and directory orders", "anchors": ["rust/tool/systemd/src/install.rs:Installer::register_installed_generation", "rust/tool/systemd/src/install.rs:Installer::install_generation"]}
{"id": "C18", "title": "systemd-boot is rewritten exactly when needed, both copies together", "statement": "Both EFI/BOOT/BOOT<ARCH>.EFI and EFI/systemd/systemd-boot<arch>.efi are replaced by the signed shipped binary iff one of them is missing, unreadable or older than the shipped one, or fails signature verification, or measured boot is on and no `current` bootloader measurement exists; otherwise neither file is changed.", "quantifier": "all combinations of states of the two files, versions, signatures, pcrlock state", "why_tests_cant": "needs the full decision table with arbitrary versions", "anchors": ["rust/tool/systemd/src/install.rs:Installer::install_systemd_boot", "rust/tool/systemd/src/install.rs:newer_systemd_boot"]}
{"id": "C19", "title": "systemd-boot is never downgraded", "statement": "An installed systemd-boot binary with a version newer than the shipped one is not replaced.", "quantifier": "all combinations of states of the two files", "why_tests_cant": "needs all combinations of the two files and reasons for reinstalling", "anchors": ["rust/tool/systemd/src/install.rs:Installer::install_systemd_boot", "rust/tool/systemd/src/install.rs:newer_systemd_boot"]}
{"id": "C20", "title": "A malformed installed boot loader is replaced, not fatal", "statement": "Whatever bytes are at the two systemd-boot locations, a run with a well-formed shipped systemd-boot does not abort because of them; it reinstalls.", "quantifier": "every byte string at the destination", "why_tests_cant": "unbounded set of malformed files", "anchors": ["rust/tool/systemd/src/install.rs:newer_systemd_boot", "rust/tool/systemd/src/version.rs:SystemdVersion::from_systemd_boot_binary", "rust/tool/shared/src/pe.rs:read_section_data"]}
{"id": "C21", "title": "Version order matches release order", "statement": "For all systemd release names `M-rcK`, `M`, `M.m`: parsing succeeds (numbers in range) and the parsed versions compare exactly as the releases are ordered: by M, then all release candidates by K before M, then M.m by m with M = M.0. Exactly the strings of the accepted grammar parse.", "quantifier": "all strings, all numbers in range", "why_tests_cant": "infinite domain", "anchors": ["rust/tool/systemd/src/version.rs:SystemdVersion", "rust/tool/systemd/src/version.rs:SystemdVersion::from_str"]}
{"id": "C22", "title": "os-release files are parsed as systemd does", "statement": "For every sequence of lines of the documented kinds (blank, comment, key without value, unquoted, single-quoted and double-quoted assignments, with surrounding whitespace) the parser returns exactly the last value of each key, unescaped.", "quantifier": "every sequence of such lines, every key and value", "why_tests_cant": "infinite language", "anchors": ["rust/tool/shared/src/os_release.rs:OsRelease::from_str"]}
{"id": "C23", "title": "Generated os-release text reads back as written", "statement": "Parsing the os-release text written into a stub yields exactly ID, PRETTY_NAME and VERSION_ID with the intended values whenever label, sort key and specialisation name contain no line break or backslash and the values do not start with blank or quote or end with blank; in general it need not.", "quantifier": "all generations", "why_tests_cant": "all labels, sort keys and names", "anchors": ["rust/tool/shared/src/os_release.rs:OsRelease::from_generation", "rust/tool/shared/src/os_release.rs:Display for OsRelease"]}
{"id": "C24", "title": "Boot menu titles are unique", "statement": "Two entries with the same PRETTY_NAME have the same version, specialisation, build date and label, as long as labels contain no parenthesis.", "quantifier": "all pairs of generations", "why_tests_cant": "injectivity over infinite domain", "anchors": ["rust/tool/shared/src/os_release.rs:OsRelease::from_generation", "rust/tool/shared/src/generation.rs:Generation::describe"]}
{"id": "C25", "title": "ESP path to UEFI path and back is the identity", "statement": "For a file below the ESP whose components contain no backslash (and are valid UTF-8), embedding its path in a stub and resolving it again yields the same path; the embedded text starts with a backslash, contains no slash.", "quantifier": "all ESP mount points and relative paths", "why_tests_cant": "infinite domain", "anchors": ["rust/tool/shared/src/pe.rs:esp_relative_uefi_path", "rust/tool/systemd/src/install.rs:resolve_efi_path"]}
{"id": "C26", "title": "Stub sections never overlap and are read back exactly", "statement": "The six sections added to the stub get consecutive, non-overlapping address ranges beyond the stub's own sections, and after loading the image the boot stub reads from each of them exactly the bytes the tool put in, for any contents (including empty ones).", "quantifier": "all stubs with ascending sections, all section contents", "why_tests_cant": "unbounded contents; address arithmetic", "anchors": ["rust/tool/shared/src/pe.rs:lanzaboote_image", "rust/tool/shared/src/pe.rs:stub_offset", "rust/uefi/linux-bootloader/src/uefi_helpers.rs:ParsedPe::section_data"]}
{"id": "C27", "title": "What the tool writes is what the stub uses", "statement": "For every generation whose command line contains no NUL and only BMP characters, the stub assembled by the tool makes the boot stub open the kernel and initrd files the tool installed, accept exactly those contents, and pass `init=<init> <params>` as NUL-terminated UTF-16 to the kernel.", "quantifier": "all generations, hash function, file contents", "why_tests_cant": "end-to-end relation between two programs over all inputs", "anchors": ["rust/tool/shared/src/pe.rs:lanzaboote_image", "rust/uefi/stub/src/thin.rs:UkiComponents::load_from_pe", "rust/tool/systemd/src/install.rs:assemble_kernel_cmdline"]}
{"id": "C28", "title": "Only verified kernels and initrds are started", "statement": "If the stub starts a kernel image, it is the image loaded from bytes whose SHA-256 equals the hash embedded in the stub, the initrd it serves begins with bytes whose SHA-256 equals the embedded initrd hash, and these are the very bytes that were checked, even if the file system returns different data at each read; otherwise nothing is started. Secure Boot state does not matter.", "quantifier": "all firmware behaviours, file system answers, stub images", "why_tests_cant": "adversarial file systems cannot be enumerated", "anchors": ["rust/uefi/stub/src/thin.rs:UkiComponents::load_from_pe", "rust/uefi/stub/src/thin.rs:check_hash", "rust/uefi/stub/src/thin.rs:boot_linux", "rust/uefi/stub/src/main.rs:main"]}
{"id": "C29", "title": "Secure Boot detection errs on the safe side", "statement": "Secure Boot is considered off iff the SecureBoot variable is the single byte 0 or does not exist; any other value, length or read error counts as on.", "quantifier": "all firmware answers", "why_tests_cant": "all values, lengths and error codes", "anchors": ["rust/uefi/stub/src/common.rs:get_secure_boot_status"]}
{"id": "C30", "title": "Boot-loader supplied command lines only without Secure Boot and only after measuring", "statement": "The kernel gets the embedded command line, except that with Secure Boot off and load options present it gets the load options if they equal the embedded one or if logging them to PCR 4 reported success; if a TPM is usable this means they have been extended into PCR 4 before the kernel starts.", "quantifier": "all firmware states, load options, TPM behaviours", "why_tests_cant": "adversarial TPM and firmware answers", "anchors": ["rust/uefi/stub/src/common.rs:get_cmdline", "rust/uefi/linux-bootloader/src/tpm.rs:tpm_log_event_ascii"]}
{"id": "C31", "title": "PCR 11 measurements are canonical", "statement": "The PCR 11 events are, for each measurable UKI section present, its NUL-terminated name and then its data (kernel and initrd file contents for .linux/.initrd), in the UKI canonical order, independent of the order of sections in the image; .pcrsig, .dtbauto and non-UKI sections are not measured.", "quantifier": "all images, section orders and contents", "why_tests_cant": "all permutations and contents", "anchors": ["rust/uefi/linux-bootloader/src/measure.rs:measure_image", "rust/uefi/linux-bootloader/src/unified_sections.rs:UnifiedSection"]}
{"id": "C32", "title": "Companion archives are measured into the right PCR", "statement": "Credential archives are extended into PCR 12 and system extension archives into PCR 13, in order, with their exact bytes; StubPcrKernelParameters is written iff a measurement into PCR 12 was reported successful, StubPcrInitRDSysExts iff one into PCR 13 was, unless writing the former variable failed.", "quantifier": "all companion lists, TPM behaviours", "why_tests_cant": "all lists and fault patterns", "anchors": ["rust/uefi/linux-bootloader/src/measure.rs:measure_companion_initrds"]}
{"id": "C33", "title": "Everything handed to the kernel has been measured first", "statement": "With a TPM whose operations succeed, when the kernel is started the TPM log already contains the kernel, the initrd, the embedded sections and every companion archive contained in the initrd that the kernel receives.", "quantifier": "all boot file systems, images and load options", "why_tests_cant": "all executions of the boot stub", "anchors": ["rust/uefi/stub/src/main.rs:main", "rust/uefi/stub/src/thin.rs:boot_linux"]}
{"id": "C34", "title": "Layout of the initrd given to the kernel", "statement": "The initrd served to Linux is the verified initrd followed by the companion archives in order, each zero-padded to a multiple of 4 bytes, so every archive starts 4-byte aligned and nothing is lost or reordered.", "quantifier": "all initrd lengths and companion lists", "why_tests_cant": "all lengths", "anchors": ["rust/uefi/stub/src/thin.rs:boot_linux"]}
{"id": "C35", "title": "LoadFile2 contract", "statement": "A call without buffer-size pointer is INVALID_PARAMETER; with null or too small buffer it is BUFFER_TOO_SMALL, reports the needed size and writes nothing; otherwise it writes exactly the initrd to the first bytes of the buffer and nothing beyond. Query-then-load always obtains the full initrd. On success the size is set to the number of bytes written.", "quantifier": "all initrds, buffers, call sequences", "why_tests_cant": "all sizes and call histories", "anchors": ["rust/uefi/linux-bootloader/src/linux_loader.rs:LoadFile2Protocol::load_file"]}
{"id": "C36", "title": "CPIO archives decode to what was packed", "statement": "Reading an archive produced by the packer with a standard newc reader yields exactly the directories and files packed, in order, with path, mode (plus type bits), content, inode numbers 1,2,3,\u2026, and then the trailer.", "quantifier": "all sequences of pack operations within the format limits", "why_tests_cant": "unbounded sequences, names and contents", "anchors": ["rust/uefi/pio/src/writer.rs:Cpio"]}
{"id": "C37", "title": "CPIO archives stay aligned and sizes are reported truthfully", "statement": "After every successful operation the archive length is a multiple of 4, and pack_one returns exactly the number of bytes appended; a failed operation leaves the archive unchanged.", "quantifier": "all sequences of pack operations", "why_tests_cant": "all lengths modulo 4, all histories", "anchors": ["rust/uefi/pio/src/writer.rs:Cpio::pack_one", "rust/uefi/pio/src/writer.rs:align", "rust/uefi/pio/src/writer.rs:compute_pad4"]}
{"id": "C38", "title": "CPIO limits give errors, never panics or truncated fields", "statement": "Files over 4 GiB, over-long names and exhausted inode numbers are reported as errors; no input makes the packer panic or write a wrapped size field.", "quantifier": "all inputs including those at the 32-bit limits", "why_tests_cant": "needs inputs of 4 GiB and 2^32 inodes", "anchors": ["rust/uefi/pio/src/writer.rs:Cpio::pack_one", "rust/uefi/pio/src/writer.rs:Cpio::pack_dir", "rust/uefi/pio/src/writer.rs:write_cpio_header"]}
{"id": "C39", "title": "Companion discovery is complete and order-independent", "statement": "A companion archive contains exactly the regular files of the directory whose names are ASCII and have the right suffix, sorted by name, so its bytes (and measurement) do not depend on the order in which firmware lists the directory.", "quantifier": "all directory contents and listing orders", "why_tests_cant": "all permutations", "anchors": ["rust/uefi/linux-bootloader/src/companions.rs:find_files", "rust/uefi/linux-bootloader/src/cpio.rs:pack_cpio", "rust/uefi/linux-bootloader/src/companions.rs:discover_credentials"]}
{"id": "C40", "title": "The PE loader never reads or writes out of bounds and builds the right image", "statement": "For every file and every parsed header the loader either returns an error or an image of length max(virtual end of sections) in which each byte comes from the last section that has file data for it and is zero where no section has, with the entry point inside the image; no header makes it panic or access memory outside file or image. Images with base relocations are rejected.", "quantifier": "all byte strings and all header values", "why_tests_cant": "memory safety over all hostile headers", "anchors": ["rust/uefi/linux-bootloader/src/pe_loader.rs:Image::load"]}
{"id": "C41", "title": "Page counts are exact", "statement": "The number of pages allocated for and freed after an image is the least number of 4 KiB pages holding it, for every possible length including those near the top of the address space.", "quantifier": "all 64-bit lengths", "why_tests_cant": "2^64 inputs", "anchors": ["rust/uefi/linux-bootloader/src/pe_loader.rs:bytes_to_pages", "rust/uefi/linux-bootloader/src/pe_loader.rs:Image::start"]}
{"id": "C42", "title": "Loader variables set earlier are not overwritten", "statement": "LoaderDevicePartUUID, LoaderImageIdentifier, LoaderFirmwareInfo and LoaderFirmwareType are written only if they could not be found to exist; existing values survive, and failures to set one do not prevent the others; StubInfo and StubFeatures are always attempted.", "quantifier": "all variable stores and firmware answers", "why_tests_cant": "all variable states and error patterns", "anchors": ["rust/uefi/linux-bootloader/src/efivars.rs:ensure_efi_variable", "rust/uefi/linux-bootloader/src/efivars.rs:export_efi_variables"]}
{"id": "C43", "title": "PCR index variables are decimal strings", "statement": "StubPcrKernelImage, StubPcrKernelParameters and StubPcrInitRDSysExts hold the decimal PCR number as UTF-16 text, as systemd expects.", "quantifier": "every boot that sets them", "why_tests_cant": "needs a decoder-based statement about every written value", "anchors": ["rust/uefi/linux-bootloader/src/measure.rs:measure_image", "rust/uefi/linux-bootloader/src/measure.rs:measure_companion_initrds"]}
{"id": "C44", "title": "LoaderFirmwareInfo shows the firmware revision", "statement": "The variable ends in `<major>.<minor>` where major and minor are the upper and lower 16 bits of the firmware revision.", "quantifier": "all 32-bit firmware revisions", "why_tests_cant": "2^32 revisions", "anchors": ["rust/uefi/linux-bootloader/src/efivars.rs:export_efi_variables"]}
{"id": "C45", "title": "The running boot loader is always covered by a measurement", "statement": "With measured boot, at every crash point of every history of runs each systemd-boot binary on the ESP that was covered by a pcrlock component (current or next) is still covered.", "quantifier": "all crash points, all histories of runs", "why_tests_cant": "multi-run crash histories", "anchors": ["rust/tool/systemd/src/install.rs:Installer::install_systemd_boot", "rust/tool/systemd/src/pcrlock.rs:PcrlockPaths"]}
{"id": "C46", "title": "Every selected generation has the pcrlock component of its own stub", "statement": "With measured boot, after a successful run each selected generation's pcrlock component exists and was produced from the image its entry was made from.", "quantifier": "all histories of runs", "why_tests_cant": "generation-number reuse across histories", "anchors": ["rust/tool/systemd/src/install.rs:Installer::register_installed_generation", "rust/tool/systemd/src/install.rs:Installer::install_generation", "rust/tool/shared/src/generation.rs:Generation::version_tag"]}
{"id": "C47", "title": "Unsigned artifacts only on explicit request", "statement": "The tool installs unsigned files iff --allow-unsigned true is given and neither key file exists; in every other case the keys are used and a signing failure aborts.", "quantifier": "all flag values and key file states", "why_tests_cant": "full decision table with error cases", "anchors": ["rust/tool/systemd/src/cli.rs:install", "rust/tool/shared/src/signature/empty.rs:EmptyKeyPair"]}
{"id": "C48", "title": "Everything executable the tool installs is signed with the given key", "statement": "With a key pair, every stub and every systemd-boot binary a run puts on the ESP is the output of the signing tool for that key applied to the assembled image resp. the shipped binary; at no point is an unsigned version visible under its final name.", "quantifier": "all runs, crash points", "why_tests_cant": "all executions and crash points", "anchors": ["rust/tool/systemd/src/install.rs:install_signed", "rust/tool/shared/src/signature/local.rs:LocalKeyPair"]}
{"id": "C49", "title": "Drop-in directories of live entries survive", "statement": "Credentials and system extensions placed in `<stub>.efi.extra/` of a selected generation are not deleted by a run.", "quantifier": "all ESP states", "why_tests_cant": "interaction of two features over all states", "anchors": ["rust/tool/systemd/src/install.rs:Installer::install", "rust/uefi/linux-bootloader/src/companions.rs:get_default_dropin_directory"]}
{"id": "C50", "title": "A damaged stub is reinstalled, not fatal", "statement": "Whatever bytes a file matching a selected generation's stub name contains, a run does not abort because of it: either it is accepted as intact or the generation is reinstalled.", "quantifier": "every byte string", "why_tests_cant": "unbounded set of malformed files", "anchors": ["rust/tool/systemd/src/install.rs:Installer::read_installed_generation", "rust/tool/shared/src/pe.rs:read_section_data", "rust/tool/systemd/src/install.rs:resolve_efi_path"]}
{"id": "C51", "title": "Encodings used for names are reversible", "statement": "Base32 of a 32-byte hash is 52 lower-case characters and injective; the JSON text of the name inputs is injective in toplevel and key; UTF-8 encoding and decoding are inverse.", "quantifier": "all byte strings and code point strings", "why_tests_cant": "infinite domains", "anchors": ["rust/tool/systemd/src/install.rs:stub_prefix", "rust/tool/systemd/src/install.rs:Installer::install_nixos_ca", "rust/uefi/stub/src/thin.rs:extract_string"]}
{"id": "C52", "title": "Instruction cache maintenance covers the image", "statement": "On AArch64 the flushed 16-byte lines are exactly those that overlap the loaded image.", "quantifier": "all addresses and lengths", "why_tests_cant": "all 64-bit addresses", "anchors": ["rust/uefi/linux-bootloader/src/pe_loader.rs:make_instruction_cache_coherent"]}
{"id": "C53", "title": "Loader feature word is read strictly", "statement": "The feature word is returned only if the variable has exactly 8 bytes and no unknown bits, as the little-endian number of its bytes; a wrong size is BAD_BUFFER_SIZE, unknown bits INCOMPATIBLE_VERSION, an unreadable variable the empty set.", "quantifier": "all variable contents and errors", "why_tests_cant": "2^64 values", "anchors": ["rust/uefi/linux-bootloader/src/efivars.rs:get_loader_features"]}
{"id": "C54", "title": "The boot partition UUID is the first GPT partition in the device path", "statement": "The partition UUID reported is that of the first hard-drive media node with a GUID signature in the device path; without one it is UNSUPPORTED.", "quantifier": "all device paths", "why_tests_cant": "unbounded node lists", "anchors": ["rust/uefi/linux-bootloader/src/efivars.rs:disk_get_part_uuid"]}
{"id": "C55", "title": "The stub cleans up after a kernel that returns", "statement": "If the started kernel returns and the stub returns too, the stub has freed the kernel's memory, restored the loaded image protocol's image and load options, removed both protocols it installed for the initrd, and returns the kernel's status.", "quantifier": "all firmware behaviours, stub images and histories", "why_tests_cant": "A returning kernel is never exercised; failures of each firmware call would have to be injected", "anchors": ["rust/uefi/linux-bootloader/src/pe_loader.rs:start", "rust/uefi/linux-bootloader/src/linux_loader.rs:uninstall", "rust/uefi/stub/src/common.rs:boot_linux_unchecked"]}
{"id": "C56", "title": "The installer panics only for known causes", "statement": "A run panics only if a selected bootspec has neither an initrd nor secrets, an init path is not UTF-8, the shipped stub has no sections or no optional header, or an executable it reads (the shipped boot loader, a boot loader or an entry of a selected generation on the ESP) has a damaged header or an empty section; on an ESP that only this installer wrote entries to, entries are never the cause. (That it never panics half-way is false.)", "quantifier": "all configurations, file systems, histories, tools and I/O faults", "why_tests_cant": "the inputs that make unwrap/expect/assert fail are not enumerable; absence of panics is a universal statement", "anchors": ["rust/tool/systemd/src/install.rs:install_generation", "rust/tool/systemd/src/install.rs:install_generation_from_link", "rust/tool/shared/src/pe.rs:read_section_data", "rust/tool/shared/src/pe.rs:stub_offset", "rust/tool/shared/src/pe.rs:image_base", "rust/tool/systemd/src/version.rs:from_systemd_boot_binary"]}
{"id": "C57", "title": "The command does what its arguments say and exit status 0 means it was done", "statement": "A command line that names a known system and both keys, with LANZABOOTE_STUB set, runs the installer with exactly the given paths, limit (1 by default), boot counting tries (0 by default) and links, unsigned only if allowed and neither key is known to exist; any other changes nothing and fails. The exit status is 0 exactly if that run succeeded, and then every generation of the newest links boots. (That the keys are optional when unsigned files are allowed is false: it panics.)", "quantifier": "all argument values, environments, file systems and histories", "why_tests_cant": "unbounded argument combinations and file-system states", "anchors": ["rust/tool/systemd/src/cli.rs:install", "rust/tool/systemd/src/cli.rs:call", "rust/tool/systemd/src/main.rs:main", "rust/tool/shared/src/architecture.rs:from_nixos_system"]}
{"id": "C58", "title": "loader.conf is replaced atomically and ends up as given", "statement": "Whenever a run is stopped or fails, loader.conf is as it was before or is the given file, completely and synced; after a successful run it has the given file's hash.", "quantifier": "all configurations, file systems, I/O faults and kill points", "why_tests_cant": "every kill point and fault schedule would have to be tried", "anchors": ["rust/tool/systemd/src/install.rs:install_systemd_boot", "rust/tool/systemd/src/install.rs:install"]}
{"id": "C59", "title": "A run succeeds if nothing is in its way, also after interrupted runs", "statement": "If every generation link has a version, at least one selected generation is readable, kernels, initrds, stub, boot loader, loader.conf and public key are there, the external tools succeed on them, no I/O error occurs, and on the ESP and in the pcrlock directory no file is where a directory is needed and no directory where a file is needed, then the installer does not fail; on an ESP with a history of installer runs and with boot loaders whose .osrel section is readable it returns success. No run, completed, failed or killed at any point, puts anything in the way of later runs: after any sequence of such runs a run without I/O errors succeeds, without manual clean-up.", "quantifier": "for all inputs that are complete, all ESP contents with nothing in the way, all sequences of earlier runs to the same places, and all points at which those stopped", "why_tests_cant": "Tests retry after a few chosen failures; the property ranges over every prefix of every earlier run, every fault schedule and every ESP content.", "anchors": ["rust/tool/systemd/src/install.rs:install", "rust/tool/systemd/src/install.rs:install_generation", "rust/tool/systemd/src/install.rs:install_systemd_boot", "rust/tool/systemd/src/install.rs:ensure_parent_dir", "rust/tool/systemd/src/install.rs:atomic_copy", "rust/tool/systemd/src/install.rs:sign_and_copy"]}
{"id": "C60", "title": "The stub has no effect before its files are verified", "statement": "Every TPM extend, variable write, allocation, protocol installation, change of the loaded image and kernel start of the boot stub happens after both files named in its .linux and .initrd sections were read and found to have the hashes in its 32-byte .linuxh and .initrdh sections. The stub returns without panicking only if they were. If one of the five sections is missing or malformed, it panics without reading a file and without any effect.", "quantifier": "for all firmware behaviours (every answer may depend on the whole history of calls), stub images, section tables, file contents and hash functions", "why_tests_cant": "Tests boot a few images with one damaged file; the property is about every event of every run under every firmware.", "anchors": ["rust/uefi/stub/src/main.rs:main", "rust/uefi/stub/src/thin.rs:load_from_pe", "rust/uefi/stub/src/thin.rs:extract_hash", "rust/uefi/stub/src/thin.rs:extract_string", "rust/uefi/stub/src/thin.rs:check_hash"]}
{"id": "C61", "title": "TPM and variable failures never keep the stub from starting the kernel", "statement": "If the stub's sections are in order and within the image, the files they name are readable with the recorded hashes, the kernel can be loaded, the image can be opened, memory can be allocated, protocols can be installed, load options are shorter than 4 GiB and the companion directories and files are readable, then the stub starts the kernel, whatever the TPM, the variables, the device paths, the load options and the uninstall and free calls answer. After a successful installer run this holds for the stub of every selected generation, and the kernel has the hash of the generation's kernel.", "quantifier": "for all firmware behaviours with these essentials, all stub images, and after all histories of installer runs", "why_tests_cant": "Tests use one virtual TPM and variable store that work; every pattern of failing calls would have to be tried.", "anchors": ["rust/uefi/stub/src/main.rs:main", "rust/uefi/stub/src/thin.rs:boot_linux", "rust/uefi/stub/src/common.rs:get_cmdline", "rust/uefi/stub/src/common.rs:boot_linux_unchecked", "rust/uefi/linux-bootloader/src/measure.rs:measure_image", "rust/uefi/linux-bootloader/src/efivars.rs:export_efi_variables", "rust/uefi/linux-bootloader/src/companions.rs:discover_credentials", "rust/uefi/pio/src/writer.rs:pack_one"]}
{"id": "C62", "title": "The image made through temporary files and objcopy's command line is the image of the contents", "statement": "objcopy reads from its arguments exactly the six sections, their files and their addresses, whatever characters the temporary paths contain. If the random names differ, a finished image file holds what assembling the contents yields, no other file changed, and without I/O errors assembling through files ends as assembling contents does. On the whole path of a generation, the file signed to the ESP is the signed image that carries the hash of the kernel and of exactly the initrd (with secrets appended) that was handed to the ESP installation, and the measurement is of the same image.", "quantifier": "for all contents, paths, random names, umasks, I/O errors and for all programs that do their work", "why_tests_cant": "Tests run one objcopy on a few files with harmless names; they do not try every path, every interleaving of files with equal names and every failure.", "anchors": ["rust/tool/shared/src/pe.rs:lanzaboote_image", "rust/tool/shared/src/pe.rs:wrap_in_pe", "rust/tool/shared/src/pe.rs:to_objcopy", "rust/tool/shared/src/pe.rs:append_initrd_secrets", "rust/tool/shared/src/utils.rs:write_secure_file", "rust/tool/shared/src/utils.rs:tmpname", "rust/tool/systemd/src/install.rs:install_generation"]}
{"id": "C63", "title": "Signing and verifying commands say what is meant and their status decides", "statement": "sbsign gets the private key as key, the public key as certificate, the input and the output; sbverify gets the public key and the file; systemd-pcrlock gets the binary and the component file, also if the key paths look like options. Signing succeeds exactly if sbsign does and then only the target changed. A signature counts as good exactly if sbverify accepts; a rejected or missing file is no error. Signing a built stub or a store path yields the signed bytes.", "quantifier": "for all paths, keys, contents, I/O errors and programs that do their work", "why_tests_cant": "Tests mock the signer or run with one key pair at fixed paths.", "anchors": ["rust/tool/shared/src/signature/local.rs:sign_and_copy", "rust/tool/shared/src/signature/local.rs:verify_path", "rust/tool/shared/src/signature/local.rs:verify", "rust/tool/shared/src/signature/local.rs:build_and_sign_stub", "rust/tool/shared/src/signature/local.rs:sign_store_path", "rust/tool/systemd/src/pcrlock.rs:lock_pe"]}
{"id": "C64", "title": "Temporary files are private and gone afterwards", "statement": "Every file and directory the installer creates while assembling an image is accessible to its user alone. The initrd with secrets is such a private copy, and the given initrd is left as it is. When assembling ends, with success, an error or a panic, nothing is left in the temporary directory, whatever the programs did.", "quantifier": "for all umasks, programs, contents, I/O errors and outcomes", "why_tests_cant": "Tests look neither at permissions nor at leftovers after each possible failure.", "anchors": ["rust/tool/shared/src/utils.rs:create_secure_file", "rust/tool/shared/src/utils.rs:write_secure_file", "rust/tool/systemd/src/install.rs:install_generation"]}
{"id": "C65", "title": "Linux finds the verified initrd", "statement": "Whenever the stub starts a kernel, a device path that decodes to exactly the vendor media node with Linux' initrd GUID is offered, and the LoadFile2 protocol offered beside it answers Linux' two calls (size, then data) with success and exactly the verified initrd followed by the companion archives, whatever path and policy Linux passes.", "quantifier": "for all firmware behaviours, images, files and requests", "why_tests_cant": "A booting VM shows that one kernel accepts the bytes; it does not check the device path against the UEFI encoding or every request.", "anchors": ["rust/uefi/linux-bootloader/src/linux_loader.rs:new", "rust/uefi/linux-bootloader/src/linux_loader.rs:raw_load_file", "rust/uefi/linux-bootloader/src/linux_loader.rs:load_file", "rust/uefi/stub/src/common.rs:boot_linux_unchecked"]}
{"id": "C66", "title": "A stub that returns leaves nothing behind", "statement": "If the stub returns to the firmware, all memory it allocated for the kernel is freed and no protocol it installed is left.", "quantifier": "for all firmware behaviours, images and files", "why_tests_cant": "Tests never make the installation of a protocol fail.", "anchors": ["rust/uefi/stub/src/common.rs:boot_linux_unchecked", "rust/uefi/linux-bootloader/src/linux_loader.rs:new", "rust/uefi/linux-bootloader/src/pe_loader.rs:start"]}
{"id": "C67", "title": "The order of the generation arguments does not matter", "statement": "If the generation links given on the command line have distinct versions, a run depends only on which links are selected by the configuration limit: permuting the arguments, or leaving out links that are not selected, gives the identical run.", "quantifier": "for all environments (including schedules of I/O errors), configurations, file systems and lists of links with distinct versions", "why_tests_cant": "Tests pass the generations in one order with one limit; all permutations under all environments cannot be run.", "anchors": ["rust/tool/systemd/src/install.rs:install", "rust/tool/shared/src/generation.rs:from_path"]}
{"id": "C68", "title": "Equal PCR values mean the same boot", "statement": "If two boots on arbitrary firmware with a working TPM end in the same values of PCRs 4, 11, 12 and 13, starting from the same values, they start the same kernel with the same initrd and the same command line, unless the PCR hash collides on what was hashed; PCR 11 alone fixes kernel, verified initrd and measured sections; and PCR 11 is the same for all boots of a stub image.", "quantifier": "for all pairs of stub images, firmware behaviours with a working TPM, hash functions and initial PCR values", "why_tests_cant": "The claim relates all pairs of boots; tests compare PCR values of one or two.", "anchors": ["rust/uefi/linux-bootloader/src/measure.rs:measure_image", "rust/uefi/linux-bootloader/src/measure.rs:measure_companion_initrds", "rust/uefi/linux-bootloader/src/tpm.rs:tpm_log_event_ascii", "rust/uefi/stub/src/common.rs:get_cmdline", "rust/uefi/stub/src/main.rs:main"]}
{"id": "C69", "title": "The boot menu offers the newest generation first", "statement": "systemd-boot reads from the generated os-release section the intended title, sort key and version, and among entries of one sort key it shows newer generations above older ones and every generation above its own specialisations, unless the entry has used up its boot counter; this holds for the entries found on the ESP after any history.", "quantifier": "for all generations with one-line labels and sort keys, all version numbers, specialisations, build times, file names and counters, and all histories of the ESP", "why_tests_cant": "The order is defined by another program on texts; tests compare a few numbers such as 1 and 2, not e.g. 9 and 10 or specialisations in general.", "anchors": ["rust/tool/shared/src/generation.rs:describe", "rust/tool/shared/src/os_release.rs:from_generation", "rust/tool/shared/src/os_release.rs:fmt", "rust/tool/systemd/src/install.rs:install_generation"]}
{"id": "C70", "title": "systemd-boot sees and counts the configured tries", "statement": "The file name of a new entry carries exactly the configured number of tries as systemd-boot parses it (no counter for 0, whatever the specialisation is called, and none for numbers above INT_MAX, which systemd-boot ignores); every renaming by which systemd-boot counts an attempt takes one try, and the renamed file is still recognised as the entry of its generation.", "quantifier": "for all generations, keys, 32-byte hash functions, numbers of tries and file names", "why_tests_cant": "Tests use a few small counters and plain names; the claim covers hashes of digits only and specialisation names that look like counters.", "anchors": ["rust/tool/systemd/src/install.rs:stub_name", "rust/tool/systemd/src/install.rs:stub_prefix", "rust/tool/systemd/src/install.rs:install_generation"]}
{"id": "C71", "title": "The NixOS install hook serves every mount point and reports failure", "statement": "The hook of the NixOS module runs the installation on the ESP and on every extra mount point with the command line that the options ask for, whatever came of the ones before. Stopped at any point it leaves every mount point in a state that the guarantees for single installations cover; a mount point whose installation succeeded still boots the newest generations after the others were served, even if those failed. The hook's exit status is zero only if every installation succeeded.", "quantifier": "for all option values, numbers of mount points, file system states, failures and points of interruption", "why_tests_cant": "The NixOS tests run the hook with at most two mount points and no failing installation; the claim covers any combination of failures.", "anchors": ["nix/modules/lanzaboote.nix:mkInstallCommand", "nix/modules/lanzaboote.nix:installHook", "nix/modules/lanzaboote.nix:makePolicyCommand", "rust/tool/systemd/src/cli.rs:install"]}
{"id": "C72", "title": "The text of the install hook means what the options say", "statement": "Read by a POSIX shell, the text of the hook consists of the assignments to PATH, one run of lzbt for the ESP and for each extra mount point, and, with measured boot, the run of systemd-pcrlock; paths of keys and mount points arrive as they were given whatever characters they contain, and lzbt's command line parser understands the arguments as the options ask for. Running the text does what the hook is said to do in C71.", "quantifier": "for all option values with absolute mount points and store paths without special characters, sets of profile links, file system states and worlds; escaping for all lists of arguments", "why_tests_cant": "The NixOS tests use plain paths; the claim covers every character in a path and every combination of options.", "anchors": ["nix/modules/lanzaboote.nix:mkInstallCommand", "nix/modules/lanzaboote.nix:installCommand", "nix/modules/lanzaboote.nix:installHook", "nix/modules/lanzaboote.nix:makePolicyCommand", "rust/tool/systemd/src/cli.rs:InstallCommand", "rust/tool/systemd/src/cli.rs:Cli"]}
{"id": "C73", "title": "Once keys exist, a run leaves nothing unsigned", "statement": "When a signing key appears on a machine whose ESP was installed to without a signature (or with other keys), then from then on, at every point of every run, each file with the name of an entry for this key verifies with it; and after one successful run with the key, both copies of systemd-boot and every entry of NixOS verify, and every selected generation has a verified entry that finds its kernel and initrd.", "quantifier": "for all machines, keys, earlier histories (unsigned runs, other keys, killed runs, boot counters, removed files, foreign writes), generations and worlds without faults in the last run", "why_tests_cant": "The NixOS test enrolls keys once from one unsigned installation that succeeded; the claim covers arbitrary earlier states, including interrupted runs and mixed keys.", "anchors": ["rust/tool/shared/src/signature/mod.rs:Signer", "rust/tool/shared/src/signature/empty.rs:EmptyKeyPair", "rust/tool/shared/src/signature/local.rs:LocalKeyPair", "rust/tool/systemd/src/install.rs:install_generation", "rust/tool/systemd/src/install.rs:install_systemd_boot", "rust/tool/systemd/src/install.rs:stub_prefix", "nix/modules/lanzaboote.nix:allowUnsigned"]}
{"id": "C74", "title": "A generation is read as its boot.json says", "statement": "A well-formed boot.json is read, and everything read from it (init, kernel, initrd, secrets script, parameters, label, toplevel, sort key, specialisations) is what it says; the link stands for exactly one entry for the system and one for each specialisation, each with its own part of the document; the sort key is that of the document's lanzaboote extension if it gives one as text, otherwise \"lanzaboote\"; a document that cannot be read is replaced by the synthesised bootspec. Generations of one sort key setting are therefore ordered by age in the menu.", "quantifier": "for all documents (trees of JSON values, with repeated members), iteration orders of the map of specialisations, versions, dates and synthesised bootspecs", "why_tests_cant": "The tests read one document; the claim covers all documents including missing, null, repeated and ill-typed members.", "anchors": ["rust/tool/shared/src/generation.rs:Generation::from_link", "rust/tool/shared/src/generation.rs:Generation::parse_boot_json", "rust/tool/shared/src/generation.rs:Generation::parse_specialisation", "rust/tool/shared/src/generation.rs:LanzabooteExtension", "nix/modules/lanzaboote.nix:sortKey"]}
{"id": "C75", "title": "After a run the ESP holds exactly what the selected generations need", "statement": "After a successful run with all bootspecs readable, on an ESP with any history, the entries of NixOS in EFI/Linux are exactly one for each selected generation and each of its specialisations, each a stub of that generation which finds its kernel and initrd; everything in EFI/nixos is named by one of these stubs; with measured boot the pcrlock directory holds exactly their components.", "quantifier": "for all machines, histories (killed and failed runs, other keys, boot counters, removed files), configurations and worlds without faults in the last run", "why_tests_cant": "Tests compare directory sizes for a few runs; the claim is an exact description of the final state for all inputs and earlier states.", "anchors": ["rust/tool/systemd/src/install.rs:Installer::install", "rust/tool/systemd/src/install.rs:Installer::install_generation", "rust/tool/systemd/src/install.rs:Installer::register_installed_generation", "rust/tool/shared/src/gc.rs:Roots::collect_garbage_with_filter"]}
{"id": "C76", "title": "The limit for measured boot bounds the variants", "statement": "With measured boot the NixOS module demands a configuration limit from 1 to 8, because systemd-pcrlock cannot allow for more than 8 variants; after a successful run there are therefore at most 8 components for the stub.", "quantifier": "for all configurations with such a limit, histories and worlds without faults", "why_tests_cant": "The NixOS test has few generations and no specialisations with measured boot.", "anchors": ["nix/modules/lanzaboote.nix:assertions", "nix/modules/lanzaboote.nix:configurationLimit", "rust/tool/systemd/src/install.rs:Installer::install"]}
{"id": "C77", "title": "Keys lie ready for enrolment only beside signed files", "statement": "At every moment of the service that prepares automatic enrolment, if the three files that systemd-boot enrols on the next boot are on the ESP, then both copies of systemd-boot and all entries of NixOS are signed with the new key, so that the machine still boots with Secure Boot.", "quantifier": "for all machines, histories, keys and moments at which the service is stopped or fails", "why_tests_cant": "The NixOS test lets the service finish; the moments in between and failing installations are not tried.", "anchors": ["nix/modules/lanzaboote.nix:systemd.services.prepare-sb-auto-enroll", "nix/modules/lanzaboote.nix:installHook", "rust/tool/systemd/src/install.rs:Installer::install"]}
{"id": "C78", "title": "loader.conf means the settings", "statement": "systemd-boot reads from the loader.conf that the NixOS module generates exactly the settings in force: the user's values, the defaults for names the user does not set, nothing for names set to null, and nothing else.", "quantifier": "for all defaults and user settings whose names and texts can be written on a line", "why_tests_cant": "The NixOS tests use a few settings; the claim is over all sets of settings and their merging with the defaults.", "anchors": ["nix/modules/lanzaboote.nix:loaderSettingsFormat", "nix/modules/lanzaboote.nix:loaderConfigFile", "nix/modules/lanzaboote.nix:settings"]}
{"id": "C79", "title": "The newest generation is started by default", "statement": "After a successful run, with the default loader.conf, systemd-boot starts by default the newest selected generation that has tries left, not one of its specialisations, and that entry finds its kernel and initrd.", "quantifier": "for all machines, histories, configurations and worlds without faults in the last run, all other files on the ESP", "why_tests_cant": "Tests boot one or two generations; the claim combines the exact contents of the ESP with the menu's order for all of them.", "anchors": ["rust/tool/systemd/src/install.rs:Installer::install", "nix/modules/lanzaboote.nix:settings", "rust/tool/shared/src/os_release.rs:OsRelease::from_generation", "rust/tool/systemd/src/install.rs:Installer::install_systemd_boot"]}
{"id": "C80", "title": "Switching to a configuration boots it", "statement": "On a machine with Secure Boot, after a successful run with the key the boot loader verifies, starts by default the entry of the newest selected generation that has tries left, this entry verifies, and its stub starts that generation's kernel with that generation's command line and initrd, whatever load options the firmware hands over and whichever other firmware services fail.", "quantifier": "for all machines, histories since the key was introduced, configurations, worlds without faults in the last run, and firmwares that can read the ESP, allocate memory and install protocols", "why_tests_cant": "The VM tests boot a handful of configurations on one firmware; the claim joins installer, boot loader and stub for all of them.", "anchors": ["rust/tool/systemd/src/install.rs:Installer::install", "rust/uefi/stub/src/main.rs:main", "rust/uefi/stub/src/thin.rs:boot_linux", "rust/tool/shared/src/pe.rs:lanzaboote_image", "nix/modules/lanzaboote.nix:settings"]}
{"id": "C81", "title": "The secrets on the ESP are those of the last run", "statement": "After a successful run every selected generation with initrd secrets has an entry whose initrd holds the secrets as they are at that run.", "quantifier": "for all machines, histories, configurations, secrets and worlds", "why_tests_cant": "The test of secrets updates them together with the configuration; the claim is about every change of the secrets, and about runs stopped anywhere.", "anchors": ["rust/tool/systemd/src/install.rs:Installer::install_generation", "rust/tool/systemd/src/install.rs:Installer::register_installed_generation", "rust/tool/shared/src/pe.rs:append_initrd_secrets"]}
{"id": "C82", "title": "A run needs no more room than its result", "statement": "If what is on the ESP before a run fits on it, and what is there after the run fits as well, the run never needs more room than the ESP has.", "quantifier": "for all worlds, configurations, ESPs, capacities and points of a run", "why_tests_cant": "The tests use an ESP that is far larger than what is put on it; the claim is about every size and every point of a run.", "anchors": ["rust/tool/systemd/src/install.rs:Installer::install", "rust/tool/systemd/src/install.rs:Installer::install_generation", "rust/tool/systemd/src/install.rs:atomic_copy", "rust/tool/shared/src/gc.rs:Roots::collect_garbage_with_filter"]}
{"id": "C83", "title": "The TPM policy admits the selected generations and nothing else", "statement": "With measured boot for PCR 4, after a successful run the policy admits booting each selected generation with the boot loader that is installed, and it admits no log in which anything but the entry of a selected generation follows the boot loader. Exactly the measurements and services that the configured PCRs need are there.", "quantifier": "for all worlds, configurations, lists of PCRs, and histories of runs with measured boot", "why_tests_cant": "The VM test boots two generations with one list of PCRs; the claim is about every list, every history of runs and every log that the policy could admit.", "anchors": ["nix/modules/lanzaboote.nix:upstreamStaticMeasurements", "nix/modules/lanzaboote.nix:makePolicyCommand", "rust/tool/systemd/src/install.rs:Installer::install_generation", "rust/tool/systemd/src/install.rs:Installer::install_systemd_boot"]}
{"id": "C84", "title": "The TPM policy protects the kernel, initrd and command line without Secure Boot", "statement": "Whatever is on the disk and whether Secure Boot is on or off: if the boot stub starts a kernel and the policy (made in a boot that its components explain) admits what was measured into PCR 4 until then, the stub is the entry of a generation selected by the last run, the kernel and initrd have the hashes of this generation's, and the command line is this generation's.", "quantifier": "for all firmwares with a TPM, files on the disk, load options, boot loaders, and histories of runs with measured boot", "why_tests_cant": "The claim is about every change that someone with access to the disk and the boot menu can make; tests can try only some.", "anchors": ["rust/uefi/stub/src/common.rs:get_cmdline", "rust/uefi/stub/src/thin.rs:boot_linux", "rust/tool/systemd/src/install.rs:Installer::install_generation", "nix/modules/lanzaboote.nix:makePolicyCommand"]}
{"id": "C85", "title": "auto-cryptenroll binds the disk to the selected generations", "statement": "When the service auto-cryptenroll has succeeded, the TPM opens the encrypted disk when a selected generation is booted with the installed boot loader, and for nothing else.", "quantifier": "for all worlds, configurations with measured boot for PCR 4, event logs, and sequences of runs of the hook, runs of the service stopped anywhere, boots and other changes", "why_tests_cant": "The VM test enrols once on a machine where every command succeeds and boots it once; the claim is about failing commands, interrupted services and logs nobody tried.", "anchors": ["nix/modules/lanzaboote.nix:auto-cryptenroll", "nix/modules/lanzaboote.nix:systemd-pcrlock-make-policy", "nix/modules/lanzaboote.nix:installHook"]}
{"id": "C86", "title": "systemd-measure predicts PCR 11", "statement": "When the entry of a generation starts a kernel on a machine with a TPM that works, PCR 11 holds exactly what systemd-measure predicts from the generation's kernel, initrd, os-release text and command line, whatever options the boot loader hands over and whatever companion files there are.", "quantifier": "for all histories of runs, generations, keys, firmwares, load options, files on the ESP", "why_tests_cant": "The VM test compares one boot of one machine; the claim is about every entry any history leaves behind and every firmware.", "anchors": ["rust/uefi/linux-bootloader/src/measure.rs:measure_image", "rust/uefi/stub/src/main.rs:main", "rust/tool/shared/src/pe.rs:lanzaboote_image", "nix/tests/lanzaboote/systemd-measure.nix:testScript"]}
{"id": "C87", "title": "fwupd's EFI applications are signed", "statement": "When fwupd starts, each EFI application of the fwupd-efi package is in /run/fwupd-efi signed with the key of the machine.", "quantifier": "for all packages, paths of the keys, file systems and results of sbsign", "why_tests_cant": "No test covers the service; the claim is over all names in the package and all paths that the options allow.", "anchors": ["nix/modules/lanzaboote.nix:systemd.services.fwupd-efi"]}
{"id": "C88", "title": "Automatic provisioning ends in a machine that boots with Secure Boot", "statement": "On a machine that generates and enrols keys automatically, however its first boots were interrupted, a boot without interruption leaves the keys ready for enrolment, and with them enrolled the firmware accepts the boot loader and the newest selected generation starts.", "quantifier": "for all machines, histories, keys, configurations, and places where the services were stopped at earlier boots", "why_tests_cant": "The VM test lets both services finish at the first boot; the places where they can be stopped and the states this leaves are not tried.", "anchors": ["nix/modules/lanzaboote.nix:systemd.services.generate-sb-keys", "nix/modules/lanzaboote.nix:systemd.services.prepare-sb-auto-enroll", "rust/tool/systemd/src/install.rs:Installer::install"]}
{"id": "C89", "title": "Automatic reboots come to an end", "statement": "A machine reboots by itself at most once after preparing the enrolment of keys and at most once after binding its disk, whatever fails or is interrupted; after both no service starts any more.", "quantifier": "for all machines, sequences of boots, service runs, interruptions, switches and changes by other software, and all options", "why_tests_cant": "The VM test counts the boots of one undisturbed sequence; failures, interruptions and machines that do not keep their root file system are not tried.", "anchors": ["nix/modules/lanzaboote.nix:systemd.services.prepare-sb-auto-enroll", "nix/modules/lanzaboote.nix:systemd.services.auto-cryptenroll"]}
{"id": "C90", "title": "The script that prepares the enrolment of keys means what the options say", "statement": "Bash makes of the text of prepare-sb-auto-enroll what is meant: sbctl is asked for the keys the options ask for, its three files are put where systemd-boot looks for them on the ESP, and the hook is run; a configuration that evaluates asks for keys without Microsoft's only if the user has allowed to brick the machine.", "quantifier": "for all options, mount points, behaviours of sbctl and of the hook, and file systems", "why_tests_cant": "The VM test has one mount point and one choice of flags, and enrols into an emulated firmware that cannot be bricked.", "anchors": ["nix/modules/lanzaboote.nix:systemd.services.prepare-sb-auto-enroll", "nix/modules/lanzaboote.nix:assertions"]}
{"id": "C91", "title": "lzbt accepts exactly the documented command lines", "statement": "lzbt accepts a command line exactly if it consists of flags, `install`, and the documented options, each at most once and in either form, with values of their types, the three required ones and at least a mount point among them; it takes each value for what the option's name says. Every accepted command line has one meaning, and every other one ends lzbt with status 2 before anything is done.", "quantifier": "for all lists of arguments of any bytes, worlds and file system states", "why_tests_cant": "The tool's tests run one form of the command line; there are unboundedly many orders, spellings and values.", "anchors": ["rust/tool/systemd/src/cli.rs:Cli", "rust/tool/systemd/src/cli.rs:InstallCommand", "rust/tool/systemd/src/main.rs:main"]}
{"id": "C92", "title": "Who can write to the ESP starts nothing but generations", "statement": "If the firmware accepts an entry that lzbt issued, and its stub starts a kernel, then whatever somebody put on the ESP, in variables or in the load options, that kernel is the one of a generation of the machine; the initrd starts with the one of the same generation, its command line is that generation's unless Secure Boot is off, and everything appended to the initrd only adds files below /.extra.", "quantifier": "for all machines and histories of their ESPs, all firmware behaviours and contents of files, entries, load options and paths", "why_tests_cant": "The VM tests tamper with one kernel, one initrd and one load option; an attacker chooses all contents together, and at every read anew.", "anchors": ["rust/uefi/stub/src/main.rs:main", "rust/uefi/stub/src/thin.rs:boot_linux", "rust/uefi/linux-bootloader/src/companions.rs:discover_credentials", "rust/uefi/linux-bootloader/src/companions.rs:discover_system_extensions", "rust/tool/systemd/src/install.rs:install_generation"]}
{"id": "C93", "title": "The TPM policy does not bind the disk to a machine without Secure Boot", "statement": "If keys are enrolled automatically, then at every point in the life of the machine a TPM policy that binds PCR 7 accepts only boots in which Secure Boot is enforced; and after a boot with Secure Boot in which the services succeed, PCR 7 is bound to exactly the state of that boot.", "quantifier": "for all options, all sequences of boots with and without Secure Boot, failing services, switches of configuration and removed components, and all logs of PCR 7", "why_tests_cant": "The VM test provisions one machine in one order; the danger is a service that runs, or fails, at one particular boot of a long sequence.", "anchors": ["nix/modules/lanzaboote.nix:systemd-pcrlock-secureboot-policy", "nix/modules/lanzaboote.nix:systemd-pcrlock-secureboot-authority", "nix/modules/lanzaboote.nix:systemd-pcrlock-make-policy", "nix/modules/lanzaboote.nix:makePolicyCommand", "nix/modules/lanzaboote.nix:upstreamStaticMeasurements"]}
{"id": "C94", "title": "lzbt signs with the keys that are enrolled", "statement": "If keys are generated or enrolled automatically and the files of the keys are left at their defaults, then sbctl uses the directory of the bundle that generate-sb-keys checks for, and everything that lzbt signs when the install hook calls it verifies with the certificate that sbctl enrols.", "quantifier": "for all bundles whose path needs no quotes in YAML, all options, images and worlds of files and tools", "why_tests_cant": "The tests use one bundle; the paths are put together in five places and must agree for all of them, or the machine does not boot once the keys are enrolled.", "anchors": ["nix/modules/lanzaboote.nix:sbctlConfigFile", "nix/modules/lanzaboote.nix:publicKeyFile", "nix/modules/lanzaboote.nix:privateKeyFile", "nix/modules/lanzaboote.nix:generate-sb-keys", "nix/modules/lanzaboote.nix:mkInstallCommand", "rust/tool/systemd/src/cli.rs:install"]}
{"id": "C95", "title": "The directory of static measurements holds what is configured", "statement": "If the directory of static measurements can be built, it holds exactly the shipped measurements of the configured PCRs and the user's own ones, each as a link to its own source, so that none of the user's replaces a shipped one; and it can be built exactly if the user's measurements have names of their own in directories that are there.", "quantifier": "for all options and all lists of names and sources without special characters", "why_tests_cant": "The tests have no measurements of the user's own; a name that clashes, or lies in another directory, is one of infinitely many.", "anchors": ["nix/modules/lanzaboote.nix:staticMeasurements", "nix/modules/lanzaboote.nix:upstreamStaticMeasurements"]}
{"id": "C96", "title": "lzbt runs the programs of its packages", "statement": "Whatever the environment of the install hook, lzbt finds objcopy, sbsign and sbverify in the packages it was built with and takes its own stub; and if PATH is in that environment it finds systemd-pcrlock in the configured systemd, at every mount point.", "quantifier": "for all environments, numbers of mount points, package paths without colons and sets of executable files", "why_tests_cant": "The tests run with a few environments; a program of the same name that comes earlier in PATH, or a variable that is set already, could replace a program that sees the private key.", "anchors": ["nix/packages/lzbt.nix:postInstall", "nix/modules/lanzaboote.nix:mkInstallCommand", "rust/tool/shared/src/pe.rs:wrap_in_pe", "rust/tool/shared/src/signature/local.rs:sign_and_copy", "rust/tool/shared/src/signature/local.rs:verify_path", "rust/tool/systemd/src/pcrlock.rs:lock_pe"]}
