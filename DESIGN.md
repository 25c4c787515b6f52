# Formal model of lanzaboote: design

The subject is the Rust code in `/repo/rust` at the pinned commit.
The proof assistant is Coq 8.16.1. Everything is in `rocq/theories`.

## Layout

| files | content |
|---|---|
| `Base.v` | bytes, strings, results, small list functions shared by the models |
| `M*.v` | the model, one file per Rust file (or group); definitions only, every definition cites the lines it models |
| `S*.v` | specifications: small, written without using the model's helper functions |
| `P*.v` | lemmas and proofs |
| `X*.v` | a small executable world (toy executable format, hash, signature, store files) that examples and counterexamples run in; not part of the model |
| `Tests.v` | the repository's own unit and integration tests, repeated on the model by computation; evidence that the model behaves like the code, no theorems |
| `Properties_*.v` | the theorems of `properties.jsonl`: each is `Proof. exact lemma. Qed.` plus `Print Assumptions`, with an `Example` that instantiates the hypotheses |

## Conventions

* `bytes := list N` (each element < 256 where it matters), Rust `&str` is `list N` of
  Unicode scalar values, with a concrete UTF-8 codec in between; paths are lists of names.
* `Result`/`Option` are data. A Rust panic is a third outcome `Panic`, never hidden.
* Fixed-width arithmetic is modelled where a property depends on it (CPIO fields, PE
  headers, page counts, version numbers, firmware revision); elsewhere numbers are unbounded.
* External behaviour (store contents, PE parsing by goblin, objcopy, sbsign, sbverify,
  systemd-pcrlock, the initrd-secrets script, SHA-256, firmware services) enters as
  function parameters, i.e. the theorems hold for every such behaviour. Required facts about
  them (e.g. "a hash is 32 bytes") are explicit hypotheses of the theorems.
* SHA-256 collisions are never assumed away silently: either the theorem has a "no
  collision" hypothesis on the values involved or a disjunct exhibiting the collision.

## The installer model

The file system is a finite map from paths to nodes (directory, or file with content
and a flag "synced"). The installer is a program over a list of primitive operations
(mkdir, create, write, sync, rename, chmod, remove, sync of the file system, and the
pcrlock tool's replacement of a component file). Each primitive may fail, as decided
by an arbitrary fault oracle. A run yields an outcome (Ok, Err, Panic) and the trace of
performed operations; a kill of the process is any prefix of the trace. Power loss
additionally replaces the contents of unsynced files by arbitrary bytes (metadata
operations are assumed to be ordered). Directory listings come in an arbitrary order
chosen by an oracle.

Partial writes are faults that leave any chosen content in the file. The other metadata
operations are durable in the order they were made; `OSyncAll` is `syncfs`.

Deliberate simplifications, each also stated at the definition concerned:

* names are compared byte by byte (a FAT file system ignores case);
* `..` in given paths is an ordinary component, except where the code looks at it;
* errors of reading single directory entries are errors of the listing;
* sums of u32 wrap (release build), the u64 sum of image base and offset does not;
* the regular expression of an entry's name always compiles (its text is escaped);
* the build date of a generation is an input of the link;
* contents go to external programs directly; `MTemp.v` models the temporary files and
  argument lists in between, and C62-C64 justify leaving them out.

### Histories

C07-C11, C13, C14, C17, C46, C56-C59 are about an ESP with a past. `SHistory.v` defines a
*machine* (what stays the same: mount point, hash, parser, store contents, the generations
and keys there ever are) and the states it reaches: completed, failed and killed runs with
any configuration that `fits` the machine, renames by the boot loader's counting, files
removed by hand, other software writing elsewhere; `rough_history` adds power losses.
`fits` states what is required of objcopy and sbsign; `C26_tools` derives it from the
definition of an extended executable.

## The boot stub model

`MStub.v` is a program over a firmware oracle: every firmware call takes the log of what
happened so far, so that answers may change from call to call. The log (events of
measuring, loading, starting, freeing, protocol changes, variable writes) is what the
theorems speak about. `MPe.v` models the PE loader with machine arithmetic, `MFirmware.v`
the EFI variables and device paths, `MCpio.v` the archives for credentials.

## Properties

Per property: what is modelled and how it is proved. "refuted" means that the statement,
as a user would expect it, is false for this code and a witness is proved (`_refuted`); the
largest true parts found are proved beside it.

| id | approach |
|---|---|
| C01 | sort + take on lists; spec by counting links with greater version; induction |
| C02 C03 C04 C12 | trace properties of the install program, via a program logic for emitted operations |
| C05 | walk over tree as list with live mutation; spec as set of paths; induction over walk |
| C06 | per-operation guarantee on all emitted operations |
| C07 C08 C09 | invariant over histories of runs, killed runs and boot-counter renames |
| C10 C11 | power-loss model; C11 refuted |
| C13 | refuted, kernels are collected before stubs |
| C14 | second run evaluated on the state characterised by C07/C08 |
| C15 C16 C51 | injectivity of base32, decimal, JSON; matching of the regular expression as a language |
| C17 | uniqueness after GC; refuted with pcrlock |
| C18 C19 C20 | decision function; C19, C20 refuted, exact conditions proved |
| C21 | integer parser and lexicographic order |
| C22 C23 C24 | os-release automaton; line-by-line simulation |
| C25 | path codec |
| C26 C27 | address arithmetic and PE image in memory; end to end composition tool -> stub |
| C28 C30 C33 C34 | boot stub as a program over a firmware oracle with event log |
| C29 C53 C54 C42 C43 C44 | firmware-oracle functions; C43, C44 refuted |
| C31 C32 | measurement functions; permutation invariance |
| C35 | buffer model of LoadFile2; the size-on-success clause is refuted |
| C36 C37 C38 C39 | CPIO writer, independent newc reader |
| C40 C41 C52 | PE loader with 32/64-bit arithmetic |
| C45 C46 | pcrlock components as files; multi-run parts refuted |
| C47 C48 | decision table and per-operation guarantee |
| C49 C50 | refuted with witnesses; exact conditions proved |
| C55 | the event log of a kernel that returns |
| C56 | compositional: panics of a program happen in states that show a cause |
| C57 | unfolding of the command, composed with C07 |
| C58 | invariant of the operations of a run on one path |
| C59 | total correctness: with nothing in the way, complete inputs and no I/O errors, a run succeeds |
| C60 | the stub has no effect (TPM, variables, memory, protocols, start) before both files are verified |
| C61 | liveness: with the essentials, the stub starts the kernel whatever TPM and variables do; also after an installer run |
| C62 | a second, lower-level model (`MTemp.v`: files with names and modes, argument lists) ends as `MTool.v` does on contents; argument lists are read back by a model of getopt and objcopy |
| C63 | the same for sbsign, sbverify and systemd-pcrlock |
| C64 | invariant of the recorded events; effect of dropping the directory |
| C65 | decoding of the device path bytes; last installation before the start; Linux' two calls |
| C66 | classification of all returning runs; witness for the leftovers |
| C67 | uniqueness of the selection (sorted permutations with distinct keys); the rest of the code does not read the links |
| C68 | log of a started run per PCR; injectivity of hash chains and of the section log |
| C69 | systemd-boot's os-release reader on the generated text; its version order on "Generation N..." by the order of numerals |
| C70 | the last plus of a name and the numerals after it; a 52-character hash is never a counter |
| C71 | the script as commands run in order; frame lemma for runs on other mount points, with which `history` is carried along |
| C72 | the shell as an automaton over characters (`shell`), stepped over the concrete text; escaped words are literal; clap as a fold over arguments |
| C73 | invariant "entries for this key verify" over `since_key` (names of entries hash the public key, so entries of other keys are never taken for done); then C10-style garbage collection leaves only current names |
| C74 | induction over documents along specialisations; members of objects by their last occurrence, fields of structures by their only one |
| C75 | the tracked entries of a run (as for C14) with the result of collection; nothing else below the three directories |
| C76 | counting by C75; refuted by one generation with eight specialisations |
| C77 | the service's script as changes before the hook's (C71); success by C73; refuted by stopping, or failing, between the two |
| C78 | the generator of nixpkgs against systemd-boot's reader of lines |
| C79 | C75 with the order of C69; the pattern by C58 and C78 |
| C80 | C73, C75 and C79 for the ESP, C27 and C61 for the start, C30 for the command line |
| C81 | invariant of all steps for entries that were not there before; C75 for the successful run |
| C82 | a bound on the bytes each function writes, composed along the code; C12 for the runs that get stuck |
| C83 | C45, C46 and C75 give the components; systemd-pcrlock(8)'s reading of them is the specification |
| C84 | C83 excludes the custom command line's measurement; then C28 and C30 for the stub |
| C85 | the service as a sequence of states; invariant for the marker; C83 and C84 for the policy; refuted |
| C86 | invariant of histories for the entry; the measured sections of the image in memory; the gate's hashes |
| C87 | the script's text through the shell of C72; induction over patterns and links; refuted |
| C88 | the services of C77 with the one that makes the keys; C80 for the boot; refuted |
| C89 | the watched files are not lanzaboote's own (C06), so they stay; a reboot makes one of the two conditions false |
| C90 | the shell reader of C72 with bash's braces; the lines run as `prepare` of C77 does |
| C91 | a grammar of command lines and a record of what they ask for (SClap.v), against the parser, both directions |
| C92 | C27 for entries of any past state, hashes without substitutes, and the names in companion archives (C36, C39) |
| C93 | invariant over boots and hooks: the component of the variables stems from a boot with Secure Boot, and without it the log is not explained |
| C94 | the lines of sbctl.conf read back, and the paths compared with those of C57's signer; composed with C88 |
| C95 | the eight possible trees of shipped links, then induction over the user's; for other lists of shipped ones induction over the list |
| C96 | PATH as a list of directories; the wrapper's come first, then systemd's |

## Trusted base

* The Coq kernel and `vm_compute`.
* For each theorem what `Print Assumptions` lists in the `Properties_*.v` build log
  (intended: "Closed under the global context" for all).
* For C69 and C70 the description of systemd-boot in `SMenu.v`; for C71 that of the
  shell in `MHook.v` (commands in order, status of the last; `writeShellScriptBin` adds no
  `set -e`); for C72 the shell's rules in `SShell.v`, nixpkgs' `escapeShellArg` in
  `MHookText.v` and clap's rules in `MClap.v`; for C74 the description of the bootspec
  crate's types in `MBootspec.v`; for C78 and C79 systemd-boot's reading of loader.conf and choice of
  the default in `SLoaderConf.v` and nixpkgs' generators in `MLoaderConf.v`; for C77 that NixOS runs a service's script with `set -e`
  and that systemd-boot enrols keys when it finds the three files (`SEnroll.v`), for C88 what sbctl needs and makes (`SProvision.v`); for C83 and C84
  systemd-pcrlock's reading of components and the firmware's log of PCR 4 (`SPolicy.v`),
  and that it leaves PCRs out of the policy whose log in the present boot it cannot explain;
  for C93 the firmware's log of PCR 7 (`SSecureLock.v`) and that the services for PCR 7 run before the policy is made;
  for C94 where sbctl has its keys and YAML's entries (`SSbctl.v`);
  for C95 what mkdir(1) and ln(1) do (`MStatic.v`);
  for C96 makeBinaryWrapper, the shell's export and execvp (`MSearch.v`);
  what systemd-measure predicts (`SMeasure.v`);
  ln(1), sbsign(1) and pathname expansion in the script for fwupd (`SFwupd.v`);
  bash's braces, sbctl's flags, mkdir(1) and install(1) in that for the keys (`SEnrollText.v`);
  the rules for command lines in `SClap.v` (C91); for C92 that the uefi crate refuses paths with a
  slash and that the firmware checks signatures (`SAttack.v`).
* The faithfulness of the model to the Rust text, definition by definition as cited,
  and of the oracles to the external tools and libraries listed above.

Not modelled: logging, the parsing of JSON text (`MBootspec.v` starts from the tree),
the synthesis of a bootspec for generations without boot.json, the firmware's own code, Rust's standard
library below the level of the primitives above, concurrent modification of the ESP.
