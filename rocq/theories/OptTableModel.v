(** The tables of options, deprecated names, groups and commands of the program: src/config/parse.auto.c.inc:526-11990.  Generated from that file. *)
From Coq Require Import String.
From Verif Require Import Base Str RegNameModel OptNameModel.
Open Scope list_scope.

(** name, type, section, group, bool-like, beta, negate, reset, required, secure, multi, deprecate match *)
Definition opt (n : string) (t : otype) (s : osection) (g : option nat) (bl be ne re rq se mu dm : bool) : rule := mkRule (txt n) t s g bl be ne re rq se mu dm.
Definition old (n : string) (i : nat) (x u : bool) : deprecate := mkDeprecate (txt n) i x u.

(** parse.auto.c.inc:852-868 *)
Definition optGroups : list str := [txt "pg"; txt "repo"].
(** parse.auto.c.inc:526-850 *)
Definition optCommands : list str :=
  [txt "annotate"; txt "archive-get"; txt "archive-push"; txt "backup"; txt "check"; txt "expire"; txt "help"; txt "info"; txt "manifest"; txt "repo-get"; txt "repo-ls"; txt "repo-rm"; txt "restore"; txt "server"; txt "server-ping"; txt "stanza-create"; txt "stanza-delete"; txt "stanza-upgrade"; txt "start"; txt "stop"; txt "verify"; txt "version"].
(** parse.auto.c.inc:870-11742 *)
Definition optRules : list rule := [
  opt "allow-root" TBoolean SecGlobal None false false true true true false false false;
  opt "annotation" THash SecGlobal None false false false true false false true false;
  opt "archive-async" TBoolean SecGlobal None false false true true true false false false;
  opt "archive-check" TBoolean SecGlobal None false false true true true false false false;
  opt "archive-copy" TBoolean SecGlobal None false false true true true false false false;
  opt "archive-expire-before" TString SecCommandLine None false false false false false false false false;
  opt "archive-get-queue-max" TSize SecGlobal None false false false true true false false false;
  opt "archive-header-check" TBoolean SecGlobal None false false true true true false false false;
  opt "archive-missing-retry" TBoolean SecGlobal None false false true true true false false false;
  opt "archive-mode" TStringId SecGlobal None false false false true true false false false;
  opt "archive-mode-check" TBoolean SecGlobal None false false true true true false false false;
  opt "archive-push-batch-size" TSize SecGlobal None false false false true true false false false;
  opt "archive-push-queue-max" TSize SecGlobal None false false false true false false false false;
  opt "archive-timeout" TTime SecGlobal None false false false true true false false false;
  opt "backup-standby" TStringId SecGlobal None true false true true true false false false;
  opt "beta" TBoolean SecGlobal None false true true true true false false false;
  opt "buffer-size" TSize SecGlobal None false false false true true false false false;
  opt "checksum-page" TBoolean SecGlobal None false false true true false false false false;
  opt "cmd" TString SecGlobal None false false false true true false false false;
  opt "cmd-ssh" TString SecGlobal None false false false true true false false false;
  opt "compress" TBoolean SecGlobal None false false true true true false false false;
  opt "compress-level" TInteger SecGlobal None false false false true false false false false;
  opt "compress-level-network" TInteger SecGlobal None false false false true true false false false;
  opt "compress-type" TStringId SecGlobal None false false false true true false false false;
  opt "config" TString SecCommandLine None false false true false true false false false;
  opt "config-include-path" TPath SecCommandLine None false false false false true false false false;
  opt "config-path" TPath SecCommandLine None false false false false true false false false;
  opt "db-exclude" TList SecGlobal None false false false true false false true false;
  opt "db-include" TList SecGlobal None false false false true false false true false;
  opt "db-timeout" TTime SecGlobal None false false false true true false false false;
  opt "delta" TBoolean SecGlobal None false false true true true false false false;
  opt "detail-level" TStringId SecCommandLine None false false false false true false false false;
  opt "dry-run" TBoolean SecCommandLine None false false false false true false false false;
  opt "exclude" TList SecGlobal None false false false true false false true false;
  opt "exec-id" TString SecCommandLine None false false false false false false false false;
  opt "expire-auto" TBoolean SecGlobal None false false true true true false false false;
  opt "filter" TString SecCommandLine None false false false false false false false false;
  opt "force" TBoolean SecCommandLine None false false false false true false false false;
  opt "help" TBoolean SecCommandLine None false false false false true false false false;
  opt "ignore-missing" TBoolean SecCommandLine None false false false false true false false false;
  opt "io-timeout" TTime SecGlobal None false false false true true false false false;
  opt "job-retry" TInteger SecGlobal None false false false true true false false false;
  opt "job-retry-interval" TTime SecGlobal None false false false true true false false false;
  opt "link-all" TBoolean SecGlobal None false false true true true false false false;
  opt "link-map" THash SecGlobal None false false false true false false true false;
  opt "lock" TList SecCommandLine None false false false false false false true false;
  opt "lock-path" TPath SecGlobal None false false false true true false false false;
  opt "log-level-console" TStringId SecGlobal None false false false true true false false false;
  opt "log-level-file" TStringId SecGlobal None false false false true true false false false;
  opt "log-level-stderr" TStringId SecGlobal None false false false true true false false false;
  opt "log-path" TPath SecGlobal None false false false true true false false false;
  opt "log-subprocess" TBoolean SecGlobal None false false true true true false false false;
  opt "log-timestamp" TBoolean SecGlobal None false false true true true false false false;
  opt "manifest-save-threshold" TSize SecGlobal None false false false true true false false false;
  opt "neutral-umask" TBoolean SecGlobal None false false true true true false false false;
  opt "oldest" TBoolean SecCommandLine None false false false false true false false false;
  opt "online" TBoolean SecCommandLine None false false true false true false false false;
  opt "output" TStringId SecCommandLine None false false false false true false false false;
  opt "page-header-check" TBoolean SecGlobal None false false true true true false false false;
  opt "pg" TInteger SecCommandLine None false false false false false false false false;
  opt "pg-database" TString SecStanza (Some 0%nat) false false false true true false false false;
  opt "pg-host" TString SecStanza (Some 0%nat) false false false true false false false false;
  opt "pg-host-ca-file" TString SecGlobal (Some 0%nat) false false false true false false false false;
  opt "pg-host-ca-path" TString SecGlobal (Some 0%nat) false false false true false false false false;
  opt "pg-host-cert-file" TString SecGlobal (Some 0%nat) false false false true true false false false;
  opt "pg-host-cmd" TString SecStanza (Some 0%nat) false false false true true false false false;
  opt "pg-host-config" TPath SecStanza (Some 0%nat) false false false true true false false false;
  opt "pg-host-config-include-path" TPath SecStanza (Some 0%nat) false false false true true false false false;
  opt "pg-host-config-path" TPath SecStanza (Some 0%nat) false false false true true false false false;
  opt "pg-host-key-file" TString SecGlobal (Some 0%nat) false false false true true false false false;
  opt "pg-host-port" TInteger SecStanza (Some 0%nat) false false false true false false false false;
  opt "pg-host-type" TStringId SecGlobal (Some 0%nat) false false false true true false false false;
  opt "pg-host-user" TString SecStanza (Some 0%nat) false false false true false false false false;
  opt "pg-local" TBoolean SecStanza (Some 0%nat) false false true true true false false false;
  opt "pg-path" TPath SecStanza (Some 0%nat) false false false true true false false false;
  opt "pg-port" TInteger SecStanza (Some 0%nat) false false false true true false false false;
  opt "pg-socket-path" TString SecStanza (Some 0%nat) false false false true false false false false;
  opt "pg-user" TString SecStanza (Some 0%nat) false false false true false false false false;
  opt "pg-version-force" TString SecStanza None false false false true false false false false;
  opt "priority" TInteger SecGlobal None false false false true false false false false;
  opt "process" TInteger SecCommandLine None false false false false false false false false;
  opt "process-max" TInteger SecGlobal None false false false true true false false false;
  opt "protocol-timeout" TTime SecGlobal None false false false true true false false false;
  opt "raw" TBoolean SecCommandLine None false false false false true false false false;
  opt "recovery-option" THash SecGlobal None false false false true false false true false;
  opt "recurse" TBoolean SecCommandLine None false false false false true false false false;
  opt "reference" TString SecCommandLine None false false false false false false false false;
  opt "remote-type" TStringId SecCommandLine None false false false false false false false false;
  opt "repo" TInteger SecCommandLine None false false false false false false false false;
  opt "repo-azure-account" TString SecGlobal (Some 1%nat) false false false true true true false false;
  opt "repo-azure-container" TString SecGlobal (Some 1%nat) false false false true true false false false;
  opt "repo-azure-endpoint" TString SecGlobal (Some 1%nat) false false false true true true false false;
  opt "repo-azure-key" TString SecGlobal (Some 1%nat) false false false true false true false false;
  opt "repo-azure-key-type" TStringId SecGlobal (Some 1%nat) false false false true true false false false;
  opt "repo-azure-uri-style" TStringId SecGlobal (Some 1%nat) false false false true true false false false;
  opt "repo-block" TBoolean SecGlobal (Some 1%nat) false false true true true false false false;
  opt "repo-block-age-map" THash SecGlobal (Some 1%nat) false false false true false false true false;
  opt "repo-block-checksum-size-map" THash SecGlobal (Some 1%nat) false false false true false false true false;
  opt "repo-block-size-map" THash SecGlobal (Some 1%nat) false false false true false false true false;
  opt "repo-block-size-super" TSize SecGlobal (Some 1%nat) false false false true true false false false;
  opt "repo-block-size-super-full" TSize SecGlobal (Some 1%nat) false false false true true false false false;
  opt "repo-bundle" TBoolean SecGlobal (Some 1%nat) false false true true true false false false;
  opt "repo-bundle-limit" TSize SecGlobal (Some 1%nat) false false false true true false false false;
  opt "repo-bundle-size" TSize SecGlobal (Some 1%nat) false false false true true false false false;
  opt "repo-cipher-pass" TString SecGlobal (Some 1%nat) false false false true true true false true;
  opt "repo-cipher-type" TStringId SecGlobal (Some 1%nat) false false false true true false false true;
  opt "repo-gcs-bucket" TString SecGlobal (Some 1%nat) false false false true true false false false;
  opt "repo-gcs-endpoint" TString SecGlobal (Some 1%nat) false false false true true false false false;
  opt "repo-gcs-key" TString SecGlobal (Some 1%nat) false false false true true true false false;
  opt "repo-gcs-key-type" TStringId SecGlobal (Some 1%nat) false false false true true false false false;
  opt "repo-gcs-user-project" TString SecGlobal (Some 1%nat) false false false true false false false false;
  opt "repo-hardlink" TBoolean SecGlobal (Some 1%nat) false false true true true false false false;
  opt "repo-host" TString SecGlobal (Some 1%nat) false false false true false false false false;
  opt "repo-host-ca-file" TString SecGlobal (Some 1%nat) false false false true false false false false;
  opt "repo-host-ca-path" TString SecGlobal (Some 1%nat) false false false true false false false false;
  opt "repo-host-cert-file" TString SecGlobal (Some 1%nat) false false false true true false false false;
  opt "repo-host-cmd" TString SecGlobal (Some 1%nat) false false false true true false false false;
  opt "repo-host-config" TString SecGlobal (Some 1%nat) false false false true true false false false;
  opt "repo-host-config-include-path" TPath SecGlobal (Some 1%nat) false false false true true false false false;
  opt "repo-host-config-path" TPath SecGlobal (Some 1%nat) false false false true true false false false;
  opt "repo-host-key-file" TString SecGlobal (Some 1%nat) false false false true true false false false;
  opt "repo-host-port" TInteger SecGlobal (Some 1%nat) false false false true false false false false;
  opt "repo-host-type" TStringId SecGlobal (Some 1%nat) false false false true true false false false;
  opt "repo-host-user" TString SecGlobal (Some 1%nat) false false false true false false false false;
  opt "repo-local" TBoolean SecGlobal (Some 1%nat) false false true true true false false false;
  opt "repo-path" TPath SecGlobal (Some 1%nat) false false false true true false false true;
  opt "repo-retention-archive" TInteger SecGlobal (Some 1%nat) false false false true false false false false;
  opt "repo-retention-archive-type" TStringId SecGlobal (Some 1%nat) false false false true true false false false;
  opt "repo-retention-diff" TInteger SecGlobal (Some 1%nat) false false false true false false false false;
  opt "repo-retention-full" TInteger SecGlobal (Some 1%nat) false false false true false false false false;
  opt "repo-retention-full-type" TStringId SecGlobal (Some 1%nat) false false false true true false false false;
  opt "repo-retention-history" TInteger SecGlobal (Some 1%nat) false false false true false false false false;
  opt "repo-s3-bucket" TString SecGlobal (Some 1%nat) false false false true true false false true;
  opt "repo-s3-endpoint" TString SecGlobal (Some 1%nat) false false false true true false false true;
  opt "repo-s3-key" TString SecGlobal (Some 1%nat) false false false true true true false true;
  opt "repo-s3-key-secret" TString SecGlobal (Some 1%nat) false false false true true true false true;
  opt "repo-s3-key-type" TStringId SecGlobal (Some 1%nat) false false false true true false false false;
  opt "repo-s3-kms-key-id" TString SecGlobal (Some 1%nat) false false false true false false false false;
  opt "repo-s3-process-cmd" TList SecGlobal (Some 1%nat) false false false true true false true false;
  opt "repo-s3-region" TString SecGlobal (Some 1%nat) false false false true true false false true;
  opt "repo-s3-requester-pays" TBoolean SecGlobal (Some 1%nat) false false true true true false false false;
  opt "repo-s3-role" TString SecGlobal (Some 1%nat) false false false true false false false false;
  opt "repo-s3-service" TString SecGlobal (Some 1%nat) false false false true false false false false;
  opt "repo-s3-sse-customer-key" TString SecGlobal (Some 1%nat) false false false true false true false false;
  opt "repo-s3-sts-host" TString SecGlobal (Some 1%nat) false false false true true false false false;
  opt "repo-s3-token" TString SecGlobal (Some 1%nat) false false false true false true false false;
  opt "repo-s3-uri-style" TStringId SecGlobal (Some 1%nat) false false false true true false false false;
  opt "repo-sftp-host" TString SecGlobal (Some 1%nat) false false false true true false false false;
  opt "repo-sftp-host-fingerprint" TString SecGlobal (Some 1%nat) false false false true false false false false;
  opt "repo-sftp-host-key-check-type" TStringId SecGlobal (Some 1%nat) false false false true true false false false;
  opt "repo-sftp-host-key-hash-type" TStringId SecGlobal (Some 1%nat) false false false true true false false false;
  opt "repo-sftp-host-port" TInteger SecGlobal (Some 1%nat) false false false true true false false false;
  opt "repo-sftp-host-user" TString SecGlobal (Some 1%nat) false false false true true false false false;
  opt "repo-sftp-known-host" TList SecGlobal (Some 1%nat) false false false true false false true false;
  opt "repo-sftp-private-key-file" TString SecGlobal (Some 1%nat) false false false true true false false false;
  opt "repo-sftp-private-key-passphrase" TString SecGlobal (Some 1%nat) false false false true false true false false;
  opt "repo-sftp-public-key-file" TString SecGlobal (Some 1%nat) false false false true false false false false;
  opt "repo-storage-ca-file" TString SecGlobal (Some 1%nat) false false false true false false false false;
  opt "repo-storage-ca-path" TPath SecGlobal (Some 1%nat) false false false true false false false false;
  opt "repo-storage-host" TString SecGlobal (Some 1%nat) false false false true false false false false;
  opt "repo-storage-port" TInteger SecGlobal (Some 1%nat) false false false true true false false false;
  opt "repo-storage-prefetch" TInteger SecGlobal (Some 1%nat) false false false true true false false false;
  opt "repo-storage-read-over" TSize SecGlobal (Some 1%nat) false false false true true false false false;
  opt "repo-storage-tag" THash SecGlobal (Some 1%nat) false false false true false false true false;
  opt "repo-storage-upload-chunk-size" TSize SecGlobal (Some 1%nat) false false false true true false false false;
  opt "repo-storage-verify-tls" TBoolean SecGlobal (Some 1%nat) false false true true true false false false;
  opt "repo-symlink" TBoolean SecGlobal (Some 1%nat) false false true true true false false false;
  opt "repo-target-time" TString SecGlobal None false false false true false false false false;
  opt "repo-type" TStringId SecGlobal (Some 1%nat) false false false true true false false true;
  opt "report" TBoolean SecCommandLine None false false false false true false false false;
  opt "resume" TBoolean SecGlobal None false false true true true false false false;
  opt "sck-block" TBoolean SecGlobal None false false true true true false false false;
  opt "sck-keep-alive" TBoolean SecGlobal None false false true true true false false false;
  opt "set" TString SecCommandLine None false false false false false false false false;
  opt "sort" TStringId SecCommandLine None false false false false true false false false;
  opt "spool-path" TPath SecGlobal None false false false true true false false false;
  opt "stanza" TString SecCommandLine None false false false false true false false false;
  opt "start-fast" TBoolean SecGlobal None false false true true true false false false;
  opt "stop-auto" TBoolean SecGlobal None false false true true true false false false;
  opt "tablespace-map" THash SecGlobal None false false false true false false true false;
  opt "tablespace-map-all" TString SecGlobal None false false false true false false false false;
  opt "target" TString SecCommandLine None false false false false true false false false;
  opt "target-action" TStringId SecCommandLine None false false false false true false false false;
  opt "target-exclusive" TBoolean SecCommandLine None false false false false true false false false;
  opt "target-timeline" TString SecCommandLine None false false false false false false false false;
  opt "tcp-keep-alive-count" TInteger SecGlobal None false false false true false false false false;
  opt "tcp-keep-alive-idle" TInteger SecGlobal None false false false true false false false false;
  opt "tcp-keep-alive-interval" TInteger SecGlobal None false false false true false false false false;
  opt "tls-cipher-12" TString SecGlobal None false false false true false false false false;
  opt "tls-cipher-13" TString SecGlobal None false false false true false false false false;
  opt "tls-server-address" TString SecGlobal None false false false true true false false false;
  opt "tls-server-auth" THash SecGlobal None false false false true true false true false;
  opt "tls-server-ca-file" TPath SecGlobal None false false false true true false false false;
  opt "tls-server-cert-file" TPath SecGlobal None false false false true true false false false;
  opt "tls-server-key-file" TPath SecGlobal None false false false true true false false false;
  opt "tls-server-port" TInteger SecGlobal None false false false true true false false false;
  opt "type" TStringId SecCommandLine None false false false false true false false false;
  opt "verbose" TBoolean SecCommandLine None false false false false true false false false;
  opt "version" TBoolean SecCommandLine None false false false false true false false false].
(** parse.auto.c.inc:11744-11990 *)
Definition optDeprecate : list deprecate := [
  old "archive-queue-max" 12 false true;
  old "backup-cmd" 116 false true;
  old "backup-config" 117 false true;
  old "backup-host" 112 false true;
  old "backup-ssh-port" 121 false true;
  old "backup-user" 123 false true;
  old "db-cmd" 65 true true;
  old "db-config" 66 true true;
  old "db-host" 61 true true;
  old "db-path" 74 true true;
  old "db-port" 75 true true;
  old "db-socket-path" 76 true true;
  old "db-ssh-port" 70 true true;
  old "db-user" 72 true true;
  old "hardlink" 111 false true;
  old "repo-azure-ca-file" 157 true false;
  old "repo-azure-ca-path" 158 true false;
  old "repo-azure-host" 159 true false;
  old "repo-azure-port" 160 true false;
  old "repo-azure-verify-tls" 165 true false;
  old "repo-cipher-pass" 104 false true;
  old "repo-cipher-type" 105 false true;
  old "repo-path" 125 false true;
  old "repo-s3-bucket" 132 false true;
  old "repo-s3-ca-file" 157 true true;
  old "repo-s3-ca-path" 158 true true;
  old "repo-s3-endpoint" 133 false true;
  old "repo-s3-host" 159 true true;
  old "repo-s3-key" 134 false true;
  old "repo-s3-key-secret" 135 false true;
  old "repo-s3-port" 160 true false;
  old "repo-s3-region" 139 false true;
  old "repo-s3-verify-ssl" 165 true true;
  old "repo-s3-verify-tls" 165 true false;
  old "repo-type" 168 false true;
  old "retention-archive" 126 false true;
  old "retention-archive-type" 127 false true;
  old "retention-diff" 128 false true;
  old "retention-full" 129 false true].
