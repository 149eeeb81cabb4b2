(** The optional rules of each option, its commands, and the order of resolution: src/config/parse.auto.c.inc:13-509 (values), 870-11742 (options) and 11996-12197 (order).  Generated from
    that file.  [zst] and [ssh2] are HAVE_LIBZST and HAVE_LIBSSH2.  CFGOPTDEF_CONFIG_PATH is /etc/pgbackrest, its default. *)
From Coq Require Import String.
From Verif Require Import Base Str RegNameModel OptNameModel OptTableModel OptValueModel.
Open Scope Z_scope.
Open Scope list_scope.

Definition optOptional (zst ssh2 : bool) : list (list rgroup) := [
  (* allow-root *) [((Some [12]%nat), [ODefault (DefAll (VBool true) (txt "y") 0)]);
    (None, [ODefault (DefAll (VBool false) (txt "n") 0)])];
  (* annotation *) [((Some [0]%nat), [ORequired])];
  (* archive-async *) [(None, [ODefault (DefAll (VBool false) (txt "n") 0)])];
  (* archive-check *) [((Some [3]%nat), [OValid (Some (VBool false)) 56 [DepBool true]; ODefault (DefAll (VBool true) (txt "y") 0)]);
    (None, [ODefault (DefAll (VBool true) (txt "y") 0)])];
  (* archive-copy *) [((Some [3]%nat), [OValid (Some (VBool false)) 3 [DepBool true]; ODefault (DefAll (VBool false) (txt "n") 0)]);
    (None, [ODefault (DefAll (VBool false) (txt "n") 0)])];
  (* archive-expire-before *) [];
  (* archive-get-queue-max *) [(None, [ORange (RangeAll 0 4503599627370496); ODefault (DefAll (VInt 134217728) (txt "128MiB") 0)])];
  (* archive-header-check *) [(None, [ODefault (DefAll (VBool true) (txt "y") 0)])];
  (* archive-missing-retry *) [(None, [ODefault (DefAll (VBool true) (txt "y") 0)])];
  (* archive-mode *) [(None, [OAllow [(AllowText (txt "preserve"), false); (AllowText (txt "off"), false)]; ODefault (DefAll (VZero) (txt "preserve") 0)])];
  (* archive-mode-check *) [(None, [OValid (Some (VBool false)) 3 [DepBool true]; ODefault (DefAll (VBool true) (txt "y") 0)])];
  (* archive-push-batch-size *) [(None, [ORange (RangeAll 1048576 4503599627370496); ODefault (DefAll (VInt 17179869184) (txt "16GiB") 0)])];
  (* archive-push-queue-max *) [(None, [ORange (RangeAll 0 4503599627370496)])];
  (* archive-timeout *) [(None, [ORange (RangeAll 100 86400000); ODefault (DefAll (VInt 60000) (txt "1m") 0)])];
  (* backup-standby *) [(None, [OAllow [(AllowText (txt "n"), false); (AllowText (txt "prefer"), false); (AllowText (txt "y"), false)]; ODefault (DefAll (VZero) (txt "n") 0)])];
  (* beta *) [(None, [ODefault (DefAll (VBool false) (txt "n") 0)])];
  (* buffer-size *) [(None, [OAllow [(AllowInt 16384, false); (AllowInt 32768, false); (AllowInt 65536, false); (AllowInt 131072, false); (AllowInt 262144, false); (AllowInt 524288, false); (AllowInt 1048576, false); (AllowInt 2097152, false); (AllowInt 4194304, false); (AllowInt 8388608, false); (AllowInt 16777216, false)]; ODefault (DefAll (VInt 1048576) (txt "1MiB") 0)])];
  (* checksum-page *) [];
  (* cmd *) [(None, [ODefault DefDynamic])];
  (* cmd-ssh *) [(None, [ODefault (DefAll (VStr (txt "ssh")) (txt "ssh") 0)])];
  (* compress *) [(None, [ODefault (DefAll (VBool true) (txt "y") 0)])];
  (* compress-level *) [(None, [OValid (Some (VInt 0)) 23 [DepText (txt "bz2"); DepText (txt "gz"); DepText (txt "lz4"); DepText (txt "zst")]; ORange (RangeMap [(txt "bz2", (1, 9)); (txt "gz", ((-1), 9)); (txt "lz4", ((-5), 12)); (txt "zst", ((-7), 22))]); ODefault (DefMap [(txt "bz2", (VInt 9, txt "9")); (txt "gz", (VInt 6, txt "6")); (txt "lz4", (VInt 1, txt "1")); (txt "zst", (VInt 3, txt "3"))])])];
  (* compress-level-network *) [(None, [ORange (RangeAll (-5) 12); ODefault (DefAll (VInt 1) (txt "1") 0)])];
  (* compress-type *) [(None, [OAllow [(AllowText (txt "none"), false); (AllowText (txt "bz2"), false); (AllowText (txt "gz"), false); (AllowText (txt "lz4"), false); (AllowText (txt "zst"), negb zst)]; ODefault (DefAll (VZero) (txt "gz") 0)])];
  (* config *) [(None, [ODefault (DefAll (VStr (txt "/etc/pgbackrest/pgbackrest.conf")) (txt "/etc/pgbackrest/pgbackrest.conf") 0)])];
  (* config-include-path *) [(None, [ODefault (DefAll (VStr (txt "/etc/pgbackrest/conf.d")) (txt "/etc/pgbackrest/conf.d") 0)])];
  (* config-path *) [(None, [ODefault (DefAll (VStr (txt "/etc/pgbackrest")) (txt "/etc/pgbackrest") 0)])];
  (* db-exclude *) [];
  (* db-include *) [];
  (* db-timeout *) [(None, [ORange (RangeAll 100 604800000); ODefault (DefAll (VInt 1800000) (txt "30m") 0)])];
  (* delta *) [(None, [ODefault (DefAll (VBool false) (txt "n") 0)])];
  (* detail-level *) [(None, [OAllow [(AllowText (txt "full"), false); (AllowText (txt "progress"), false)]; ODefault (DefAll (VZero) (txt "full") 0)])];
  (* dry-run *) [(None, [ODefault (DefAll (VBool false) (txt "n") 0)])];
  (* exclude *) [];
  (* exec-id *) [];
  (* expire-auto *) [(None, [ODefault (DefAll (VBool true) (txt "y") 0)])];
  (* filter *) [];
  (* force *) [((Some [3]%nat), [OValid None 56 [DepBool false]; ODefault (DefAll (VBool false) (txt "n") 0)]);
    (None, [ODefault (DefAll (VBool false) (txt "n") 0)])];
  (* help *) [(None, [ODefault (DefAll (VBool false) (txt "n") 0)])];
  (* ignore-missing *) [(None, [ODefault (DefAll (VBool false) (txt "n") 0)])];
  (* io-timeout *) [(None, [ORange (RangeAll 100 3600000); ODefault (DefAll (VInt 60000) (txt "1m") 0)])];
  (* job-retry *) [((Some [1; 2]%nat), [ORange (RangeAll 0 360); ODefault (DefAll (VInt 1) (txt "1") 0)]);
    (None, [ORange (RangeAll 0 360); ODefault (DefAll (VInt 2) (txt "2") 0)])];
  (* job-retry-interval *) [(None, [ORange (RangeAll 0 900000); ODefault (DefAll (VInt 15000) (txt "15s") 0)])];
  (* link-all *) [(None, [ODefault (DefAll (VBool false) (txt "n") 0)])];
  (* link-map *) [];
  (* lock *) [];
  (* lock-path *) [(None, [ODefault (DefAll (VStr (txt "/tmp/pgbackrest")) (txt "/tmp/pgbackrest") 0)])];
  (* log-level-console *) [(None, [OAllow [(AllowText (txt "off"), false); (AllowText (txt "error"), false); (AllowText (txt "warn"), false); (AllowText (txt "info"), false); (AllowText (txt "detail"), false); (AllowText (txt "debug"), false); (AllowText (txt "trace"), false)]; ODefault (DefAll (VZero) (txt "warn") 2)])];
  (* log-level-file *) [(None, [OAllow [(AllowText (txt "off"), false); (AllowText (txt "error"), false); (AllowText (txt "warn"), false); (AllowText (txt "info"), false); (AllowText (txt "detail"), false); (AllowText (txt "debug"), false); (AllowText (txt "trace"), false)]; ODefault (DefAll (VZero) (txt "info") 3)])];
  (* log-level-stderr *) [(None, [OAllow [(AllowText (txt "off"), false); (AllowText (txt "error"), false); (AllowText (txt "warn"), false); (AllowText (txt "info"), false); (AllowText (txt "detail"), false); (AllowText (txt "debug"), false); (AllowText (txt "trace"), false)]; ODefault (DefAll (VZero) (txt "off") 0)])];
  (* log-path *) [(None, [ODefault (DefAll (VStr (txt "/var/log/pgbackrest")) (txt "/var/log/pgbackrest") 0)])];
  (* log-subprocess *) [(None, [ODefault (DefAll (VBool false) (txt "n") 0)])];
  (* log-timestamp *) [(None, [ODefault (DefAll (VBool true) (txt "y") 0)])];
  (* manifest-save-threshold *) [(None, [ORange (RangeAll 1 1099511627776); ODefault (DefAll (VInt 1073741824) (txt "1GiB") 0)])];
  (* neutral-umask *) [(None, [ODefault (DefAll (VBool true) (txt "y") 0)])];
  (* oldest *) [((Some [5]%nat), [OValid None 176 []; ODefault (DefAll (VBool false) (txt "n") 0)]);
    (None, [ODefault (DefAll (VBool false) (txt "n") 0)])];
  (* online *) [(None, [ODefault (DefAll (VBool true) (txt "y") 0)])];
  (* output *) [((Some [20]%nat), [OAllow [(AllowText (txt "none"), false); (AllowText (txt "text"), false)]; ODefault (DefAll (VZero) (txt "none") 0)]);
    ((Some [21]%nat), [OAllow [(AllowText (txt "text"), false); (AllowText (txt "num"), false)]; ODefault (DefAll (VZero) (txt "text") 0)]);
    (None, [OAllow [(AllowText (txt "text"), false); (AllowText (txt "json"), false)]; ODefault (DefAll (VZero) (txt "text") 0)])];
  (* page-header-check *) [(None, [ODefault (DefAll (VBool true) (txt "y") 0)])];
  (* pg *) [(None, [ORange (RangeAll 1 256)])];
  (* pg-database *) [(None, [OValid None 74 []; ODefault (DefAll (VStr (txt "postgres")) (txt "postgres") 0)])];
  (* pg-host *) [(None, [OValid None 73 [DepBool false]])];
  (* pg-host-ca-file *) [(None, [OValid None 71 [DepText (txt "tls")]])];
  (* pg-host-ca-path *) [(None, [OValid None 71 [DepText (txt "tls")]])];
  (* pg-host-cert-file *) [(None, [OValid None 71 [DepText (txt "tls")]])];
  (* pg-host-cmd *) [(None, [OValid None 71 [DepText (txt "ssh")]; ODefault DefDynamic])];
  (* pg-host-config *) [(None, [OValid None 61 []; ODefault (DefAll (VStr (txt "/etc/pgbackrest/pgbackrest.conf")) (txt "/etc/pgbackrest/pgbackrest.conf") 0)])];
  (* pg-host-config-include-path *) [(None, [OValid None 61 []; ODefault (DefAll (VStr (txt "/etc/pgbackrest/conf.d")) (txt "/etc/pgbackrest/conf.d") 0)])];
  (* pg-host-config-path *) [(None, [OValid None 61 []; ODefault (DefAll (VStr (txt "/etc/pgbackrest")) (txt "/etc/pgbackrest") 0)])];
  (* pg-host-key-file *) [(None, [OValid None 71 [DepText (txt "tls")]])];
  (* pg-host-port *) [(None, [OValid None 71 [DepText (txt "ssh"); DepText (txt "tls")]; ORange (RangeAll 0 65535); ODefault (DefMap [(txt "tls", (VInt 8432, txt "8432"))])])];
  (* pg-host-type *) [(None, [OValid None 61 []; OAllow [(AllowText (txt "ssh"), false); (AllowText (txt "tls"), false)]; ODefault (DefAll (VZero) (txt "ssh") 0)])];
  (* pg-host-user *) [(None, [OValid None 71 [DepText (txt "ssh")]; ODefault (DefAll (VStr (txt "postgres")) (txt "postgres") 0)])];
  (* pg-local *) [(None, [ODefault (DefAll (VBool false) (txt "n") 0)])];
  (* pg-path *) [((Some [2; 8]%nat), [ORequired]);
    ((Some [4]%nat), [OValid None 176 []])];
  (* pg-port *) [(None, [OValid None 74 []; ORange (RangeAll 0 65535); ODefault (DefAll (VInt 5432) (txt "5432") 0)])];
  (* pg-socket-path *) [(None, [OValid None 74 []])];
  (* pg-user *) [(None, [OValid None 74 []])];
  (* pg-version-force *) [];
  (* priority *) [(None, [ORange (RangeAll (-20) 19)])];
  (* process *) [(None, [ORange (RangeAll 0 1024)])];
  (* process-max *) [(None, [ORange (RangeAll 1 999); ODefault (DefAll (VInt 1) (txt "1") 0)])];
  (* protocol-timeout *) [(None, [ORange (RangeAll 100 604800000); ODefault (DefAll (VInt 1860000) (txt "31m") 0)])];
  (* raw *) [(None, [ODefault (DefAll (VBool false) (txt "n") 0)])];
  (* recovery-option *) [(None, [OValid None 196 [DepText (txt "default"); DepText (txt "immediate"); DepText (txt "lsn"); DepText (txt "name"); DepText (txt "time"); DepText (txt "standby"); DepText (txt "xid")]])];
  (* recurse *) [(None, [ODefault (DefAll (VBool false) (txt "n") 0)])];
  (* reference *) [];
  (* remote-type *) [(None, [OAllow [(AllowText (txt "pg"), false); (AllowText (txt "repo"), false)]])];
  (* repo *) [(None, [ORange (RangeAll 1 256)])];
  (* repo-azure-account *) [(None, [OValid None 168 [DepText (txt "azure")]])];
  (* repo-azure-container *) [(None, [OValid None 168 [DepText (txt "azure")]])];
  (* repo-azure-endpoint *) [(None, [OValid None 168 [DepText (txt "azure")]; ODefault (DefAll (VStr (txt "blob.core.windows.net")) (txt "blob.core.windows.net") 0)])];
  (* repo-azure-key *) [(None, [OValid None 93 [DepText (txt "shared"); DepText (txt "sas")]])];
  (* repo-azure-key-type *) [(None, [OValid None 168 [DepText (txt "azure")]; OAllow [(AllowText (txt "shared"), false); (AllowText (txt "sas"), false); (AllowText (txt "auto"), false)]; ODefault (DefAll (VZero) (txt "shared") 0)])];
  (* repo-azure-uri-style *) [(None, [OValid None 168 [DepText (txt "azure")]; OAllow [(AllowText (txt "host"), false); (AllowText (txt "path"), false)]; ODefault (DefAll (VZero) (txt "host") 0)])];
  (* repo-block *) [(None, [OValid (Some (VBool false)) 101 [DepBool true]; ODefault (DefAll (VBool false) (txt "n") 0)])];
  (* repo-block-age-map *) [(None, [OValid None 95 [DepBool true]])];
  (* repo-block-checksum-size-map *) [(None, [OValid None 95 [DepBool true]])];
  (* repo-block-size-map *) [(None, [OValid None 95 [DepBool true]])];
  (* repo-block-size-super *) [(None, [OValid None 95 [DepBool true]; ORange (RangeAll 32768 16777216); ODefault (DefAll (VInt 262144) (txt "256KiB") 0)])];
  (* repo-block-size-super-full *) [(None, [OValid None 95 [DepBool true]; ORange (RangeAll 32768 16777216); ODefault (DefAll (VInt 1048576) (txt "1MiB") 0)])];
  (* repo-bundle *) [(None, [ODefault (DefAll (VBool false) (txt "n") 0)])];
  (* repo-bundle-limit *) [(None, [OValid None 101 [DepBool true]; ORange (RangeAll 8192 1125899906842624); ODefault (DefAll (VInt 2097152) (txt "2MiB") 0)])];
  (* repo-bundle-size *) [(None, [OValid None 101 [DepBool true]; ORange (RangeAll 1048576 1125899906842624); ODefault (DefAll (VInt 20971520) (txt "20MiB") 0)])];
  (* repo-cipher-pass *) [(None, [OValid None 105 [DepText (txt "aes-256-cbc")]])];
  (* repo-cipher-type *) [(None, [OAllow [(AllowText (txt "none"), false); (AllowText (txt "aes-256-cbc"), false)]; ODefault (DefAll (VZero) (txt "none") 0)])];
  (* repo-gcs-bucket *) [(None, [OValid None 109 []])];
  (* repo-gcs-endpoint *) [(None, [OValid None 109 []; ODefault (DefAll (VStr (txt "storage.googleapis.com")) (txt "storage.googleapis.com") 0)])];
  (* repo-gcs-key *) [(None, [OValid None 109 [DepText (txt "service"); DepText (txt "token")]])];
  (* repo-gcs-key-type *) [(None, [OValid None 168 [DepText (txt "gcs")]; OAllow [(AllowText (txt "service"), false); (AllowText (txt "token"), false); (AllowText (txt "auto"), false)]; ODefault (DefAll (VZero) (txt "service") 0)])];
  (* repo-gcs-user-project *) [];
  (* repo-hardlink *) [(None, [OValid (Some (VBool false)) 101 [DepBool false]; ODefault (DefAll (VBool false) (txt "n") 0)])];
  (* repo-host *) [(None, [OValid None 124 [DepBool false]])];
  (* repo-host-ca-file *) [(None, [OValid None 122 [DepText (txt "tls")]])];
  (* repo-host-ca-path *) [(None, [OValid None 122 [DepText (txt "tls")]])];
  (* repo-host-cert-file *) [(None, [OValid None 122 [DepText (txt "tls")]])];
  (* repo-host-cmd *) [(None, [OValid None 122 [DepText (txt "ssh")]; ODefault DefDynamic])];
  (* repo-host-config *) [(None, [OValid None 112 []; ODefault (DefAll (VStr (txt "/etc/pgbackrest/pgbackrest.conf")) (txt "/etc/pgbackrest/pgbackrest.conf") 0)])];
  (* repo-host-config-include-path *) [(None, [OValid None 112 []; ODefault (DefAll (VStr (txt "/etc/pgbackrest/conf.d")) (txt "/etc/pgbackrest/conf.d") 0)])];
  (* repo-host-config-path *) [(None, [OValid None 112 []; ODefault (DefAll (VStr (txt "/etc/pgbackrest")) (txt "/etc/pgbackrest") 0)])];
  (* repo-host-key-file *) [(None, [OValid None 122 [DepText (txt "tls")]])];
  (* repo-host-port *) [(None, [OValid None 122 [DepText (txt "ssh"); DepText (txt "tls")]; ORange (RangeAll 0 65535); ODefault (DefMap [(txt "tls", (VInt 8432, txt "8432"))])])];
  (* repo-host-type *) [(None, [OValid None 112 []; OAllow [(AllowText (txt "ssh"), false); (AllowText (txt "tls"), false)]; ODefault (DefAll (VZero) (txt "ssh") 0)])];
  (* repo-host-user *) [(None, [OValid None 122 [DepText (txt "ssh")]; ODefault (DefAll (VStr (txt "pgbackrest")) (txt "pgbackrest") 0)])];
  (* repo-local *) [(None, [ODefault (DefAll (VBool false) (txt "n") 0)])];
  (* repo-path *) [(None, [ODefault (DefAll (VStr (txt "/var/lib/pgbackrest")) (txt "/var/lib/pgbackrest") 0)])];
  (* repo-retention-archive *) [(None, [ORange (RangeAll 1 9999999)])];
  (* repo-retention-archive-type *) [(None, [OAllow [(AllowText (txt "full"), false); (AllowText (txt "diff"), false); (AllowText (txt "incr"), false)]; ODefault (DefAll (VZero) (txt "full") 0)])];
  (* repo-retention-diff *) [(None, [ORange (RangeAll 1 9999999)])];
  (* repo-retention-full *) [(None, [ORange (RangeAll 1 9999999)])];
  (* repo-retention-full-type *) [(None, [OAllow [(AllowText (txt "count"), false); (AllowText (txt "time"), false)]; ODefault (DefAll (VZero) (txt "count") 0)])];
  (* repo-retention-history *) [(None, [ORange (RangeAll 0 9999999)])];
  (* repo-s3-bucket *) [(None, [OValid None 168 [DepText (txt "s3")]])];
  (* repo-s3-endpoint *) [(None, [OValid None 168 [DepText (txt "s3")]])];
  (* repo-s3-key *) [(None, [OValid None 136 [DepText (txt "shared")]])];
  (* repo-s3-key-secret *) [(None, [OValid None 136 [DepText (txt "shared")]])];
  (* repo-s3-key-type *) [(None, [OValid None 168 [DepText (txt "s3")]; OAllow [(AllowText (txt "shared"), false); (AllowText (txt "auto"), false); (AllowText (txt "web-id"), false); (AllowText (txt "pod-id"), false); (AllowText (txt "process"), false)]; ODefault (DefAll (VZero) (txt "shared") 0)])];
  (* repo-s3-kms-key-id *) [(None, [OValid None 168 [DepText (txt "s3")]])];
  (* repo-s3-process-cmd *) [(None, [OValid None 136 [DepText (txt "process")]])];
  (* repo-s3-region *) [(None, [OValid None 168 [DepText (txt "s3")]])];
  (* repo-s3-requester-pays *) [(None, [OValid None 168 [DepText (txt "s3")]; ODefault (DefAll (VBool false) (txt "n") 0)])];
  (* repo-s3-role *) [(None, [OValid None 136 [DepText (txt "auto")]])];
  (* repo-s3-service *) [(None, [OValid None 168 [DepText (txt "s3")]; ODefault (DefAll (VStr (txt "s3")) (txt "s3") 0)])];
  (* repo-s3-sse-customer-key *) [(None, [OValid None 168 [DepText (txt "s3")]])];
  (* repo-s3-sts-host *) [(None, [OValid None 136 [DepText (txt "web-id")]; ODefault (DefAll (VStr (txt "sts.amazonaws.com")) (txt "sts.amazonaws.com") 0)])];
  (* repo-s3-token *) [(None, [OValid None 136 [DepText (txt "shared")]])];
  (* repo-s3-uri-style *) [(None, [OValid None 168 [DepText (txt "s3")]; OAllow [(AllowText (txt "host"), false); (AllowText (txt "path"), false)]; ODefault (DefAll (VZero) (txt "host") 0)])];
  (* repo-sftp-host *) [(None, [OValid None 168 [DepText (txt "sftp")]])];
  (* repo-sftp-host-fingerprint *) [(None, [OValid None 149 [DepText (txt "fingerprint"); DepText (txt "strict")]])];
  (* repo-sftp-host-key-check-type *) [(None, [OValid None 168 [DepText (txt "sftp")]; OAllow [(AllowText (txt "accept-new"), false); (AllowText (txt "fingerprint"), false); (AllowText (txt "none"), false); (AllowText (txt "strict"), false)]; ODefault (DefAll (VZero) (txt "strict") 0)])];
  (* repo-sftp-host-key-hash-type *) [(None, [OValid None 168 [DepText (txt "sftp")]; OAllow [(AllowText (txt "md5"), false); (AllowText (txt "sha1"), false); (AllowText (txt "sha256"), false)]])];
  (* repo-sftp-host-port *) [(None, [OValid None 168 [DepText (txt "sftp")]; ORange (RangeAll 1 65535); ODefault (DefAll (VInt 22) (txt "22") 0)])];
  (* repo-sftp-host-user *) [(None, [OValid None 168 [DepText (txt "sftp")]])];
  (* repo-sftp-known-host *) [(None, [OValid None 149 [DepText (txt "accept-new"); DepText (txt "strict")]])];
  (* repo-sftp-private-key-file *) [(None, [OValid None 168 [DepText (txt "sftp")]])];
  (* repo-sftp-private-key-passphrase *) [(None, [OValid None 168 [DepText (txt "sftp")]])];
  (* repo-sftp-public-key-file *) [(None, [OValid None 168 [DepText (txt "sftp")]])];
  (* repo-storage-ca-file *) [(None, [OValid None 168 [DepText (txt "azure"); DepText (txt "gcs"); DepText (txt "s3")]])];
  (* repo-storage-ca-path *) [(None, [OValid None 168 [DepText (txt "azure"); DepText (txt "gcs"); DepText (txt "s3")]])];
  (* repo-storage-host *) [(None, [OValid None 168 [DepText (txt "azure"); DepText (txt "s3")]])];
  (* repo-storage-port *) [(None, [OValid None 168 [DepText (txt "azure"); DepText (txt "s3")]; ORange (RangeAll 1 65535); ODefault (DefAll (VInt 443) (txt "443") 0)])];
  (* repo-storage-prefetch *) [(None, [OValid None 168 [DepText (txt "azure"); DepText (txt "gcs"); DepText (txt "s3")]; ORange (RangeAll 0 1024); ODefault (DefAll (VInt 3) (txt "3") 0)])];
  (* repo-storage-read-over *) [(None, [OValid None 168 [DepText (txt "azure"); DepText (txt "gcs"); DepText (txt "s3")]; ORange (RangeAll 0 1048576); ODefault (DefAll (VInt 65536) (txt "64KiB") 0)])];
  (* repo-storage-tag *) [(None, [OValid None 168 [DepText (txt "azure"); DepText (txt "gcs"); DepText (txt "s3")]])];
  (* repo-storage-upload-chunk-size *) [(None, [OValid None 168 [DepText (txt "azure"); DepText (txt "gcs"); DepText (txt "s3")]; ORange (RangeMap [(txt "azure", (4194304, 1073741824)); (txt "gcs", (4194304, 1073741824)); (txt "s3", (5242880, 1073741824))]); ODefault (DefMap [(txt "azure", (VInt 4194304, txt "4MiB")); (txt "gcs", (VInt 4194304, txt "4MiB")); (txt "s3", (VInt 5242880, txt "5MiB"))])])];
  (* repo-storage-verify-tls *) [(None, [OValid None 168 [DepText (txt "azure"); DepText (txt "gcs"); DepText (txt "s3")]; ODefault (DefAll (VBool true) (txt "y") 0)])];
  (* repo-symlink *) [(None, [OValid (Some (VBool false)) 168 [DepText (txt "posix")]; ODefault (DefAll (VBool true) (txt "y") 0)])];
  (* repo-target-time *) [];
  (* repo-type *) [(None, [OAllow [(AllowText (txt "azure"), false); (AllowText (txt "cifs"), false); (AllowText (txt "gcs"), false); (AllowText (txt "posix"), false); (AllowText (txt "s3"), false); (AllowText (txt "sftp"), negb ssh2)]; ODefault (DefAll (VZero) (txt "posix") 0)])];
  (* report *) [(None, [ODefault (DefAll (VBool false) (txt "n") 0)])];
  (* resume *) [(None, [ODefault (DefAll (VBool true) (txt "y") 0)])];
  (* sck-block *) [(None, [ODefault (DefAll (VBool false) (txt "n") 0)])];
  (* sck-keep-alive *) [(None, [ODefault (DefAll (VBool true) (txt "y") 0)])];
  (* set *) [((Some [0]%nat), [ORequired]);
    ((Some [7]%nat), [OValid None 176 []]);
    ((Some [8; 12]%nat), [ODefault (DefAll (VStr (txt "latest")) (txt "latest") 0); ORequired])];
  (* sort *) [(None, [OAllow [(AllowText (txt "none"), false); (AllowText (txt "asc"), false); (AllowText (txt "desc"), false)]; ODefault (DefAll (VZero) (txt "asc") 1)])];
  (* spool-path *) [((Some [1; 2]%nat), [OValid None 2 [DepBool true]; ODefault (DefAll (VStr (txt "/var/spool/pgbackrest")) (txt "/var/spool/pgbackrest") 0)]);
    (None, [ODefault (DefAll (VStr (txt "/var/spool/pgbackrest")) (txt "/var/spool/pgbackrest") 0)])];
  (* stanza *) [((Some [4; 7; 9; 10; 11; 18; 19]%nat), [ORequired])];
  (* start-fast *) [(None, [ODefault (DefAll (VBool false) (txt "n") 0)])];
  (* stop-auto *) [(None, [ODefault (DefAll (VBool false) (txt "n") 0)])];
  (* tablespace-map *) [];
  (* tablespace-map-all *) [];
  (* target *) [(None, [OValid None 196 [DepText (txt "lsn"); DepText (txt "name"); DepText (txt "time"); DepText (txt "xid")]])];
  (* target-action *) [(None, [OValid None 196 [DepText (txt "immediate"); DepText (txt "lsn"); DepText (txt "name"); DepText (txt "time"); DepText (txt "xid")]; OAllow [(AllowText (txt "pause"), false); (AllowText (txt "promote"), false); (AllowText (txt "shutdown"), false)]; ODefault (DefAll (VZero) (txt "pause") 0)])];
  (* target-exclusive *) [(None, [OValid None 196 [DepText (txt "lsn"); DepText (txt "time"); DepText (txt "xid")]; ODefault (DefAll (VBool false) (txt "n") 0)])];
  (* target-timeline *) [(None, [OValid None 196 [DepText (txt "default"); DepText (txt "lsn"); DepText (txt "name"); DepText (txt "standby"); DepText (txt "time"); DepText (txt "xid")]])];
  (* tcp-keep-alive-count *) [(None, [OValid None 172 [DepBool true]; ORange (RangeAll 1 32)])];
  (* tcp-keep-alive-idle *) [(None, [OValid None 172 [DepBool true]; ORange (RangeAll 1 3600)])];
  (* tcp-keep-alive-interval *) [(None, [OValid None 172 [DepBool true]; ORange (RangeAll 1 900)])];
  (* tls-cipher-12 *) [];
  (* tls-cipher-13 *) [];
  (* tls-server-address *) [(None, [ODefault (DefAll (VStr (txt "localhost")) (txt "localhost") 0)])];
  (* tls-server-auth *) [];
  (* tls-server-ca-file *) [];
  (* tls-server-cert-file *) [];
  (* tls-server-key-file *) [];
  (* tls-server-port *) [(None, [ORange (RangeAll 1 65535); ODefault (DefAll (VInt 8432) (txt "8432") 0)])];
  (* type *) [((Some [3]%nat), [OAllow [(AllowText (txt "full"), false); (AllowText (txt "diff"), false); (AllowText (txt "incr"), false)]; ODefault (DefAll (VZero) (txt "incr") 0)]);
    ((Some [7]%nat), [OAllow [(AllowText (txt "full"), false); (AllowText (txt "diff"), false); (AllowText (txt "incr"), false)]; ORequired]);
    ((Some [12]%nat), [OSequence; OAllow [(AllowText (txt "default"), false); (AllowText (txt "preserve"), false); (AllowText (txt "immediate"), false); (AllowText (txt "standby"), false); (AllowText (txt "none"), false); (AllowText (txt "name"), false); (AllowText (txt "time"), false); (AllowText (txt "lsn"), false); (AllowText (txt "xid"), false)]; ODefault (DefAll (VZero) (txt "default") 0)])];
  (* verbose *) [(None, [ODefault (DefAll (VBool false) (txt "n") 0)])];
  (* version *) [(None, [ODefault (DefAll (VBool false) (txt "n") 0)])]].
(** The flag sequence *)
Definition optSequence : list nat := [9; 14; 31; 47; 48; 49; 57; 93; 94; 109; 130; 136; 146; 174]%nat.
(** The commands for the roles main, async, local and remote *)
Definition optValid : list (list (list nat)) := [
  (* allow-root *) [[0; 1; 2; 3; 4; 5; 7; 8; 9; 10; 11; 12; 13; 14; 15; 16; 17; 18; 19; 20]; [1; 2]; [1; 2; 3; 12; 20]; [0; 1; 2; 3; 4; 5; 7; 8; 9; 10; 11; 12; 15; 16; 17; 20]];
  (* annotation *) [[0; 3]; []; []; []];
  (* archive-async *) [[1; 2]; [1; 2]; [1; 2]; [1; 2]];
  (* archive-check *) [[2; 3; 4]; [2]; []; []];
  (* archive-copy *) [[3]; []; []; []];
  (* archive-expire-before *) [[5]; []; []; []];
  (* archive-get-queue-max *) [[1]; [1]; []; []];
  (* archive-header-check *) [[2]; [2]; []; []];
  (* archive-missing-retry *) [[1]; []; []; []];
  (* archive-mode *) [[12]; []; []; []];
  (* archive-mode-check *) [[2; 3; 4]; [2]; []; []];
  (* archive-push-batch-size *) [[2]; [2]; []; []];
  (* archive-push-queue-max *) [[2]; [2]; []; []];
  (* archive-timeout *) [[1; 2; 3; 4]; []; []; []];
  (* backup-standby *) [[3; 4]; []; []; []];
  (* beta *) [[0; 1; 2; 3; 4; 5; 7; 8; 9; 10; 11; 12; 13; 14; 15; 16; 17; 18; 19; 20]; [1; 2]; [1; 2; 3; 12; 20]; [0; 1; 2; 3; 4; 5; 7; 8; 9; 10; 11; 12; 15; 16; 17; 20]];
  (* buffer-size *) [[0; 1; 2; 3; 4; 5; 7; 8; 9; 10; 11; 12; 13; 14; 15; 16; 17; 20]; [1; 2]; [1; 2; 3; 12; 20]; [0; 1; 2; 3; 4; 5; 7; 8; 9; 10; 11; 12; 15; 16; 17; 20]];
  (* checksum-page *) [[3]; []; []; []];
  (* cmd *) [[1; 2; 3; 12; 20]; [1; 2]; [1; 2; 3; 12; 20]; []];
  (* cmd-ssh *) [[0; 1; 2; 3; 4; 5; 7; 8; 9; 10; 11; 12; 15; 16; 17; 20]; [1; 2]; [1; 2; 3; 12; 20]; []];
  (* compress *) [[2; 3]; []; []; []];
  (* compress-level *) [[2; 3]; [2]; []; []];
  (* compress-level-network *) [[0; 1; 2; 3; 4; 5; 7; 8; 9; 10; 11; 12; 15; 16; 17; 20]; [1; 2]; [1; 2; 3; 12; 20]; []];
  (* compress-type *) [[2; 3]; [2]; []; []];
  (* config *) [[0; 1; 2; 3; 4; 5; 7; 8; 9; 10; 11; 12; 13; 14; 15; 16; 17; 18; 19; 20]; [1; 2]; [1; 2; 3; 12; 20]; [0; 1; 2; 3; 4; 5; 7; 8; 9; 10; 11; 12; 15; 16; 17; 20]];
  (* config-include-path *) [[0; 1; 2; 3; 4; 5; 7; 8; 9; 10; 11; 12; 13; 14; 15; 16; 17; 18; 19; 20]; [1; 2]; [1; 2; 3; 12; 20]; [0; 1; 2; 3; 4; 5; 7; 8; 9; 10; 11; 12; 15; 16; 17; 20]];
  (* config-path *) [[0; 1; 2; 3; 4; 5; 7; 8; 9; 10; 11; 12; 13; 14; 15; 16; 17; 18; 19; 20]; [1; 2]; [1; 2; 3; 12; 20]; [0; 1; 2; 3; 4; 5; 7; 8; 9; 10; 11; 12; 15; 16; 17; 20]];
  (* db-exclude *) [[12]; []; []; []];
  (* db-include *) [[12]; []; []; []];
  (* db-timeout *) [[3; 4; 15; 16; 17]; []; [3]; [3; 4; 15; 16; 17]];
  (* delta *) [[3; 12]; []; []; []];
  (* detail-level *) [[7]; []; []; []];
  (* dry-run *) [[5]; []; []; []];
  (* exclude *) [[3]; []; []; []];
  (* exec-id *) [[0; 1; 2; 3; 4; 5; 7; 8; 9; 10; 11; 12; 13; 14; 15; 16; 17; 18; 19; 20]; [1; 2]; [1; 2; 3; 12; 20]; [0; 1; 2; 3; 4; 5; 7; 8; 9; 10; 11; 12; 15; 16; 17; 20]];
  (* expire-auto *) [[3]; []; []; []];
  (* filter *) [[8; 10]; []; []; []];
  (* force *) [[3; 12; 15; 16; 19]; []; []; []];
  (* help *) [[6]; []; []; []];
  (* ignore-missing *) [[9]; []; []; []];
  (* io-timeout *) [[0; 1; 2; 3; 4; 5; 7; 8; 9; 10; 11; 12; 13; 14; 15; 16; 17; 20]; [1; 2]; [1; 2; 3; 12; 20]; [0; 1; 2; 3; 4; 5; 7; 8; 9; 10; 11; 12; 15; 16; 17; 20]];
  (* job-retry *) [[1; 2; 3; 12; 20]; [1; 2]; [1; 2; 3; 12; 20]; []];
  (* job-retry-interval *) [[1; 2; 3; 12; 20]; [1; 2]; [1; 2; 3; 12; 20]; []];
  (* link-all *) [[12]; []; []; []];
  (* link-map *) [[12]; []; []; []];
  (* lock *) [[]; []; []; [0; 2; 3; 5; 15; 16; 17]];
  (* lock-path *) [[0; 1; 2; 3; 5; 7; 12; 15; 16; 17; 18; 19]; [1; 2]; [1; 2; 3; 12]; [0; 1; 2; 3; 5; 7; 12; 15; 16; 17]];
  (* log-level-console *) [[0; 1; 2; 3; 4; 5; 7; 8; 9; 10; 11; 12; 13; 14; 15; 16; 17; 18; 19; 20]; [1; 2]; [1; 2; 3; 12; 20]; [0; 1; 2; 3; 4; 5; 7; 8; 9; 10; 11; 12; 15; 16; 17; 20]];
  (* log-level-file *) [[0; 1; 2; 3; 4; 5; 7; 8; 9; 10; 11; 12; 13; 14; 15; 16; 17; 18; 19; 20]; [1; 2]; [1; 2; 3; 12; 20]; [0; 1; 2; 3; 4; 5; 7; 8; 9; 10; 11; 12; 15; 16; 17; 20]];
  (* log-level-stderr *) [[0; 1; 2; 3; 4; 5; 7; 8; 9; 10; 11; 12; 13; 14; 15; 16; 17; 18; 19; 20]; [1; 2]; [1; 2; 3; 12; 20]; [0; 1; 2; 3; 4; 5; 7; 8; 9; 10; 11; 12; 15; 16; 17; 20]];
  (* log-path *) [[0; 1; 2; 3; 4; 5; 7; 8; 9; 10; 11; 12; 13; 14; 15; 16; 17; 18; 19; 20]; [1; 2]; [1; 2; 3; 12; 20]; [0; 1; 2; 3; 4; 5; 7; 8; 9; 10; 11; 12; 15; 16; 17; 20]];
  (* log-subprocess *) [[0; 1; 2; 3; 4; 5; 7; 8; 9; 10; 11; 12; 15; 16; 17; 20]; [1; 2]; [1; 2; 3; 12; 20]; [0; 1; 2; 3; 4; 5; 7; 8; 9; 10; 11; 12; 15; 16; 17; 20]];
  (* log-timestamp *) [[0; 1; 2; 3; 4; 5; 7; 8; 9; 10; 11; 12; 13; 14; 15; 16; 17; 18; 19; 20]; [1; 2]; [1; 2; 3; 12; 20]; [0; 1; 2; 3; 4; 5; 7; 8; 9; 10; 11; 12; 15; 16; 17; 20]];
  (* manifest-save-threshold *) [[3]; []; []; []];
  (* neutral-umask *) [[0; 1; 2; 3; 4; 5; 9; 10; 11; 12; 15; 16; 17; 18; 19; 20]; [1; 2]; [1; 2; 3; 12; 20]; [0; 1; 2; 3; 4; 5; 9; 10; 11; 12; 15; 16; 17; 20]];
  (* oldest *) [[5]; []; []; []];
  (* online *) [[3; 15; 17]; []; []; []];
  (* output *) [[7; 8; 10; 20; 21]; []; []; []];
  (* page-header-check *) [[3]; []; []; []];
  (* pg *) [[8]; []; [3]; []];
  (* pg-database *) [[3; 4; 15; 16; 17]; []; [3]; [3; 4; 15; 16; 17]];
  (* pg-host *) [[1; 2; 3; 4; 8; 12; 15; 16; 17]; [1; 2]; [1; 2; 3; 12]; []];
  (* pg-host-ca-file *) [[3; 4; 8; 15; 16; 17]; []; [3]; []];
  (* pg-host-ca-path *) [[3; 4; 8; 15; 16; 17]; []; [3]; []];
  (* pg-host-cert-file *) [[3; 4; 8; 15; 16; 17]; []; [3]; []];
  (* pg-host-cmd *) [[3; 4; 8; 15; 16; 17]; []; [3]; []];
  (* pg-host-config *) [[3; 4; 8; 15; 16; 17]; []; [3]; []];
  (* pg-host-config-include-path *) [[3; 4; 8; 15; 16; 17]; []; [3]; []];
  (* pg-host-config-path *) [[3; 4; 8; 15; 16; 17]; []; [3]; []];
  (* pg-host-key-file *) [[3; 4; 8; 15; 16; 17]; []; [3]; []];
  (* pg-host-port *) [[3; 4; 8; 15; 16; 17]; []; [3]; []];
  (* pg-host-type *) [[3; 4; 8; 15; 16; 17]; []; [3]; []];
  (* pg-host-user *) [[3; 4; 8; 15; 16; 17]; []; [3]; []];
  (* pg-local *) [[1; 2; 3; 4; 8; 12; 15; 16; 17]; [1; 2]; [1; 2; 3; 12]; []];
  (* pg-path *) [[1; 2; 3; 4; 8; 12; 15; 16; 17]; [1; 2]; [1; 2; 3; 12]; [1; 2; 3; 4; 8; 12; 15; 16; 17]];
  (* pg-port *) [[3; 4; 15; 16; 17]; []; [3]; [3; 4; 15; 16; 17]];
  (* pg-socket-path *) [[3; 4; 15; 16; 17]; []; [3]; [3; 4; 15; 16; 17]];
  (* pg-user *) [[3; 4; 15; 16; 17]; []; [3]; [3; 4; 15; 16; 17]];
  (* pg-version-force *) [[1; 2; 3; 4; 8; 12; 15; 16; 17; 20]; [1; 2]; [1; 2; 3; 12; 20]; [1; 2; 3; 4; 8; 12; 15; 16; 17; 20]];
  (* priority *) [[0; 1; 2; 3; 4; 5; 7; 8; 9; 10; 11; 12; 13; 14; 15; 16; 17; 18; 19; 20]; [1; 2]; [1; 2; 3; 12; 20]; [0; 1; 2; 3; 4; 5; 7; 8; 9; 10; 11; 12; 15; 16; 17; 20]];
  (* process *) [[]; []; [1; 2; 3; 12; 20]; [0; 1; 2; 3; 4; 5; 7; 8; 9; 10; 11; 12; 15; 16; 17; 20]];
  (* process-max *) [[1; 2; 3; 12; 20]; [1; 2]; []; []];
  (* protocol-timeout *) [[0; 1; 2; 3; 4; 5; 7; 8; 9; 10; 11; 12; 13; 15; 16; 17; 20]; [1; 2]; [1; 2; 3; 12; 20]; [0; 1; 2; 3; 4; 5; 7; 8; 9; 10; 11; 12; 15; 16; 17; 20]];
  (* raw *) [[9]; []; []; []];
  (* recovery-option *) [[12]; []; []; []];
  (* recurse *) [[10; 11]; []; []; []];
  (* reference *) [[8]; []; []; []];
  (* remote-type *) [[]; []; [1; 2; 3; 12; 20]; [0; 1; 2; 3; 4; 5; 7; 8; 9; 10; 11; 12; 15; 16; 17; 20]];
  (* repo *) [[0; 1; 3; 5; 7; 8; 9; 10; 11; 12; 16; 20]; [1]; [1; 3; 12; 20]; [0; 1; 2; 3; 4; 5; 7; 8; 9; 10; 11; 12; 15; 16; 17; 20]];
  (* repo-azure-account *) [[0; 1; 2; 3; 4; 5; 7; 8; 9; 10; 11; 12; 15; 16; 17; 20]; [1; 2]; [1; 2; 3; 12; 20]; [0; 1; 2; 3; 4; 5; 7; 8; 9; 10; 11; 12; 15; 16; 17; 20]];
  (* repo-azure-container *) [[0; 1; 2; 3; 4; 5; 7; 8; 9; 10; 11; 12; 15; 16; 17; 20]; [1; 2]; [1; 2; 3; 12; 20]; [0; 1; 2; 3; 4; 5; 7; 8; 9; 10; 11; 12; 15; 16; 17; 20]];
  (* repo-azure-endpoint *) [[0; 1; 2; 3; 4; 5; 7; 8; 9; 10; 11; 12; 15; 16; 17; 20]; [1; 2]; [1; 2; 3; 12; 20]; [0; 1; 2; 3; 4; 5; 7; 8; 9; 10; 11; 12; 15; 16; 17; 20]];
  (* repo-azure-key *) [[0; 1; 2; 3; 4; 5; 7; 8; 9; 10; 11; 12; 15; 16; 17; 20]; [1; 2]; [1; 2; 3; 12; 20]; [0; 1; 2; 3; 4; 5; 7; 8; 9; 10; 11; 12; 15; 16; 17; 20]];
  (* repo-azure-key-type *) [[0; 1; 2; 3; 4; 5; 7; 8; 9; 10; 11; 12; 15; 16; 17; 20]; [1; 2]; [1; 2; 3; 12; 20]; [0; 1; 2; 3; 4; 5; 7; 8; 9; 10; 11; 12; 15; 16; 17; 20]];
  (* repo-azure-uri-style *) [[0; 1; 2; 3; 4; 5; 7; 8; 9; 10; 11; 12; 15; 16; 17; 20]; [1; 2]; [1; 2; 3; 12; 20]; [0; 1; 2; 3; 4; 5; 7; 8; 9; 10; 11; 12; 15; 16; 17; 20]];
  (* repo-block *) [[3]; []; []; []];
  (* repo-block-age-map *) [[3]; []; []; []];
  (* repo-block-checksum-size-map *) [[3]; []; []; []];
  (* repo-block-size-map *) [[3]; []; []; []];
  (* repo-block-size-super *) [[3]; []; []; []];
  (* repo-block-size-super-full *) [[3]; []; []; []];
  (* repo-bundle *) [[3]; []; []; []];
  (* repo-bundle-limit *) [[3]; []; []; []];
  (* repo-bundle-size *) [[3]; []; []; []];
  (* repo-cipher-pass *) [[0; 1; 2; 3; 4; 5; 7; 8; 9; 10; 11; 12; 15; 16; 17; 20]; [1; 2]; [1; 2; 3; 12; 20]; [0; 1; 2; 3; 4; 5; 7; 8; 9; 10; 11; 12; 15; 16; 17; 20]];
  (* repo-cipher-type *) [[0; 1; 2; 3; 4; 5; 7; 8; 9; 10; 11; 12; 15; 16; 17; 20]; [1; 2]; [1; 2; 3; 12; 20]; [0; 1; 2; 3; 4; 5; 7; 8; 9; 10; 11; 12; 15; 16; 17; 20]];
  (* repo-gcs-bucket *) [[0; 1; 2; 3; 4; 5; 7; 8; 9; 10; 11; 12; 15; 16; 17; 20]; [1; 2]; [1; 2; 3; 12; 20]; [0; 1; 2; 3; 4; 5; 7; 8; 9; 10; 11; 12; 15; 16; 17; 20]];
  (* repo-gcs-endpoint *) [[0; 1; 2; 3; 4; 5; 7; 8; 9; 10; 11; 12; 15; 16; 17; 20]; [1; 2]; [1; 2; 3; 12; 20]; [0; 1; 2; 3; 4; 5; 7; 8; 9; 10; 11; 12; 15; 16; 17; 20]];
  (* repo-gcs-key *) [[0; 1; 2; 3; 4; 5; 7; 8; 9; 10; 11; 12; 15; 16; 17; 20]; [1; 2]; [1; 2; 3; 12; 20]; [0; 1; 2; 3; 4; 5; 7; 8; 9; 10; 11; 12; 15; 16; 17; 20]];
  (* repo-gcs-key-type *) [[0; 1; 2; 3; 4; 5; 7; 8; 9; 10; 11; 12; 15; 16; 17; 20]; [1; 2]; [1; 2; 3; 12; 20]; [0; 1; 2; 3; 4; 5; 7; 8; 9; 10; 11; 12; 15; 16; 17; 20]];
  (* repo-gcs-user-project *) [[0; 1; 2; 3; 4; 5; 7; 8; 9; 10; 11; 12; 15; 16; 17; 20]; [1; 2]; [1; 2; 3; 12; 20]; [0; 1; 2; 3; 4; 5; 7; 8; 9; 10; 11; 12; 15; 16; 17; 20]];
  (* repo-hardlink *) [[3]; []; []; []];
  (* repo-host *) [[0; 1; 2; 3; 4; 5; 7; 8; 9; 10; 11; 12; 15; 16; 17; 20]; [1; 2]; [1; 2; 3; 12; 20]; []];
  (* repo-host-ca-file *) [[0; 1; 2; 3; 4; 5; 7; 8; 9; 10; 11; 12; 15; 16; 17; 20]; [1; 2]; [1; 2; 3; 12; 20]; []];
  (* repo-host-ca-path *) [[0; 1; 2; 3; 4; 5; 7; 8; 9; 10; 11; 12; 15; 16; 17; 20]; [1; 2]; [1; 2; 3; 12; 20]; []];
  (* repo-host-cert-file *) [[0; 1; 2; 3; 4; 5; 7; 8; 9; 10; 11; 12; 15; 16; 17; 20]; [1; 2]; [1; 2; 3; 12; 20]; []];
  (* repo-host-cmd *) [[0; 1; 2; 3; 4; 5; 7; 8; 9; 10; 11; 12; 15; 16; 17; 20]; [1; 2]; [1; 2; 3; 12; 20]; []];
  (* repo-host-config *) [[0; 1; 2; 3; 4; 5; 7; 8; 9; 10; 11; 12; 15; 16; 17; 20]; [1; 2]; [1; 2; 3; 12; 20]; []];
  (* repo-host-config-include-path *) [[0; 1; 2; 3; 4; 5; 7; 8; 9; 10; 11; 12; 15; 16; 17; 20]; [1; 2]; [1; 2; 3; 12; 20]; []];
  (* repo-host-config-path *) [[0; 1; 2; 3; 4; 5; 7; 8; 9; 10; 11; 12; 15; 16; 17; 20]; [1; 2]; [1; 2; 3; 12; 20]; []];
  (* repo-host-key-file *) [[0; 1; 2; 3; 4; 5; 7; 8; 9; 10; 11; 12; 15; 16; 17; 20]; [1; 2]; [1; 2; 3; 12; 20]; []];
  (* repo-host-port *) [[0; 1; 2; 3; 4; 5; 7; 8; 9; 10; 11; 12; 15; 16; 17; 20]; [1; 2]; [1; 2; 3; 12; 20]; []];
  (* repo-host-type *) [[0; 1; 2; 3; 4; 5; 7; 8; 9; 10; 11; 12; 15; 16; 17; 20]; [1; 2]; [1; 2; 3; 12; 20]; []];
  (* repo-host-user *) [[0; 1; 2; 3; 4; 5; 7; 8; 9; 10; 11; 12; 15; 16; 17; 20]; [1; 2]; [1; 2; 3; 12; 20]; []];
  (* repo-local *) [[0; 1; 2; 3; 4; 5; 7; 8; 9; 10; 11; 12; 15; 16; 17; 20]; [1; 2]; [1; 2; 3; 12; 20]; []];
  (* repo-path *) [[0; 1; 2; 3; 4; 5; 7; 8; 9; 10; 11; 12; 15; 16; 17; 20]; [1; 2]; [1; 2; 3; 12; 20]; [0; 1; 2; 3; 4; 5; 7; 8; 9; 10; 11; 12; 15; 16; 17; 20]];
  (* repo-retention-archive *) [[3; 5]; []; []; []];
  (* repo-retention-archive-type *) [[3; 5]; []; []; []];
  (* repo-retention-diff *) [[3; 5]; []; []; []];
  (* repo-retention-full *) [[3; 5]; []; []; []];
  (* repo-retention-full-type *) [[3; 5]; []; []; []];
  (* repo-retention-history *) [[3; 5]; []; []; []];
  (* repo-s3-bucket *) [[0; 1; 2; 3; 4; 5; 7; 8; 9; 10; 11; 12; 15; 16; 17; 20]; [1; 2]; [1; 2; 3; 12; 20]; [0; 1; 2; 3; 4; 5; 7; 8; 9; 10; 11; 12; 15; 16; 17; 20]];
  (* repo-s3-endpoint *) [[0; 1; 2; 3; 4; 5; 7; 8; 9; 10; 11; 12; 15; 16; 17; 20]; [1; 2]; [1; 2; 3; 12; 20]; [0; 1; 2; 3; 4; 5; 7; 8; 9; 10; 11; 12; 15; 16; 17; 20]];
  (* repo-s3-key *) [[0; 1; 2; 3; 4; 5; 7; 8; 9; 10; 11; 12; 15; 16; 17; 20]; [1; 2]; [1; 2; 3; 12; 20]; [0; 1; 2; 3; 4; 5; 7; 8; 9; 10; 11; 12; 15; 16; 17; 20]];
  (* repo-s3-key-secret *) [[0; 1; 2; 3; 4; 5; 7; 8; 9; 10; 11; 12; 15; 16; 17; 20]; [1; 2]; [1; 2; 3; 12; 20]; [0; 1; 2; 3; 4; 5; 7; 8; 9; 10; 11; 12; 15; 16; 17; 20]];
  (* repo-s3-key-type *) [[0; 1; 2; 3; 4; 5; 7; 8; 9; 10; 11; 12; 15; 16; 17; 20]; [1; 2]; [1; 2; 3; 12; 20]; [0; 1; 2; 3; 4; 5; 7; 8; 9; 10; 11; 12; 15; 16; 17; 20]];
  (* repo-s3-kms-key-id *) [[0; 1; 2; 3; 4; 5; 7; 8; 9; 10; 11; 12; 15; 16; 17; 20]; [1; 2]; [1; 2; 3; 12; 20]; [0; 1; 2; 3; 4; 5; 7; 8; 9; 10; 11; 12; 15; 16; 17; 20]];
  (* repo-s3-process-cmd *) [[0; 1; 2; 3; 4; 5; 7; 8; 9; 10; 11; 12; 15; 16; 17; 20]; [1; 2]; [1; 2; 3; 12; 20]; [0; 1; 2; 3; 4; 5; 7; 8; 9; 10; 11; 12; 15; 16; 17; 20]];
  (* repo-s3-region *) [[0; 1; 2; 3; 4; 5; 7; 8; 9; 10; 11; 12; 15; 16; 17; 20]; [1; 2]; [1; 2; 3; 12; 20]; [0; 1; 2; 3; 4; 5; 7; 8; 9; 10; 11; 12; 15; 16; 17; 20]];
  (* repo-s3-requester-pays *) [[0; 1; 2; 3; 4; 5; 7; 8; 9; 10; 11; 12; 15; 16; 17; 20]; [1; 2]; [1; 2; 3; 12; 20]; [0; 1; 2; 3; 4; 5; 7; 8; 9; 10; 11; 12; 15; 16; 17; 20]];
  (* repo-s3-role *) [[0; 1; 2; 3; 4; 5; 7; 8; 9; 10; 11; 12; 15; 16; 17; 20]; [1; 2]; [1; 2; 3; 12; 20]; [0; 1; 2; 3; 4; 5; 7; 8; 9; 10; 11; 12; 15; 16; 17; 20]];
  (* repo-s3-service *) [[0; 1; 2; 3; 4; 5; 7; 8; 9; 10; 11; 12; 15; 16; 17; 20]; [1; 2]; [1; 2; 3; 12; 20]; [0; 1; 2; 3; 4; 5; 7; 8; 9; 10; 11; 12; 15; 16; 17; 20]];
  (* repo-s3-sse-customer-key *) [[0; 1; 2; 3; 4; 5; 7; 8; 9; 10; 11; 12; 15; 16; 17; 20]; [1; 2]; [1; 2; 3; 12; 20]; [0; 1; 2; 3; 4; 5; 7; 8; 9; 10; 11; 12; 15; 16; 17; 20]];
  (* repo-s3-sts-host *) [[0; 1; 2; 3; 4; 5; 7; 8; 9; 10; 11; 12; 15; 16; 17; 20]; [1; 2]; [1; 2; 3; 12; 20]; [0; 1; 2; 3; 4; 5; 7; 8; 9; 10; 11; 12; 15; 16; 17; 20]];
  (* repo-s3-token *) [[0; 1; 2; 3; 4; 5; 7; 8; 9; 10; 11; 12; 15; 16; 17; 20]; [1; 2]; [1; 2; 3; 12; 20]; [0; 1; 2; 3; 4; 5; 7; 8; 9; 10; 11; 12; 15; 16; 17; 20]];
  (* repo-s3-uri-style *) [[0; 1; 2; 3; 4; 5; 7; 8; 9; 10; 11; 12; 15; 16; 17; 20]; [1; 2]; [1; 2; 3; 12; 20]; [0; 1; 2; 3; 4; 5; 7; 8; 9; 10; 11; 12; 15; 16; 17; 20]];
  (* repo-sftp-host *) [[0; 1; 2; 3; 4; 5; 7; 8; 9; 10; 11; 12; 15; 16; 17; 20]; [1; 2]; [1; 2; 3; 12; 20]; [0; 1; 2; 3; 4; 5; 7; 8; 9; 10; 11; 12; 15; 16; 17; 20]];
  (* repo-sftp-host-fingerprint *) [[0; 1; 2; 3; 4; 5; 7; 8; 9; 10; 11; 12; 15; 16; 17; 20]; [1; 2]; [1; 2; 3; 12; 20]; [0; 1; 2; 3; 4; 5; 7; 8; 9; 10; 11; 12; 15; 16; 17; 20]];
  (* repo-sftp-host-key-check-type *) [[0; 1; 2; 3; 4; 5; 7; 8; 9; 10; 11; 12; 15; 16; 17; 20]; [1; 2]; [1; 2; 3; 12; 20]; [0; 1; 2; 3; 4; 5; 7; 8; 9; 10; 11; 12; 15; 16; 17; 20]];
  (* repo-sftp-host-key-hash-type *) [[0; 1; 2; 3; 4; 5; 7; 8; 9; 10; 11; 12; 15; 16; 17; 20]; [1; 2]; [1; 2; 3; 12; 20]; [0; 1; 2; 3; 4; 5; 7; 8; 9; 10; 11; 12; 15; 16; 17; 20]];
  (* repo-sftp-host-port *) [[0; 1; 2; 3; 4; 5; 7; 8; 9; 10; 11; 12; 15; 16; 17; 20]; [1; 2]; [1; 2; 3; 12; 20]; [0; 1; 2; 3; 4; 5; 7; 8; 9; 10; 11; 12; 15; 16; 17; 20]];
  (* repo-sftp-host-user *) [[0; 1; 2; 3; 4; 5; 7; 8; 9; 10; 11; 12; 15; 16; 17; 20]; [1; 2]; [1; 2; 3; 12; 20]; [0; 1; 2; 3; 4; 5; 7; 8; 9; 10; 11; 12; 15; 16; 17; 20]];
  (* repo-sftp-known-host *) [[0; 1; 2; 3; 4; 5; 7; 8; 9; 10; 11; 12; 15; 16; 17; 20]; [1; 2]; [1; 2; 3; 12; 20]; [0; 1; 2; 3; 4; 5; 7; 8; 9; 10; 11; 12; 15; 16; 17; 20]];
  (* repo-sftp-private-key-file *) [[0; 1; 2; 3; 4; 5; 7; 8; 9; 10; 11; 12; 15; 16; 17; 20]; [1; 2]; [1; 2; 3; 12; 20]; [0; 1; 2; 3; 4; 5; 7; 8; 9; 10; 11; 12; 15; 16; 17; 20]];
  (* repo-sftp-private-key-passphrase *) [[0; 1; 2; 3; 4; 5; 7; 8; 9; 10; 11; 12; 15; 16; 17; 20]; [1; 2]; [1; 2; 3; 12; 20]; [0; 1; 2; 3; 4; 5; 7; 8; 9; 10; 11; 12; 15; 16; 17; 20]];
  (* repo-sftp-public-key-file *) [[0; 1; 2; 3; 4; 5; 7; 8; 9; 10; 11; 12; 15; 16; 17; 20]; [1; 2]; [1; 2; 3; 12; 20]; [0; 1; 2; 3; 4; 5; 7; 8; 9; 10; 11; 12; 15; 16; 17; 20]];
  (* repo-storage-ca-file *) [[0; 1; 2; 3; 4; 5; 7; 8; 9; 10; 11; 12; 15; 16; 17; 20]; [1; 2]; [1; 2; 3; 12; 20]; [0; 1; 2; 3; 4; 5; 7; 8; 9; 10; 11; 12; 15; 16; 17; 20]];
  (* repo-storage-ca-path *) [[0; 1; 2; 3; 4; 5; 7; 8; 9; 10; 11; 12; 15; 16; 17; 20]; [1; 2]; [1; 2; 3; 12; 20]; [0; 1; 2; 3; 4; 5; 7; 8; 9; 10; 11; 12; 15; 16; 17; 20]];
  (* repo-storage-host *) [[0; 1; 2; 3; 4; 5; 7; 8; 9; 10; 11; 12; 15; 16; 17; 20]; [1; 2]; [1; 2; 3; 12; 20]; [0; 1; 2; 3; 4; 5; 7; 8; 9; 10; 11; 12; 15; 16; 17; 20]];
  (* repo-storage-port *) [[0; 1; 2; 3; 4; 5; 7; 8; 9; 10; 11; 12; 15; 16; 17; 20]; [1; 2]; [1; 2; 3; 12; 20]; [0; 1; 2; 3; 4; 5; 7; 8; 9; 10; 11; 12; 15; 16; 17; 20]];
  (* repo-storage-prefetch *) [[0; 1; 2; 3; 4; 5; 7; 8; 9; 10; 11; 12; 15; 16; 17; 20]; [1; 2]; [1; 2; 3; 12; 20]; [0; 1; 2; 3; 4; 5; 7; 8; 9; 10; 11; 12; 15; 16; 17; 20]];
  (* repo-storage-read-over *) [[0; 1; 2; 3; 4; 5; 7; 8; 9; 10; 11; 12; 15; 16; 17; 20]; [1; 2]; [1; 2; 3; 12; 20]; [0; 1; 2; 3; 4; 5; 7; 8; 9; 10; 11; 12; 15; 16; 17; 20]];
  (* repo-storage-tag *) [[0; 1; 2; 3; 4; 5; 7; 8; 9; 10; 11; 12; 15; 16; 17; 20]; [1; 2]; [1; 2; 3; 12; 20]; [0; 1; 2; 3; 4; 5; 7; 8; 9; 10; 11; 12; 15; 16; 17; 20]];
  (* repo-storage-upload-chunk-size *) [[0; 1; 2; 3; 4; 5; 7; 8; 9; 10; 11; 12; 15; 16; 17; 20]; [1; 2]; [1; 2; 3; 12; 20]; [0; 1; 2; 3; 4; 5; 7; 8; 9; 10; 11; 12; 15; 16; 17; 20]];
  (* repo-storage-verify-tls *) [[0; 1; 2; 3; 4; 5; 7; 8; 9; 10; 11; 12; 15; 16; 17; 20]; [1; 2]; [1; 2; 3; 12; 20]; [0; 1; 2; 3; 4; 5; 7; 8; 9; 10; 11; 12; 15; 16; 17; 20]];
  (* repo-symlink *) [[3; 5]; []; []; []];
  (* repo-target-time *) [[1; 7; 8; 9; 10; 12; 20]; [1]; [1; 12; 20]; []];
  (* repo-type *) [[0; 1; 2; 3; 4; 5; 7; 8; 9; 10; 11; 12; 15; 16; 17; 20]; [1; 2]; [1; 2; 3; 12; 20]; [0; 1; 2; 3; 4; 5; 7; 8; 9; 10; 11; 12; 15; 16; 17; 20]];
  (* report *) [[4]; []; []; []];
  (* resume *) [[3]; []; []; []];
  (* sck-block *) [[0; 1; 2; 3; 4; 5; 7; 8; 9; 10; 11; 12; 13; 14; 15; 16; 17; 20]; [1; 2]; [1; 2; 3; 12; 20]; [0; 1; 2; 3; 4; 5; 7; 8; 9; 10; 11; 12; 15; 16; 17; 20]];
  (* sck-keep-alive *) [[0; 1; 2; 3; 4; 5; 7; 8; 9; 10; 11; 12; 13; 14; 15; 16; 17; 20]; [1; 2]; [1; 2; 3; 12; 20]; [0; 1; 2; 3; 4; 5; 7; 8; 9; 10; 11; 12; 15; 16; 17; 20]];
  (* set *) [[0; 5; 7; 8; 12; 20]; []; []; []];
  (* sort *) [[10]; []; []; []];
  (* spool-path *) [[1; 2; 12]; [1; 2]; [1; 2; 12]; []];
  (* stanza *) [[0; 1; 2; 3; 4; 5; 7; 8; 9; 10; 11; 12; 15; 16; 17; 18; 19; 20]; [1; 2]; [1; 2; 3; 12; 20]; [0; 1; 2; 3; 4; 5; 7; 8; 9; 10; 11; 12; 15; 16; 17; 20]];
  (* start-fast *) [[3]; []; []; []];
  (* stop-auto *) [[3]; []; []; []];
  (* tablespace-map *) [[12]; []; []; []];
  (* tablespace-map-all *) [[12]; []; []; []];
  (* target *) [[12]; []; []; []];
  (* target-action *) [[12]; []; []; []];
  (* target-exclusive *) [[12]; []; []; []];
  (* target-timeline *) [[12]; []; []; []];
  (* tcp-keep-alive-count *) [[0; 1; 2; 3; 4; 5; 7; 8; 9; 10; 11; 12; 13; 14; 15; 16; 17; 20]; [1; 2]; [1; 2; 3; 12; 20]; [0; 1; 2; 3; 4; 5; 7; 8; 9; 10; 11; 12; 15; 16; 17; 20]];
  (* tcp-keep-alive-idle *) [[0; 1; 2; 3; 4; 5; 7; 8; 9; 10; 11; 12; 13; 14; 15; 16; 17; 20]; [1; 2]; [1; 2; 3; 12; 20]; [0; 1; 2; 3; 4; 5; 7; 8; 9; 10; 11; 12; 15; 16; 17; 20]];
  (* tcp-keep-alive-interval *) [[0; 1; 2; 3; 4; 5; 7; 8; 9; 10; 11; 12; 13; 14; 15; 16; 17; 20]; [1; 2]; [1; 2; 3; 12; 20]; [0; 1; 2; 3; 4; 5; 7; 8; 9; 10; 11; 12; 15; 16; 17; 20]];
  (* tls-cipher-12 *) [[0; 1; 2; 3; 4; 5; 7; 8; 9; 10; 11; 12; 13; 14; 15; 16; 17; 20]; [1; 2]; [1; 2; 3; 12; 20]; [0; 1; 2; 3; 4; 5; 7; 8; 9; 10; 11; 12; 15; 16; 17; 20]];
  (* tls-cipher-13 *) [[0; 1; 2; 3; 4; 5; 7; 8; 9; 10; 11; 12; 13; 14; 15; 16; 17; 20]; [1; 2]; [1; 2; 3; 12; 20]; [0; 1; 2; 3; 4; 5; 7; 8; 9; 10; 11; 12; 15; 16; 17; 20]];
  (* tls-server-address *) [[13; 14]; []; []; []];
  (* tls-server-auth *) [[13]; []; []; []];
  (* tls-server-ca-file *) [[13]; []; []; []];
  (* tls-server-cert-file *) [[13]; []; []; []];
  (* tls-server-key-file *) [[13]; []; []; []];
  (* tls-server-port *) [[13; 14]; []; []; []];
  (* type *) [[3; 7; 12]; []; []; []];
  (* verbose *) [[20]; []; []; []];
  (* version *) [[6]; []; []; []]]%nat.
(** optionResolveOrder[] *)
Definition optOrder : list nat := [176; 0; 1; 2; 5; 6; 7; 8; 9; 11; 12; 13; 14; 15; 16; 17; 18; 19; 20; 22; 23; 24; 25; 26; 27; 28; 29; 30; 31; 32; 33; 34; 35; 36; 38; 39; 40; 41; 42; 43; 44; 45; 46; 47; 48; 49; 50; 51; 52; 53; 54; 55; 56; 57; 58; 59; 73; 74; 75; 76; 77; 78; 79; 80; 81; 82; 83; 85; 86; 87; 88; 101; 102; 103; 105; 110; 111; 124; 125; 126; 127; 128; 129; 130; 131; 167; 168; 169; 170; 171; 172; 173; 174; 175; 177; 178; 179; 180; 185; 186; 187; 188; 189; 190; 191; 192; 193; 194; 195; 196; 197; 198; 3; 4; 10; 21; 37; 60; 61; 66; 67; 68; 71; 72; 84; 89; 90; 91; 93; 94; 95; 96; 97; 98; 99; 100; 104; 109; 112; 117; 118; 119; 122; 123; 132; 133; 136; 137; 138; 139; 140; 141; 142; 143; 144; 145; 146; 147; 149; 150; 151; 152; 153; 154; 155; 156; 157; 158; 159; 160; 161; 162; 163; 164; 165; 166; 181; 182; 183; 184; 62; 63; 64; 65; 69; 70; 92; 106; 107; 108; 113; 114; 115; 116; 120; 121; 134; 135; 148]%nat.

Definition progOptional (zst ssh2 : bool) (o : nat) : list rgroup := nth o (optOptional zst ssh2) [].
Definition progSequence (o : nat) : bool := existsb (Nat.eqb o) optSequence.
(** parse.c:1443-1457 cfgParseOptionValid() *)
Definition progValid (cmd role o : nat) : bool := existsb (Nat.eqb cmd) (nth role (nth o optValid []) []).
