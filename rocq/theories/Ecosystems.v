(** pkg/lockfile/ecosystems.go and the ecosystem constants of the parsers *)
From Verif Require Import GoStr.
From Verif Require Export Osv.

(** parse-requirements-txt.go:13 PipEcosystem is in Osv.v; parse-pdm-lock.go:22,
    parse-pipenv-lock.go:18, parse-poetry-lock.go:26, parse-pylock.go:31 and
    parse-uv-lock.go:35 are equal to it *)
Definition CargoEcosystem := "crates.io".     (* parse-cargo-lock.go:20 *)
Definition ComposerEcosystem := "Packagist".  (* parse-composer-lock.go:23 *)
Definition BundlerEcosystem := "RubyGems".    (* parse-gemfile-lock.go:12 *)
Definition GoEcosystem := "Go".               (* parse-go-lock.go:11 *)
Definition MavenEcosystem := "Maven".         (* parse-maven-lock.go:67 *)
Definition MixEcosystem := "Hex".             (* parse-mix-lock.go:12 *)
(** parse-npm-lock.go:32; parse-bun-lock.go:17, parse-pnpm-lock.go:58 and
    parse-yarn-lock.go:13 are equal to it *)
Definition NpmEcosystem := "npm".
Definition NuGetEcosystem := "NuGet".         (* parse-nuget-lock.go:21 *)
Definition PubEcosystem := "Pub".             (* parse-pubspec-lock.go:60 *)
Definition CRANEcosystem := "CRAN".           (* parse-renv-lock.go:19 *)

(** ecosystems.go:3-17 KnownEcosystems *)
Definition known_ecosystems : list string :=
  [CRANEcosystem; NpmEcosystem; NuGetEcosystem; CargoEcosystem; BundlerEcosystem; ComposerEcosystem;
   GoEcosystem; MixEcosystem; MavenEcosystem; PipEcosystem; PubEcosystem].
