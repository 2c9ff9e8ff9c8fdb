#!/bin/sh
# Regenerate rocq/_CoqProject from the files in rocq/theories.
cd "$(dirname "$0")/../rocq" || exit 1
{ echo "-Q theories Verif"; echo; ls theories/*.v; } > _CoqProject
