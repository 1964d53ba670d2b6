*.vo
*.vok
*.vos
*.glob
*.aux
.lia.cache
.*.cache
rocq/Makefile*
rocq/.Makefile*
.CoqMakefile.d
