*.vo
*.vok
*.vos
*.glob
.*.aux
.*.cache
.Makefile.d
.CoqMakefile.d
rocq/Makefile
rocq/Makefile.conf
