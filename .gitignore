*.vo
*.vok
*.vos
*.glob
*.aux
.*.aux
.*.cache
*.d
.Makefile.d
rocq/Makefile
rocq/Makefile.conf
