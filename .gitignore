
*.cache
